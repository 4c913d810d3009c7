(** Properties C20-C24: chunking and merging.
    Model: ChunkModel.v. Specification vocabulary: ChunkSpec.v. *)
From Verif Require Import Base BaseFacts CoordModel CoordSpec ArgSort ChunkModel ChunkSpec
  ChunkProofs ChunkProofs2 ChunkProofs3 ChunkProofs4 ChunkProofs5 ChunkProofs6.
From Coq Require Import Sorting.Permutation Sorting.Sorted Lia.

(** Rows used by the witnesses: step 1, one group key. *)
Definition row (i a b : Z) : seg := mkSeg i a b (Some 1) 0 0 0 false.
Definition plain (v o : option Z) (keep : bool) : chunker := mkChunker v o keep true 3 2 true.

Ltac grid := repeat (apply Forall_cons || apply Forall_nil); unfold grid_seg, on_grid; cbn;
  repeat split; try lia; match goal with |- (1 | ?x) => exists x; lia end.

(** * C20: chunk intervals *)
Theorem C20_whole_span : forall start stop overlap step keep,
  get_intervals start stop None overlap step keep = Ok [(start, stop)].
Proof. exact intervals_null. Qed.
Print Assumptions C20_whole_span.

Theorem C20_intervals : forall start stop len ov st keep,
  0 <= or0 st -> or0 ov < len ->
  let ns := len - or0 ov in
  let fits i := start + i * ns + or0 st <= stop /\
                (keep = false -> start + i * ns + len - or0 st <= stop) in
  if negb keep && (stop - start + or0 st <? len)
  then get_intervals start stop (Some len) ov st keep = Err ChunkError
  else exists n, 0 <= n /\
    get_intervals start stop (Some len) ov st keep
    = Ok (map (fun i => (start + i * ns, Z.min (start + i * ns + len - or0 st)
                                               (if keep then stop else start + i * ns + len - or0 st)))
              (zrange n)) /\
    forall i, 0 <= i -> (i < n <-> fits i).
Proof. exact intervals_spec. Qed.
Print Assumptions C20_intervals.

Theorem C20_errors : forall start stop len ov st keep,
  (len < or0 ov -> get_intervals start stop (Some len) ov st keep = Err ParameterError) /\
  (len = or0 ov -> get_intervals start stop (Some len) ov st keep
     = if (stop - start + or0 st <? len) && negb keep then Err ChunkError else Err ZeroDivision).
Proof. exact intervals_errors. Qed.
Print Assumptions C20_errors.

Theorem C20_disjoint : forall start stop len ov st keep ivs,
  0 < or0 st -> or0 st <= len -> or0 ov <= 0 ->
  get_intervals start stop (Some len) ov st keep = Ok ivs ->
  forall i j a b c d, 0 <= i < j -> znth ivs i = Some (a, b) -> znth ivs j = Some (c, d) -> b < c.
Proof. exact intervals_disjoint. Qed.
Print Assumptions C20_disjoint.

Theorem C20_inside : forall start stop len ov st keep ivs a b,
  0 <= or0 st -> or0 st <= len -> or0 ov < len ->
  get_intervals start stop (Some len) ov st keep = Ok ivs -> In (a, b) ivs ->
  start <= a /\ a <= b /\ b <= stop.
Proof. exact intervals_inside. Qed.
Print Assumptions C20_inside.

(** Coverage, for lengths of whole steps and every sample but the last. *)
Theorem C20_cover_partial : forall start stop len ov s x,
  0 < s -> 0 <= or0 ov -> or0 ov < len -> (s | len) -> (s | or0 ov) ->
  on_grid start s x -> start <= x -> x + s <= stop ->
  exists ivs a b, get_intervals start stop (Some len) ov (Some s) true = Ok ivs /\
    In (a, b) ivs /\ a <= x <= b.
Proof. exact intervals_cover. Qed.
Print Assumptions C20_cover_partial.

(** keep_partial does not keep a last chunk of one sample. *)
Theorem C20_last_sample_refuted : exists start stop len s x ivs,
  0 < s /\ (s | len) /\ on_grid start s x /\ start <= x <= stop /\
  get_intervals start stop (Some len) None (Some s) true = Ok ivs /\
  forall a b, In (a, b) ivs -> ~ (a <= x <= b).
Proof.
  exists 0, 10, 5, 1, 10, [(0, 4); (5, 9)]. repeat split; try lia; try (exists 5; lia); try (exists 10; lia).
  intros a b [E|[E|[]]]; injection E as <- <-; lia.
Qed.
Print Assumptions C20_last_sample_refuted.

(** A chunk length that is not a whole number of steps drops samples inside. *)
Theorem C20_fractional_length_refuted : exists start stop len s x ivs,
  0 < s /\ on_grid start s x /\ start <= x /\ x + s <= stop /\
  get_intervals start stop (Some len) None (Some s) true = Ok ivs /\
  forall a b, In (a, b) ivs -> ~ (a <= x <= b).
Proof.
  exists 0, 10, 5, 2, 4, [(0, 3); (5, 8)]. repeat split; try lia; try (exists 2; lia).
  intros a b [E|[E|[]]]; injection E as <- <-; lia.
Qed.
Print Assumptions C20_fractional_length_refuted.

Theorem C20_settings : forall c, validate_chunker c = Ok tt <->
  match c_value c with
  | Some v => 0 < v
  | None => c_keep c = false /\ or0 (c_overlap c) = 0
  end.
Proof. exact validate_ok. Qed.
Print Assumptions C20_settings.
Theorem C20_settings_error : forall c,
  validate_chunker c = Ok tt \/ validate_chunker c = Err ParameterError.
Proof. exact validate_cases. Qed.
Print Assumptions C20_settings_error.

Example C20_witness :
  get_intervals 0 29 (Some 10) (Some 5) (Some 1) false = Ok [(0, 9); (5, 14); (10, 19); (15, 24); (20, 29)] /\
  get_intervals 0 24 (Some 10) None (Some 1) true = Ok [(0, 9); (10, 19); (20, 24)] /\
  get_intervals 0 24 (Some 10) None (Some 1) false = Ok [(0, 9); (10, 19)] /\
  get_intervals 0 5 (Some 10) None (Some 1) false = Err ChunkError /\
  validate_chunker (plain (Some 10) None false) = Ok tt /\
  validate_chunker (plain None (Some 2) false) = Err ParameterError.
Proof. vm_compute; repeat split; reflexivity. Qed.

(** * C21: continuity groups *)
Theorem C21_continuity_groups : forall argsort num den rows, valid_argsort argsort -> 0 < den ->
  let args := argsort (map g_min rows) in
  let groups := continuity_groups argsort num den rows in
  zlen groups = zlen rows /\
  exists sorted, gather rows args = Some sorted /\ Permutation sorted rows /\
    StronglySorted Z.le (map g_min sorted) /\
    forall i j p q x y, 0 <= i <= j -> znth args i = Some p -> znth args j = Some q ->
      znth groups p = Some x -> znth groups q = Some y ->
      x <= y /\ (x = y <-> forall k, i < k <= j -> ~ gap_before num den sorted k).
Proof. exact continuity_spec. Qed.
Print Assumptions C21_continuity_groups.

Theorem C21_sampling_groups : forall argsort steps, valid_argsort argsort -> positive_steps steps ->
  let args := argsort (null_last steps) in
  let groups := sampling_groups argsort steps in
  zlen groups = zlen steps /\
  exists sorted, gather steps args = Some sorted /\ Permutation sorted steps /\
    forall i j p q x y, 0 <= i <= j -> znth args i = Some p -> znth args j = Some q ->
      znth groups p = Some x -> znth groups q = Some y ->
      x <= y /\ (x = y <-> forall k, i < k <= j -> ~ step_jump sorted k).
Proof. exact sampling_spec. Qed.
Print Assumptions C21_sampling_groups.

(** A label is the triple sampling group, column key, continuity group. *)
Theorem C21_labels : forall argsort c rows,
  valid_argsort argsort -> 0 < c_tol_den c -> positive_steps (map g_step rows) ->
  zlen (group_labels argsort c rows) = zlen rows /\
  forall i r, znth rows i = Some r ->
    exists s t, znth (sampling_groups argsort (map g_step rows)) i = Some s /\
      znth (continuity_groups argsort (c_tol_num c) (c_tol_den c) rows) i = Some t /\
      znth (group_labels argsort c rows) i = Some (s, g_key r, t).
Proof. exact labels_spec. Qed.
Print Assumptions C21_labels.

(** With one key, a common grid, no nesting and a tolerance below two samples,
    the groups are exactly mergeable: contiguous runs. *)
Theorem C21_groups_contiguous : forall argsort c base s key rows,
  valid_argsort argsort -> 0 < s -> 0 < c_tol_den c -> c_tol_num c < 2 * c_tol_den c ->
  Forall (grid_seg base s) rows -> (forall r, In r rows -> g_key r = key) ->
  (exists ordered, Permutation ordered rows /\ staggered ordered) ->
  forall lab, In lab (group_labels argsort c rows) ->
    good_group s (rows_with lab (group_labels argsort c rows) rows).
Proof. exact groups_good. Qed.
Print Assumptions C21_groups_contiguous.

(** Gaps are looked for across all keys at once, so a second station without a
    gap hides the gap of the first: its two segments share a group. *)
Theorem C21_other_key_hides_gap_refuted : exists c rows i j a b lab,
  znth rows i = Some a /\ znth rows j = Some b /\ g_key a = g_key b /\
  (forall r, In r rows -> g_key r = g_key a -> g_max r <= g_max a \/ g_min b <= g_min r) /\
  c_tol_num c * 1 < c_tol_den c * (g_min b - g_max a) /\ g_step b = Some 1 /\
  znth (group_labels stable_argsort c rows) i = Some lab /\
  znth (group_labels stable_argsort c rows) j = Some lab.
Proof.
  exists (plain None None false),
    [row 0 0 9; row 1 20 29; mkSeg 2 0 29 (Some 1) 1 0 0 false], 0, 1, (row 0 0 9), (row 1 20 29), (0, 0, 0).
  repeat split; try reflexivity. cbn. intros r [<-|[<-|[<-|[]]]]; cbn; intros; try lia; try discriminate.
Qed.
Print Assumptions C21_other_key_hides_gap_refuted.

(** Steps of descending segments are never told apart. *)
Theorem C21_negative_steps_refuted : exists steps,
  steps = [Some (-1); Some (-10)] /\ exists g, sampling_groups stable_argsort steps = [g; g].
Proof. exists [Some (-1); Some (-10)]. split; [reflexivity|]. exists 1. reflexivity. Qed.
Print Assumptions C21_negative_steps_refuted.

Theorem C21_warning : forall argsort c rows,
  valid_argsort argsort -> 0 < c_tol_den c -> positive_steps (map g_step rows) ->
  merge_warning argsort c rows = true <->
  3 * c_tol_den c < 2 * c_tol_num c /\
  exists i j lab x y, znth (group_labels argsort c rows) i = Some lab /\ znth (group_labels argsort c rows) j = Some lab /\
    znth (continuity_groups argsort 3 2 rows) i = Some x /\ znth (continuity_groups argsort 3 2 rows) j = Some y /\ x <> y.
Proof. exact merge_warning_spec. Qed.
Print Assumptions C21_warning.

Example C21_witness :
  valid_argsort stable_argsort /\
  continuity_groups stable_argsort 3 2 [row 0 20 29; row 1 0 9; row 2 10 19; row 3 40 49] = [0; 0; 0; 1] /\
  sampling_groups stable_argsort [Some 100; Some 10; Some 101; None; Some 10] = [1; 0; 1; 1; 0] /\
  gap_before 3 2 [row 0 0 9; row 1 12 19] 1 /\
  merge_warning stable_argsort (mkChunker None None false true 5 1 true) [row 0 0 9; row 1 12 19] = true /\
  merge_warning stable_argsort (mkChunker None None false true 5 1 true) [row 0 0 9; row 1 10 19] = false.
Proof.
  split; [exact stable_argsort_valid|]. repeat (split; [vm_compute; reflexivity|]). split; [|split; vm_compute; reflexivity].
  exists (row 1 12 19), 1. repeat split; try lia. intros m r' Hm. assert (m = 0) as -> by lia. cbn. intros [= <-]. cbn. lia.
Qed.

(** * C22: overlap removal *)
Theorem C22_overlap_removal_partial : forall base s rows,
  0 < s -> Forall (grid_seg base s) rows -> weakly_staggered rows ->
  ascending (concat (map (seg_samples s) (remove_overlaps rows))) /\
  forall x, In x (concat (map (seg_samples s) (remove_overlaps rows))) <->
            In x (concat (map (seg_samples s) rows)).
Proof. exact remove_overlaps_spec. Qed.
Print Assumptions C22_overlap_removal_partial.

Theorem C22_trimmed_disjoint_partial : forall base s rows,
  0 < s -> Forall (grid_seg base s) rows -> staggered rows -> disjoint_rows (remove_overlaps rows).
Proof. exact remove_disjoint. Qed.
Print Assumptions C22_trimmed_disjoint_partial.

(** Only the start changes, and a changed row is marked; every list of rows. *)
Theorem C22_fields : forall rows,
  Forall2 (fun r r' => g_idx r' = g_idx r /\ g_max r' = g_max r /\ g_step r' = g_step r /\
                       g_key r' = g_key r /\ g_dims r' = g_dims r /\ g_rest r' = g_rest r /\
                       g_mod r' = g_mod r || negb (g_min r' =? g_min r)) rows (remove_overlaps rows).
Proof. exact remove_overlaps_fields. Qed.
Print Assumptions C22_fields.

(** Nested rows: the row after a nested one is compared with the nested row only,
    so its overlap with the enclosing row stays. *)
Theorem C22_nested_refuted : exists rows,
  Forall (grid_seg 0 1) rows /\ StronglySorted Z.le (map g_min rows) /\
  ~ ascending (concat (map (seg_samples 1) (remove_overlaps rows))).
Proof.
  exists [row 0 0 9; row 1 2 5; row 2 7 12]. split; [|split].
  - grid.
  - cbn; repeat constructor; lia.
  - vm_compute. intuition discriminate.
Qed.
Print Assumptions C22_nested_refuted.

Example C22_witness :
  remove_overlaps [row 0 0 9; row 1 5 14; row 2 15 20]
  = [row 0 0 9; mkSeg 1 10 14 (Some 1) 0 0 0 true; row 2 15 20] /\
  staggered [row 0 0 9; row 1 5 14; row 2 15 20] /\
  Forall (grid_seg 0 1) [row 0 0 9; row 1 5 14; row 2 15 20].
Proof.
  split; [reflexivity|]. split; [cbn; lia|]. grid.
Qed.

(** * C23: chunk table and instructions *)
Theorem C23_instructions_partial : forall argsort srcs chs, valid_argsort argsort ->
  let trimmed := remove_overlaps (take_rows srcs (argsort (map g_min srcs))) in
  disjoint_rows trimmed ->
  (forall ch, In ch chs -> k_min ch <= k_max ch /\
     (exists s, In s trimmed /\ inside (k_min ch) s) /\ (exists s, In s trimmed /\ inside (k_max ch) s)) ->
  exists chs', Permutation chs' chs /\
    instructions argsort srcs chs
    = Ok (concat (map (fun ch => map (cut ch) (filter (meets ch) trimmed)) chs')).
Proof. exact instructions_spec. Qed.
Print Assumptions C23_instructions_partial.

(** The chunk table: one block of intervals per group, in order of first
    appearance; groups that are too short are dropped; all dropped is an error;
    groups whose rows disagree are an error. *)
Theorem C23_chunk_table : forall argsort c rows, rows <> [] -> validate_chunker c = Ok tt ->
  let labels := group_labels argsort c rows in
  let fine := forall lab, In lab labels -> group_fine c (rows_with lab labels rows) in
  let none := forall lab, In lab labels -> group_intervals c (rows_with lab labels rows) = Err ChunkError in
  (fine -> ~ none -> chunk argsort c rows
     = Ok (labels, number_chunks (concat (map (group_rows argsort c labels rows) (unique_labels [] labels))))) /\
  (none -> chunk argsort c rows = Err ChunkError) /\
  (forall out, chunk argsort c rows = Ok out -> fine /\ ~ none).
Proof. exact chunk_spec. Qed.
Print Assumptions C23_chunk_table.

Theorem C23_chunk_numbers : forall l i, znth (number_chunks l) i =
  match znth l i with Some ch => Some (mkChunk i (k_min ch) (k_max ch) (k_step ch) (k_group ch)) | None => None end.
Proof. exact number_spec. Qed.
Print Assumptions C23_chunk_numbers.

(** The advertised step. *)
Theorem C23_group_step_even : forall argsort snap rows s, valid_argsort argsort -> rows <> [] ->
  (forall r, In r rows -> g_step r = Some s) ->
  (snap = true \/ zlen rows < 2 -> group_step argsort snap rows = Some s) /\
  (forall ordered, Permutation ordered rows -> staggered ordered ->
     (forall i a b, znth ordered i = Some a -> znth ordered (i + 1) = Some b -> g_min b - g_max a = s) ->
     group_step argsort snap rows = Some s).
Proof. exact group_step_even. Qed.
Print Assumptions C23_group_step_even.

Theorem C23_group_step_gap : forall argsort rows a b, valid_argsort argsort -> 2 <= zlen rows ->
  (exists s, forall r, In r rows -> g_step r = Some s /\ 0 < s) ->
  forall ordered, Permutation ordered rows -> staggered ordered ->
  (exists i, znth ordered i = Some a /\ znth ordered (i + 1) = Some b) ->
  (forall s, g_step a = Some s -> 2 * s <= g_min b - g_max a) ->
  group_step argsort false rows = None.
Proof. exact group_step_gap. Qed.
Print Assumptions C23_group_step_gap.

Theorem C23_median_step : forall l, (forall x, In x l -> x <> None) -> l <> [] ->
  exists s, middle_step l = Some s /\ In (Some s) l /\
    2 * zlen (filter (fun x => x <? s) (some_steps l)) < zlen l /\
    zlen l <= 2 * zlen (filter (fun x => x <=? s) (some_steps l)).
Proof. exact middle_median. Qed.
Print Assumptions C23_median_step.

(** A segment nested in another stops the whole spool from merging. *)
Theorem C23_nested_refuted : exists rows,
  Forall (grid_seg 0 1) rows /\ (forall r, In r rows -> g_key r = 0) /\
  spool_chunk stable_argsort (plain None None false) rows = Err AssertionError.
Proof.
  exists [row 0 0 100; row 1 20 50]. split; [|split; [|vm_compute; reflexivity]].
  - grid.
  - cbn. intros r [<-|[<-|[]]]; reflexivity.
Qed.
Print Assumptions C23_nested_refuted.

(** A repeated segment followed by a contiguous one gives an instruction with
    reversed limits, which loads a sample twice. *)
Theorem C23_repeated_refuted : exists rows chs ins i,
  Forall (grid_seg 0 1) rows /\
  spool_chunk stable_argsort (plain None None false) rows = Ok (chs, ins) /\ In i ins /\ i_max i < i_min i /\
  ~ ascending (map fst (concat (patch_parts (fun j => map (fun x => (x, x)) (progression (if j =? 2 then 10 else 0) 1 10)) ins 0))).
Proof.
  exists [row 0 0 9; row 1 0 9; row 2 10 19], [mkChunk 0 0 19 (Some 1) (0, 0, 0)],
    [mkInstr 0 9 0 0 false; mkInstr 10 9 1 0 true; mkInstr 10 19 2 0 false], (mkInstr 10 9 1 0 true).
  split; [|split; [vm_compute; reflexivity|split; [cbn; auto|split; [cbn; lia|vm_compute; intuition discriminate]]]].
  grid.
Qed.
Print Assumptions C23_repeated_refuted.

(** A chunk that starts inside a gap (here merged by a tolerance of 20 samples)
    also gets an instruction with reversed limits. *)
Theorem C23_gap_boundary_refuted : exists rows chs ins i,
  Forall (grid_seg 0 1) rows /\ staggered rows /\
  spool_chunk stable_argsort (mkChunker (Some 15) None true true 20 1 true) rows = Ok (chs, ins) /\
  In i ins /\ i_max i < i_min i.
Proof.
  exists [row 0 0 9; row 1 20 49], [mkChunk 0 0 14 (Some 1) (0,0,0); mkChunk 1 15 29 (Some 1) (0,0,0);
    mkChunk 2 30 44 (Some 1) (0,0,0); mkChunk 3 45 49 (Some 1) (0,0,0)].
  eexists. exists (mkInstr 15 9 0 1 true). split; [|split; [cbn; lia|split; [vm_compute; reflexivity|split; [|cbn; lia]]]].
  - grid.
  - cbn. auto 10.
Qed.
Print Assumptions C23_gap_boundary_refuted.

Example C23_witness :
  spool_chunk stable_argsort (plain (Some 10) None false) [row 7 15 29; row 8 0 14]
  = Ok ([mkChunk 0 0 9 (Some 1) (0,0,0); mkChunk 1 10 19 (Some 1) (0,0,0); mkChunk 2 20 29 (Some 1) (0,0,0)],
        [mkInstr 0 9 8 0 true; mkInstr 10 14 8 1 true; mkInstr 15 19 7 1 true; mkInstr 20 29 7 2 true]) /\
  spool_chunk stable_argsort (plain None None false) [row 7 15 29; mkSeg 8 0 14 (Some 1) 0 0 1 false] = Err CoordMergeError /\
  spool_chunk stable_argsort (plain (Some 100) None false) [row 7 15 29] = Err ChunkError.
Proof. vm_compute; repeat split; reflexivity. Qed.

(** * C24: merged data *)
Theorem C24_streaming : forall D samples (parts : list (list D)),
  stream_merge samples parts = map Some (concat parts).
Proof. intros D. exact stream_merge_spec. Qed.
Print Assumptions C24_streaming.

Theorem C24_estimate : forall base s rows, 0 < s -> Forall (grid_seg base s) rows ->
  estimate_samples (map row_limits rows) = Some (zlen (concat (map (seg_samples s) rows))).
Proof. exact estimate_grid. Qed.
Print Assumptions C24_estimate.

Theorem C24_estimate_defined : forall rows n, estimate_samples rows = Some n ->
  forall mn mx st, In (mn, mx, st) rows -> exists s, st = Some s /\ s <> 0 /\ 0 <= round_half_even (mx - mn) s + 1.
Proof. exact estimate_some. Qed.
Print Assumptions C24_estimate_defined.

(** Any number of groups, each mergeable: every output patch holds exactly the
    samples of its interval, each once, in order, with the data of the signal its
    sources were cut from. *)
Theorem C24_chunk_data : forall D argsort c rows (load : Z -> list (Z * D)) (sg : label -> Z)
    (f : label -> Z -> D) labels chs,
  valid_argsort argsort -> rows <> [] -> chunk argsort c rows = Ok (labels, chs) ->
  zlen labels = zlen rows ->
  (forall lab, In lab labels ->
     good_group (sg lab) (rows_with lab labels rows) /\ whole_steps (sg lab) c /\
     (forall r, In r (rows_with lab labels rows) ->
        load (g_idx r) = map (fun x => (x, f lab x)) (seg_samples (sg lab) r))) ->
  exists ins, spool_chunk argsort c rows = Ok (chs, ins) /\
    forall ch, In ch chs -> k_min ch <= k_max ch /\
      concat (patch_parts load ins (k_idx ch))
      = signal (f (k_group ch)) (k_min ch) (sg (k_group ch)) (k_max ch) /\
      StronglySorted Z.lt (map i_min (filter (fun i => i_cur i =? k_idx ch) ins)).
Proof. intros D. exact spool_chunk_data. Qed.
Print Assumptions C24_chunk_data.

(** Merging a spool with one key: whatever the gaps, the merged patches hold every
    source sample, nothing else, and the source's data. *)
Theorem C24_merge_one_key : forall D argsort c base s key rows (load : Z -> list (Z * D)) (f : Z -> D),
  valid_argsort argsort -> validate_chunker c = Ok tt -> c_value c = None ->
  0 < s -> 0 < c_tol_den c -> c_tol_num c < 2 * c_tol_den c -> rows <> [] ->
  Forall (grid_seg base s) rows -> (forall r, In r rows -> g_key r = key) ->
  (exists ordered, Permutation ordered rows /\ staggered ordered) ->
  mergeable (c_raise c) rows ->
  (forall r, In r rows -> load (g_idx r) = map (fun x => (x, f x)) (seg_samples s r)) ->
  exists chs ins, spool_chunk argsort c rows = Ok (chs, ins) /\
    (forall ch, In ch chs -> concat (patch_parts load ins (k_idx ch)) = signal f (k_min ch) s (k_max ch)) /\
    (forall x, (exists r, In r rows /\ In x (seg_samples s r)) <->
               (exists ch, In ch chs /\ In x (map fst (signal f (k_min ch) s (k_max ch))))).
Proof. intros D. exact merge_one_key. Qed.
Print Assumptions C24_merge_one_key.

Definition w_rows := [row 7 15 29; row 8 0 16; row 9 50 59].
Example C24_witness :
  chunk stable_argsort (plain None None false) w_rows
  = Ok ([(0,0,0); (0,0,0); (0,0,1)], [mkChunk 0 0 29 (Some 1) (0,0,0); mkChunk 1 50 59 (Some 1) (0,0,1)]) /\
  (forall lab, In lab [(0,0,0); (0,0,0); (0,0,1)] ->
     good_group 1 (rows_with lab [(0,0,0); (0,0,0); (0,0,1)] w_rows)) /\
  stream_merge 2 [[1; 2]; []; [3; 4; 5]] = [Some 1; Some 2; Some 3; Some 4; Some 5].
Proof.
  split; [vm_compute; reflexivity|]. split; [|reflexivity].
  change [(0,0,0); (0,0,0); (0,0,1)] with (group_labels stable_argsort (plain None None false) w_rows).
  apply (groups_good stable_argsort (plain None None false) 0 1 0); cbn; try lia.
  - exact stable_argsort_valid.
  - grid.
  - intros r [<-|[<-|[<-|[]]]]; reflexivity.
  - exists [row 8 0 16; row 7 15 29; row 9 50 59]. split; [apply perm_swap|cbn; lia].
Qed.

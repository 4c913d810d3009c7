(** Properties C46, C47 and C49: aligning traces, rolling windows and padding.
    Model: ProcModel.v. Specification vocabulary: ProcSpec.v, CmSpec.v. *)
From Verif Require Import Base BaseFacts CoordModel CoordSpec NdModel NdSpec FrameModel ChunkModel
  CmModel CmSpec CmProofs16 CmProofs17 CmProofs18 CmProofs19 CmProofs18 ProcModel ProcSpec ProcProofs3 ProcProofs4 ProcProofs5 ProcProofs6 ProcProofs7.
From Coq Require Import Strings.String.
Local Open Scope Z_scope.
Local Open Scope list_scope.
Local Open Scope string_scope.

(** Patches for the witnesses: time (every 10 units) by distance, shifts along
    the distance as samples and as times. *)
Definition range_of (k : kind) (a s n : Z) : mcoord := M1 (CRange (mkRange k a (a + s * n) s n)).
Definition grid (nx ny : Z) : nd Z :=
  mkNd [nx; ny] (List.concat (map (fun i => map (fun j => 100 * i + j) (zrange ny)) (zrange nx))).
Definition al_p (n : Z) (shift : list Z) : patch Z := mkPatch
  (mkCm ["time"; "dist"]
     [("time", range_of KTime 1000 10 n); ("dist", range_of KInt 0 1 3);
      ("ns", M1 (CArr KInt shift)); ("ts", M1 (CArr KTime shift))]
     [("time", ["time"]); ("dist", ["dist"]); ("ns", ["dist"]); ("ts", ["dist"])])
  (grid n 3).
Definition one_p (k : kind) (a s n : Z) : patch Z := mkPatch
  (mkCm ["time"] [("time", range_of k a s n)] [("time", ["time"])]) (mkNd [n] (zrange n)).
Definition flat (r : result (patch Z)) : list Z := match r with Ok p => nd_flat (p_data p) | Err _ => [] end.
Definition shape (r : result (patch Z)) : list Z := match r with Ok p => nd_shape (p_data p) | Err _ => [] end.
Definition coords (r : result (patch Z)) (n : string) : option mcoord :=
  match r with Ok p => assoc n (cm_coords (p_cm p)) | Err _ => None end.

(** * C46: align_to_coord *)

(** Whenever it succeeds: the output sample at coordinate x of a trace whose shift
    is s is the input sample at x - s steps, or the fill value when there is none;
    the coordinate is the mode's span of the shifted one. Shifts in coordinate
    units are rounded up to whole samples, unless (full mode) some shift exceeds
    the length of the dimension, when all are truncated. *)
Theorem C46_align : forall A (p p' : patch A) m samples reverse fill dim name,
  wf_patch p -> plain_names (p_cm p) ->
  (samples = true \/ forall r, assoc dim (cm_coords (p_cm p)) = Some (M1 (CRange r)) -> r_step r < 20000000000) ->
  pt_align p m samples reverse fill dim name = Ok p' ->
  exists r c' lo hi trunc, In dim (cm_dims (p_cm p)) /\ ~ In dim (dims_of (p_cm p) name) /\ ~ In name (cm_dims (p_cm p)) /\
    assoc dim (cm_coords (p_cm p)) = Some (M1 (CRange r)) /\ 0 < r_step r /\
    aligned p p' m samples reverse trunc fill dim name r c' lo hi /\
    (samples = false -> (trunc = true <-> m = Full /\ far (p_cm p) r name)).
Proof. intros A. exact pt_align_ok. Qed.
Print Assumptions C46_align.

(** Valid mode contains no fill value. *)
Theorem C46_valid_no_fill : forall A (p p' : patch A) m samples reverse trunc fill dim name r c' lo hi,
  wf_patch p -> ~ In dim (dims_of (p_cm p) name) -> In dim (cm_dims (p_cm p)) ->
  aligned p p' m samples reverse trunc fill dim name r c' lo hi ->
  forall pos, m = Valid -> in_patch p' pos ->
  exists s, moved (p_cm p) r name samples reverse trunc pos s /\ 0 <= pos dim + lo - s < r_len r /\
    data_at p' pos = data_at p (at_dim pos dim (pos dim + lo - s)).
Proof. intros A. exact valid_no_fill. Qed.
Print Assumptions C46_valid_no_fill.

(** Full mode keeps every sample, at its coordinate moved by its shift. *)
Theorem C46_full_keeps : forall A (p p' : patch A) m samples reverse trunc fill dim name r c' lo hi,
  wf_patch p -> ~ In dim (dims_of (p_cm p) name) -> In dim (cm_dims (p_cm p)) ->
  assoc dim (cm_coords (p_cm p)) = Some (M1 (CRange r)) -> 0 < r_step r ->
  aligned p p' m samples reverse trunc fill dim name r c' lo hi ->
  forall pos v, m = Full -> in_patch p pos -> znth (c_values (CRange r)) (pos dim) = Some (Some v) ->
  exists s j, moved (p_cm p) r name samples reverse trunc pos s /\ in_patch p' (at_dim pos dim j) /\
    data_at p' (at_dim pos dim j) = data_at p pos /\
    znth (c_values c') j = Some (Some (v + s * r_step r)).
Proof. intros A. exact full_keeps. Qed.
Print Assumptions C46_full_keeps.

(** Full alignment by samples followed by the reverse one gives the original
    samples at their original coordinates, with w fill samples on either side. *)
Theorem C46_reverse_restores : forall A (p p1 p2 : patch A) reverse fill dim name m0,
  wf_patch p -> plain_names (p_cm p) ->
  assoc name (cm_coords (p_cm p)) = Some m0 -> settled m0 ->
  pt_align p Full true reverse fill dim name = Ok p1 ->
  pt_align p1 Full true (negb reverse) fill dim name = Ok p2 -> plain_names (p_cm p1) ->
  exists r c2 w, assoc dim (cm_coords (p_cm p)) = Some (M1 (CRange r)) /\ 0 <= w /\
    cm_dims (p_cm p2) = cm_dims (p_cm p) /\ assoc dim (cm_coords (p_cm p2)) = Some (M1 c2) /\
    c_values c2 = map Some (progression (r_start r - w * r_step r) (r_step r) (r_len r + 2 * w)) /\
    forall pos, in_patch p2 pos ->
      data_at p2 pos = let i := pos dim - w in
        if ((0 <=? i)%Z && (i <? r_len r)%Z)%bool then data_at p (at_dim pos dim i) else Some fill.
Proof. intros A. exact align_round_trip. Qed.
Print Assumptions C46_reverse_restores.

(** It succeeds for time dimensions when no shift exceeds the length (full mode:
    always) and (valid mode) some part is shared by all traces. *)
Theorem C46_succeeds : forall A (p : patch A) m samples reverse fill dim name r c,
  wf_patch p -> plain_names (p_cm p) -> (samples = true \/ r_step r < 20000000000) ->
  In dim (cm_dims (p_cm p)) -> assoc dim (cm_coords (p_cm p)) = Some (M1 (CRange r)) -> 0 < r_step r -> r_kind r = KTime ->
  assoc name (cm_coords (p_cm p)) = Some c -> has_values c -> ~ In name (cm_dims (p_cm p)) ->
  dims_of (p_cm p) name <> [] -> ~ In dim (dims_of (p_cm p) name) -> kinds_fit (r_kind r) (coord_kind c) samples ->
  (m <> Full -> forall pos v, within (p_cm p) (dims_of (p_cm p) name) pos -> coord_value (p_cm p) name pos v ->
     Z.abs (shift_unit (r_kind r) (coord_kind c) samples * v) <= (if samples then r_len r - 1 else r_max r - r_min r)) ->
  (m = Valid -> forall q1 q2 s1 s2, within (p_cm p) (dims_of (p_cm p) name) q1 -> within (p_cm p) (dims_of (p_cm p) name) q2 ->
     moved (p_cm p) r name samples reverse false q1 s1 -> moved (p_cm p) r name samples reverse false q2 s2 -> s1 - s2 <= r_len r) ->
  exists p', pt_align p m samples reverse fill dim name = Ok p'.
Proof. intros A. exact pt_align_total. Qed.
Print Assumptions C46_succeeds.

(** A shift longer than the dimension is refused unless the mode is full. *)
Theorem C46_refuses : forall A (p : patch A) m samples reverse fill dim name r c pos v, wf_patch p ->
  In dim (cm_dims (p_cm p)) -> assoc dim (cm_coords (p_cm p)) = Some (M1 (CRange r)) -> 0 < r_step r ->
  assoc name (cm_coords (p_cm p)) = Some c -> has_values c -> ~ In name (cm_dims (p_cm p)) ->
  dims_of (p_cm p) name <> [] -> ~ In dim (dims_of (p_cm p) name) -> kinds_fit (r_kind r) (coord_kind c) samples ->
  m <> Full -> within (p_cm p) (dims_of (p_cm p) name) pos -> coord_value (p_cm p) name pos v ->
  (if samples then r_len r - 1 else r_max r - r_min r) < Z.abs (shift_unit (r_kind r) (coord_kind c) samples * v) ->
  pt_align p m samples reverse fill dim name = Err ParameterError.
Proof. intros A. exact pt_align_refuses. Qed.
Print Assumptions C46_refuses.

Example C46_witness :
  wf_patch (al_p 4 [0; 2; -1]) /\ plain_names (p_cm (al_p 4 [0; 2; -1])) /\ settled (M1 (CArr KInt [0; 2; -1])) /\
  flat (pt_align (al_p 4 [0; 2; -1]) Same true false (-1) "time" "ns") =
    [0; -1; 102;  100; -1; 202;  200; 1; 302;  300; 101; -1] /\
  flat (pt_align (al_p 4 [0; 2; -1]) Valid true false (-1) "time" "ns") = [200; 1; 302] /\
  coords (pt_align (al_p 4 [0; 2; -1]) Valid true false (-1) "time" "ns") "time" = Some (range_of KTime 1020 10 1) /\
  flat (pt_align (al_p 4 [0; 2; -1]) Full true false (-1) "time" "ns") =
    [-1; -1; 2;  0; -1; 102;  100; -1; 202;  200; 1; 302;  300; 101; -1;  -1; 201; -1;  -1; 301; -1] /\
  coords (pt_align (al_p 4 [0; 2; -1]) Full true false (-1) "time" "ns") "time" = Some (range_of KTime 990 10 7) /\
  flat (do q <- pt_align (al_p 4 [0; 2; -1]) Full true false (-1) "time" "ns"; pt_align q Full true true (-1) "time" "ns") =
    (repeat (-1) 9 ++ nd_flat (grid 4 3) ++ repeat (-1) 9)%list /\
  (* times are rounded up to whole samples *)
  flat (pt_align (al_p 4 [0; 11; -9]) Same false false (-1) "time" "ts") =
    flat (pt_align (al_p 4 [0; 2; -1]) Same true false (-1) "time" "ns") /\
  pt_align (al_p 4 [0; 4; 0]) Same true false (-1) "time" "ns" = Err ParameterError.
Proof.
  destruct (patch_okb_ok (al_p 4 [0; 2; -1])) as [W P]; [vm_compute; reflexivity|].
  split; [exact W|]. split; [exact P|]. repeat split; vm_compute; reflexivity.
Qed.

(** Full mode, times: the shift of a trace depends on the other traces. The shift
    of the second trace is 11 (step 10): alone it is rounded up to 2 samples, but
    when another trace's shift is longer than the patch it becomes 1. *)
Theorem C46_shift_independent_refuted :
  flat (pt_align (al_p 4 [0; 11; 30]) Full false false (-1) "time" "ts") <> [] /\
  flat (pt_align (al_p 4 [0; 11; 31]) Full false false (-1) "time" "ts") <> [] /\
  nth_error (flat (pt_align (al_p 4 [0; 11; 30]) Full false false (-1) "time" "ts")) 7 = Some 1 /\
  nth_error (flat (pt_align (al_p 4 [0; 11; 31]) Full false false (-1) "time" "ts")) 4 = Some 1.
Proof. vm_compute. repeat split; discriminate. Qed.
Print Assumptions C46_shift_independent_refuted.

(** Shifts given as times: aligning and reversing does not restore the data. The
    shift 25 (step 10, three samples) is first truncated to 2, and then, in the
    longer patch, rounded up to 3. *)
Theorem C46_reverse_times_refuted : exists p1 p2 : patch Z,
  pt_align (al_p 3 [0; 25; 0]) Full false false (-1) "time" "ts" = Ok p1 /\
  pt_align p1 Full false true (-1) "time" "ts" = Ok p2 /\
  coords (Ok p2) "time" = Some (range_of KTime 970 10 8) /\
  flat (Ok p2) = [-1; -1; -1;  -1; -1; -1;  -1; 1; -1;  0; 101; 2;  100; 201; 102;  200; -1; 202;  -1; -1; -1;  -1; -1; -1].
Proof.
  do 2 eexists. split; [vm_compute; reflexivity|]. split; [vm_compute; reflexivity|].
  split; vm_compute; reflexivity.
Qed.
Print Assumptions C46_reverse_times_refuted.

(** Valid mode when no sample is shared by all traces ends in an uncaught
    ValueError of the length change, not the documented ParameterError. *)
Theorem C46_valid_empty_refuted :
  pt_align (al_p 4 [3; 0; -3]) Valid true false (-1) "time" "ns" = Err ValueError.
Proof. vm_compute. reflexivity. Qed.
Print Assumptions C46_valid_empty_refuted.

(** * C47: rolling *)

(** Output k is the function of the w samples ending at k st + off (off is zero
    unless centred), NaN when that window is not inside the data; the coordinate is
    every st-th value and everything else is kept. *)
Theorem C47_rolling : forall A (p : patch A) dim r win overlap step center samples e (f : list A -> A) nan w st,
  wf_patch p -> plain_names (p_cm p) -> In dim (cm_dims (p_cm p)) -> assoc dim (cm_coords (p_cm p)) = Some (M1 (CRange r)) ->
  samples = true \/ 0 < r_step r -> asks r samples win overlap step w st -> 1 <= w -> 1 <= st ->
  let eng := get_engine e st (nd_shape (p_data p)) in
  roller_fits p eng ((r_len r + st - 1) / st) ->
  exists p' c', pt_rolling p dim win overlap step center samples e f nan = Ok p' /\
    rolled p p' dim r w st (label_offset eng center w st) f nan c'.
Proof. intros A. exact pt_rolling_ok. Qed.
Print Assumptions C47_rolling.

(** The engines return the same patch unless a centred window moves by more than
    one sample. *)
Theorem C47_engines_agree : forall A (p : patch A) dim r win overlap step center samples (f : list A -> A) nan w st,
  wf_patch p -> plain_names (p_cm p) -> In dim (cm_dims (p_cm p)) -> assoc dim (cm_coords (p_cm p)) = Some (M1 (CRange r)) ->
  samples = true \/ 0 < r_step r -> asks r samples win overlap step w st -> 1 <= w -> 1 <= st ->
  roller_fits p EPandas ((r_len r + st - 1) / st) -> center = false \/ st = 1 ->
  exists p1 p2, pt_rolling p dim win overlap step center samples (Some ENumpy) f nan = Ok p1 /\
    pt_rolling p dim win overlap step center samples (Some EPandas) f nan = Ok p2 /\
    p_cm p1 = p_cm p2 /\ p_data p1 = p_data p2.
Proof. intros A. exact engines_agree. Qed.
Print Assumptions C47_engines_agree.

(** Both a step and an overlap, windows longer than the data, empty windows,
    steps that do not advance. *)
Theorem C47_refuses : forall A (p : patch A) dim r win overlap step center samples e (f : list A -> A) nan,
  In dim (cm_dims (p_cm p)) -> assoc dim (cm_coords (p_cm p)) = Some (M1 (CRange r)) ->
  (overlap <> None /\ step <> None) \/
  (samples = true /\ (r_len r < win \/ win = 0 \/
     (exists s, step = Some s /\ (s <= 0 \/ r_len r < s)) \/ (exists o, overlap = Some o /\ (o < 0 \/ win <= o \/ r_len r < o)))) ->
  pt_rolling p dim win overlap step center samples e f nan = Err ParameterError.
Proof. intros A. exact rolling_refuses. Qed.
Print Assumptions C47_refuses.

Definition total (l : list Z) : Z := fold_right Z.add 0 l.

(** The documentation's examples (sums instead of means; -1 for NaN). *)
Example C47_witness :
  wf_patch (one_p KTime 0 10 6) /\ plain_names (p_cm (one_p KTime 0 10 6)) /\
  asks (mkRange KTime 0 60 10 6) false 30 None (Some 20) 3 2 /\
  flat (pt_rolling (one_p KTime 0 10 6) "time" 20 None None false false None total (-1)) = [-1; 1; 3; 5; 7; 9] /\
  flat (pt_rolling (one_p KTime 0 10 6) "time" 30 None None false false None total (-1)) = [-1; -1; 3; 6; 9; 12] /\
  flat (pt_rolling (one_p KTime 0 10 6) "time" 30 None (Some 20) false false None total (-1)) = [-1; 3; 9] /\
  flat (pt_rolling (one_p KTime 0 10 6) "time" 30 None (Some 30) false false None total (-1)) = [-1; 6] /\
  flat (pt_rolling (one_p KTime 0 10 6) "time" 3 (Some 1) None false true (Some ENumpy) total (-1)) = [-1; 3; 9] /\
  coords (pt_rolling (one_p KTime 0 10 6) "time" 30 None (Some 20) false false None total (-1)) "time" = Some (range_of KTime 0 20 3) /\
  flat (pt_rolling (one_p KTime 0 10 6) "time" 4 None None true true (Some ENumpy) total (-1)) = [-1; -1; 6; 10; 14; -1] /\
  flat (pt_rolling (one_p KTime 0 10 6) "time" 4 None None true true (Some EPandas) total (-1)) = [-1; -1; 6; 10; 14; -1].
Proof.
  destruct (patch_okb_ok (one_p KTime 0 10 6)) as [W P]; [vm_compute; reflexivity|].
  split; [exact W|]. split; [exact P|]. split; [|repeat split; vm_compute; reflexivity].
  unfold asks, counts, rounds_up. cbn. lia.
Qed.

(** Centred windows with a step: the numpy engine's windows are not centred on
    their labels and differ from the pandas engine's. *)
Theorem C47_engines_centre_refuted :
  flat (pt_rolling (one_p KTime 0 10 8) "time" 4 None (Some 2) true true (Some ENumpy) total (-1)) = [-1; 10; 18; -1] /\
  flat (pt_rolling (one_p KTime 0 10 8) "time" 4 None (Some 2) true true (Some EPandas) total (-1)) = [-1; 6; 14; 22] /\
  flat (pt_rolling (one_p KTime 0 10 12) "time" 6 None (Some 4) true true (Some ENumpy) total (-1)) = [-1; 33; -1] /\
  flat (pt_rolling (one_p KTime 0 10 12) "time" 6 None (Some 4) true true (Some EPandas) total (-1)) = [-1; 21; 45].
Proof. vm_compute. repeat split. Qed.
Print Assumptions C47_engines_centre_refuted.

(** A one-dimensional patch reduced to one output sample loses its axis: the data
    no longer has the shape of the coordinates. *)
Theorem C47_single_output_refuted : exists p' : patch Z,
  pt_rolling (one_p KTime 0 10 4) "time" 4 None (Some 4) false true (Some EPandas) total (-1) = Ok p' /\
  nd_shape (p_data p') = [] /\ cm_dims (p_cm p') = ["time"] /\ ~ wf_patch p'.
Proof.
  eexists. split; [vm_compute; reflexivity|]. split; [reflexivity|]. split; [reflexivity|].
  intros W. pose proof (wp_shape _ W) as F. vm_compute in F. inversion F.
Qed.
Print Assumptions C47_single_output_refuted.

(** With three dimensions of which at most one is longer than one sample, the
    default engine is the one that refuses more than two dimensions. *)
Theorem C47_default_engine_refuted :
  let p := mkPatch (mkCm ["time"; "x"; "y"] [("time", range_of KTime 0 10 6); ("x", range_of KInt 0 1 1); ("y", range_of KInt 0 1 1)]
      [("time", ["time"]); ("x", ["x"]); ("y", ["y"])]) (mkNd [6; 1; 1] (zrange 6)) in
  wf_patch p /\ pt_rolling p "time" 2 None None false true None total (-1) = Err ParameterError /\
  flat (pt_rolling p "time" 2 None None false true (Some ENumpy) total (-1)) = [-1; 1; 3; 5; 7; 9].
Proof.
  cbv zeta. split; [|split; vm_compute; reflexivity].
  match goal with |- wf_patch ?p => destruct (patch_okb_ok p) as [W P]; [vm_compute; reflexivity|exact W] end.
Qed.
Print Assumptions C47_default_engine_refuted.

(** * C49: pad *)

(** Each padded dimension keeps its step and gets the asked samples before and
    after; samples keep their values, the rest is the fill value; the other
    coordinates are kept unless they belong to a dimension that grew. *)
Theorem C49_pad : forall A (p : patch A) fast samples kw w fill, wf_patch p -> plain_names (p_cm p) ->
  (forall n, 1 <= n -> n <= fast n) -> NoDup (map fst kw) -> kw <> [] -> pad_ask p fast samples kw w ->
  exists p', pt_pad fast p fill true samples kw = Ok p' /\ padded p p' fill w.
Proof. intros A. exact pt_pad_ok. Qed.
Print Assumptions C49_pad.

(** Every sample is still there, at the same coordinate values. *)
Theorem C49_keeps_samples : forall A (p p' : patch A) fill w pos, wf_patch p -> padded p p' fill w -> in_patch p pos ->
  (forall d a b, w d = Some (a, b) -> 0 <= a /\ 0 <= b) ->
  in_patch p' (pad_pos w pos) /\ data_at p' (pad_pos w pos) = data_at p pos /\
  forall d a b, w d = Some (a, b) -> In d (cm_dims (p_cm p)) -> exists r r', assoc d (cm_coords (p_cm p)) = Some (M1 (CRange r)) /\
    assoc d (cm_coords (p_cm p')) = Some (M1 (CRange r')) /\ znth (r_values r') (pad_pos w pos d) = znth (r_values r) (pos d).
Proof. intros A. exact padded_keeps. Qed.
Print Assumptions C49_keeps_samples.

Theorem C49_negative : forall A (p : patch A) fast fill expand kw d a b, In (d, PadPair a b) kw -> a < 0 \/ b < 0 ->
  forall p', pt_pad fast p fill expand true kw <> Ok p'.
Proof. intros A. exact pad_negative. Qed.
Print Assumptions C49_negative.

Theorem C49_unknown_dimension : forall A (p : patch A) fast fill expand samples kw d v,
  In (d, v) kw -> ~ In d (cm_dims (p_cm p)) -> (exists e, In e kw /\ In (fst e) (cm_dims (p_cm p))) ->
  pt_pad fast p fill expand samples kw = Err PatchCoordinateError.
Proof. intros A. exact pad_unknown. Qed.
Print Assumptions C49_unknown_dimension.

Definition even_len (n : Z) : Z := n + n mod 2.
Example C49_witness :
  pad_ask (al_p 2 [0; 2; -1]) even_len true [("time", PadPair 1 2); ("dist", PadFft)]
    (fun d => if String.eqb d "time" then Some (1, 2) else if String.eqb d "dist" then Some (0, 1) else None) /\
  let r := pt_pad even_len (al_p 2 [0; 2; -1]) (-1) true true [("time", PadPair 1 2); ("dist", PadFft)] in
  flat r = [-1; -1; -1; -1;  0; 1; 2; -1;  100; 101; 102; -1;  -1; -1; -1; -1;  -1; -1; -1; -1] /\
  coords r "time" = Some (range_of KTime 990 10 5) /\ coords r "dist" = Some (range_of KInt 0 1 4) /\ coords r "ns" = None /\
  coords (pt_pad even_len (al_p 2 [0; 2; -1]) (-1) true false [("time", PadPair 1 11)]) "time" = Some (range_of KTime 990 10 5).
Proof.
  split; [|repeat split; vm_compute; reflexivity]. intros d. cbn [assoc].
  destruct (String.eqb_spec d "time") as [->|N1].
  - split; [left; reflexivity|]. exists (mkRange KTime 1000 1020 10 2), (1, 2). cbn. intuition (auto; lia).
  - destruct (String.eqb_spec d "dist") as [->|N2]; [|reflexivity].
    split; [right; left; reflexivity|]. exists (mkRange KInt 0 3 1 3), (0, 1). cbn. intuition (auto; lia).
Qed.

(** A descending dimension cannot be padded: the new limits are computed from the
    minimum and maximum as if the coordinate were ascending. *)
Theorem C49_descending_refuted :
  pt_pad even_len (one_p KInt 50 (-10) 6) (-1) true true [("time", PadPair 1 1)] = Err CoordError /\
  pt_pad even_len (one_p KInt 50 (-10) 6) (-1) true true [("time", PadPair 5 5)] = Err CoordDataError.
Proof. vm_compute. split; reflexivity. Qed.
Print Assumptions C49_descending_refuted.

(** A negative length is not refused: it is taken relative to the end of the
    coordinate, so that pad(time=-10) on six samples adds four on either side. *)
Theorem C49_negative_length_refuted :
  shape (pt_pad even_len (one_p KInt 0 10 6) (-1) true false [("time", PadPair (-10) (-10))]) = [14].
Proof. vm_compute. reflexivity. Qed.
Print Assumptions C49_negative_length_refuted.

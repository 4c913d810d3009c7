(** Properties C40-C42 (spools) and the spool side of C24.
    Model: SpoolModel.v. Specification vocabulary: SpoolSpec.v, FrameSpec.v. *)
From Verif Require Import Base BaseFacts CoordModel CoordSpec ArgSort FrameModel ChunkModel FrameSpec
  SpoolModel SpoolSpec SpoolProofs SpoolProofs4 SpoolProofs5 SpoolProofs6 SpoolProofs7.
From Verif Require ChunkSpec.
From Coq Require Import Strings.String Lia Sorting.Permutation Sorting.Sorted.
Local Open Scope Z_scope.
Local Open Scope list_scope.

(** Tables used by the witnesses: three files of ten samples. *)
Definition tcols : list string := ["path"; "time_min"; "time_max"; "time_step"]%string.
Definition ticols : list string := ["time_min"; "time_max"; "time_step"]%string.
Definition trow (p : string) (a b : Z) : frow :=
  mkRow [("path", VStr p); ("time_min", VInt a); ("time_max", VInt b); ("time_step", VInt 1)]%string false.
Definition three : spool := dummy_spool tcols ticols [(0, trow "b" 10 19); (1, trow "a" 0 9); (2, trow "c" 20 29)].
Definition tdata (c : cell) : list (Z * Z) :=
  match c with
  | VStr p => map (fun x => (x, x)) (progression (if String.eqb p "a" then 0 else if String.eqb p "b" then 10 else 20) 1 10)
  | _ => []
  end.
Definition tload (r : frow) : list (Z * Z) := tdata (val r "path"%string).
Definition rng (a b : Z) : qval := QColl [ICell (VInt a); ICell (VInt b)].
Definition whole : chunker := mkChunker None None false true 3 2 true.
Definition every (v : Z) : chunker := mkChunker (Some v) None false true 3 2 true.

(** * C40: indexing and slicing *)

(** Whatever slices, arrays, sorts and selects are applied to a spool of patches,
    entry [i] (python indexing) is what the same operations on the list of patches
    give, and it loads exactly the samples inside every range selected so far. *)
Theorem C40_any_operations : forall D k path cols icols (data : cell -> list (Z * D)) argsort df ops s,
  let load r := data (val r path) in
  tables cols icols -> interval cols k -> ~ In path icols -> valid_argsort argsort ->
  NoDup (map fst df) ->
  (forall x, In x df -> f_mod (snd x) = false /\ truthful k load (snd x)) ->
  (forall kw, In (OSelect kw) ops -> clear_query cols icols kw) ->
  sp_run argsort (dummy_spool cols icols df) ops = Ok s ->
  exists l, spec_run k cols ops (map (fun x => mkEntry (snd x) []) df) l /\
    map e_row l = map snd (sp_df s) /\
    forall i e, py_get l i e ->
      exists p, sp_samples k load s i = Ok (filter p (load (e_row e))) /\
        forall x, In x (load (e_row e)) ->
          (p x = true <-> forall a b, In (a, b) (e_ranges e) -> inside a b (fst x)).
Proof. intros D k path cols icols data argsort df ops s load Ht Hk Hp HA. exact (run_history k path cols icols data Ht Hk Hp argsort HA df ops s). Qed.
Print Assumptions C40_any_operations.

Theorem C40_out_of_range : forall s i,
  sp_parts s i = Err IndexError <-> sp_len s <= i \/ i < - 2 * sp_len s.
Proof. exact sp_parts_IndexError. Qed.
Print Assumptions C40_out_of_range.

Theorem C40_negative : forall s i, - sp_len s <= i < 0 -> sp_parts s i = sp_parts s (sp_len s + i).
Proof. exact sp_parts_negative. Qed.
Print Assumptions C40_negative.

(** Indices below -len are not refused: they wrap a second time. A fresh
    MemorySpool answers the same index with IndexError. *)
Theorem C40_wraps_twice_refuted : exists s i x, i < - sp_len s /\
  sp_parts s i = Ok x /\ mem_get (sp_df s) i = Err IndexError.
Proof. exists three, (-4). eexists. split; [vm_compute; reflexivity|]. split; vm_compute; reflexivity. Qed.
Print Assumptions C40_wraps_twice_refuted.

Theorem C40_memory_get : forall P (patches : list P) i,
  (forall x, py_get patches i x -> mem_get patches i = Ok x) /\
  (mem_get patches i = Err IndexError <-> zlen patches <= i \/ i < - zlen patches).
Proof. exact @mem_get_spec. Qed.
Print Assumptions C40_memory_get.

(** Arrays, for any spool, merged ones included. *)
Theorem C40_array : forall s ix s' ps, sp_array s ix = Ok s' -> indexer_positions (sp_len s) ix = Some ps ->
  sp_len s' = zlen ps /\ forall j p, znth ps j = Some p -> sp_parts s' j = sp_parts s p.
Proof. intros s ix s' ps H P. split; [eapply array_len; eauto|]. intros j p Hj. eapply array_parts; eauto. Qed.
Print Assumptions C40_array.
Theorem C40_array_defined : forall s ix,
  (exists ps, indexer_positions (sp_len s) ix = Some ps) <-> exists s', sp_array s ix = Ok s'.
Proof. exact array_ok. Qed.
Print Assumptions C40_array_defined.

(** Slices of any spool in which no source is shared by two instructions. *)
Theorem C40_slice : forall s sl s', NoDup (map fst (sp_src s)) -> NoDup (map n_src (sp_ins s)) -> sourced s ->
  sp_slice s sl = Ok s' ->
  exists ps, slice_positions (sp_len s) sl = Some ps /\ sp_len s' = zlen ps /\
  forall j p, znth ps j = Some p -> sp_parts s' j = sp_parts s p.
Proof. exact slice_exact. Qed.
Print Assumptions C40_slice.

(** Entries made of one source keep their samples even when it is shared. *)
Theorem C40_slice_single : forall D k (load : frow -> list (Z * D)) s sl s' ps j p lb row r,
  NoDup (map fst (sp_src s)) -> sourced s -> sp_slice s sl = Ok s' ->
  slice_positions (sp_len s) sl = Some ps -> znth ps j = Some p ->
  znth (sp_df s) p = Some (lb, row) -> filter (cur_is lb) (sp_ins s) = [r] ->
  exists f, In (n_src r, f) (sp_src s) /\
  sp_samples k load s p = Ok (load_part k load (r, f)) /\
  sp_samples k load s' j = sp_samples k load s p.
Proof. exact @slice_single. Qed.
Print Assumptions C40_slice_single.

(** Slicing a chunked spool in which two chunks share a source repeats samples. *)
Theorem C40_shared_source_refuted : exists s sl s' a b,
  sp_chunk stable_argsort (every 15) "time" three = Ok s /\ sp_slice s sl = Ok s' /\
  sp_samples "time" tload s 0 = Ok a /\ sp_samples "time" tload s' 0 = Ok b /\
  map fst a = progression 0 1 15 /\ map fst b = progression 0 1 15 ++ progression 10 1 5.
Proof.
  eexists _, (mkSlice (Some 0) (Some 2) None), _, _, _. split; [vm_compute; reflexivity|].
  split; [vm_compute; reflexivity|]. split; [vm_compute; reflexivity|]. split; [vm_compute; reflexivity|].
  split; vm_compute; reflexivity.
Qed.
Print Assumptions C40_shared_source_refuted.

(** chunk() looks at the sources, not at the entries: chunking an array selection
    brings back the patches that were not selected. *)
Theorem C40_rechunk_refuted : exists s t x,
  sp_array three (IxInts [1]) = Ok s /\ sp_len s = 1 /\
  sp_chunk stable_argsort whole "time" s = Ok t /\ sp_samples "time" tload t 0 = Ok x /\
  map fst x = progression 0 1 30.
Proof. eexists _, _, _. do 4 (split; [vm_compute; reflexivity|]). vm_compute; reflexivity. Qed.
Print Assumptions C40_rechunk_refuted.

Example C40_witness :
  tables tcols ticols /\ interval tcols "time" /\
  clear_query tcols ticols [("time", rng 5 12)]%string /\
  (forall x, In x (sp_df three) -> f_mod (snd x) = false /\ truthful "time" tload (snd x)) /\
  match sp_run stable_argsort three
          [OSort "time"; OSelect [("time", rng 5 12)]%string; OSlice (mkSlice None None (Some (-1)))] with
  | Ok s => (do a <- sp_samples "time" tload s 0; do b <- sp_samples "time" tload s (-1); Ok (sp_len s, map fst a, map fst b))
            = Ok (2, [10; 11; 12], [5; 6; 7; 8; 9])
  | Err _ => False
  end.
Proof.
  split; [|split; [|split; [|split; [|vm_compute; reflexivity]]]].
  - split.
    + intros c H. cbn in *. tauto.
    + intros q [H1 H2]. 
      assert (q = "time"%string) as ->.
      { clear H2. unfold has_col, tcols in H1. cbn [In] in H1.
        destruct H1 as [H1|[H1|[H1|[H1|[]]]]].
        - exfalso. apply (f_equal (fun s => str_suffix "_min" s)) in H1. rewrite (proj2 (FrameProofs.str_suffix_spec "_min" (append q "_min"))) in H1 by eauto. discriminate.
        - change "time_min"%string with (append "time" "_min") in H1. now apply FrameProofs.sapp_inv_tail in H1.
        - exfalso. apply (f_equal (fun s => str_suffix "_min" s)) in H1. rewrite (proj2 (FrameProofs.str_suffix_spec "_min" (append q "_min"))) in H1 by eauto. discriminate.
        - exfalso. apply (f_equal (fun s => str_suffix "_min" s)) in H1. rewrite (proj2 (FrameProofs.str_suffix_spec "_min" (append q "_min"))) in H1 by eauto. discriminate. }
      split; [split; cbn; tauto|]. cbn. intuition discriminate.
  - split; cbn; tauto.
  - split; [repeat constructor; cbn; tauto|]. intros q [<-|[]]. right. 
    intros H. apply FrameProofs2.suffixed_spec in H. vm_compute in H. intuition discriminate.
  - intros x [<-|[<-|[<-|[]]]]; (split; [reflexivity|]); eexists _, _; (split; [reflexivity|]); (split; [reflexivity|]); (split; [lia|]);
      intros y Hy; vm_compute in Hy; lia.
Qed.

(** * C41: split *)
Theorem C41_split : forall s size count step, sourced s -> split_step (sp_len s) size count = Ok step -> 0 < step ->
  exists pieces, (forall fuel, sp_len s <= Z.of_nat fuel * step -> sp_split fuel s size count = Some (Ok pieces)) /\
    (forall i p, znth pieces i = Some p ->
       sp_slice s (mkSlice (Some (i * step)) (Some ((i + 1) * step)) None) = Ok p /\
       0 < sp_len p /\ sp_len p = Z.min step (sp_len s - i * step)) /\
    List.concat (map sp_df pieces) = sp_df s /\
    sp_len s <= zlen pieces * step /\ (0 < zlen pieces -> (zlen pieces - 1) * step < sp_len s).
Proof. exact split_spec. Qed.
Print Assumptions C41_split.

Theorem C41_step : forall n size count, 0 <= n ->
  (forall sz, size = Some sz -> count = None -> split_step n size count = Ok sz) /\
  (forall c, size = None -> count = Some c -> 0 < c ->
     exists st, split_step n size count = Ok st /\ n <= c * st /\ (0 < n -> 0 < st /\ c * (st - 1) < n) /\ (n = 0 -> st = 0)) /\
  (size = None -> count = Some 0 -> split_step n size count = Err TypeError) /\
  ((size = None <-> count = None) -> split_step n size count = Err ParameterError).
Proof. exact split_step_spec. Qed.
Print Assumptions C41_step.

Theorem C41_count : forall s c, sourced s -> 0 < c -> 0 < sp_len s ->
  exists step pieces, (forall fuel, sp_len s <= Z.of_nat fuel -> sp_split fuel s None (Some c) = Some (Ok pieces)) /\
    0 < zlen pieces <= c /\ 0 < step /\
    (forall i p, znth pieces i = Some p -> sp_len p <= step /\ (i < zlen pieces - 1 -> sp_len p = step)) /\
    List.concat (map sp_df pieces) = sp_df s.
Proof. exact split_count. Qed.
Print Assumptions C41_count.

(** A step that is not positive never ends (size <= 0, negative count). *)
Theorem C41_never_ends : forall s size count step, split_step (sp_len s) size count = Ok step -> step <= 0 ->
  0 < sp_len s -> sourced s -> forall fuel, sp_split fuel s size count = None.
Proof. exact split_never. Qed.
Print Assumptions C41_never_ends.

(** split(count=4) of five patches makes three pieces. *)
Theorem C41_exact_count_refuted : exists s c pieces, sourced s /\ 0 < c <= sp_len s /\
  sp_split 5 s None (Some c) = Some (Ok pieces) /\ zlen pieces < c.
Proof.
  exists (dummy_spool tcols ticols (map (fun i => (i, trow "a" i i)) (zrange 5))), 4. eexists.
  split; [apply dummy_sourced|split; [vm_compute; intuition discriminate|split; [vm_compute; reflexivity|vm_compute; reflexivity]]].
Qed.
Print Assumptions C41_exact_count_refuted.

Example C41_witness : sourced three /\
  match sp_split 3 three (Some 2) None with
  | Some (Ok l) => map sp_len l = [2; 1] /\ List.concat (map sp_df l) = sp_df three
  | _ => False
  end /\ sp_split 3 three None None = Some (Err ParameterError).
Proof.
  split; [apply dummy_sourced|vm_compute; auto].
Qed.

(** * C42: sort and select *)

(** Sorting any spool permutes its entries (rows and parts alike). *)
Theorem C42_sort : forall argsort s attr s', valid_argsort argsort -> sp_sort argsort s attr = Ok s' ->
  exists ps, Permutation ps (zrange (sp_len s)) /\ sp_len s' = sp_len s /\
  forall j p, znth ps j = Some p ->
    option_map snd (znth (sp_df s') j) = option_map snd (znth (sp_df s) p) /\
    sp_parts s' j = do l <- sp_parts s p; Ok (map (with_cur j) l).
Proof. exact sort_parts. Qed.
Print Assumptions C42_sort.

Theorem C42_sorted : forall argsort s attr s', valid_argsort argsort -> sp_sort argsort s attr = Ok s' ->
  exists col keys, (In attr (sp_cols s) /\ col = attr \/ ~ In attr (sp_cols s) /\ col = append attr "_min") /\
    map (fun x => val (snd x) col) (sp_df s') = map VInt keys /\ StronglySorted Z.le keys.
Proof. exact sort_ordered. Qed.
Print Assumptions C42_sorted.

Theorem C42_sort_refuses : forall argsort s attr,
  (~ In attr (sp_cols s) /\ ~ In (append attr "_min") (sp_cols s) -> sp_sort argsort s attr = Err IndexError) /\
  (valid_argsort argsort -> forall col keys, sort_column s attr = Ok col ->
     column (map snd (sp_df s)) col = map VInt keys -> ~ NoDup (map fst (sp_df s)) ->
     sp_sort argsort s attr = Err ValueError).
Proof. exact sort_refuses. Qed.
Print Assumptions C42_sort_refuses.

(** Selecting from any spool: the entries that meet the query stay, cut to it; of
    their parts those that meet the query stay, cut to it. *)
Theorem C42_select : forall s kw s', NoDup (map fst kw) -> (forall q, In q (map fst kw) -> ~ suffixed q) ->
  sp_select s kw = Ok s' ->
  exists P Pi,
    (forall x, In x (sp_df s) -> (P x = true <-> forall q v, In (q, v) kw -> meets (sp_cols s) (snd x) q v)) /\
    (forall x, In x (sp_ins s) -> (Pi x = true <-> forall q v, In (q, v) kw -> meets (sp_icols s) (n_row x) q v)) /\
    Forall2 (fun x x' => fst x' = fst x /\ cut (sp_cols s) kw (snd x) (snd x')) (filter P (sp_df s)) (sp_df s') /\
    forall j lb row, znth (filter P (sp_df s)) j = Some (lb, row) ->
      let mine := filter Pi (filter (cur_is lb) (sp_ins s)) in
      (mine = [] -> sp_parts s' j = Err AssertionError) /\
      (mine <> [] -> zlen mine <= 10 -> NoDup (map fst (sp_src s)) -> NoDup (map n_src (sp_ins s)) ->
       (forall r f, In r mine -> In (n_src r, f) (sp_src s) -> forall q v, In (q, v) kw -> meets (sp_scols s) f q v) ->
       exists l, sp_parts s' j = Ok l /\
         Forall2 (fun r x => n_src (fst x) = n_src r /\ n_cur (fst x) = n_cur r /\
                    cut (sp_icols s) kw (n_row r) (n_row (fst x)) /\
                    exists f, In (n_src r, f) (sp_src s) /\ cut (sp_scols s) kw f (snd x)) mine l).
Proof. exact select_cut. Qed.
Print Assumptions C42_select.

Theorem C42_contents : forall s,
  (sp_sel s = [] -> sp_contents s = Ok (sp_df s)) /\
  (sp_sel s <> [] ->
   (forall q v, In (q, v) (sp_sel s) ->
      ~ has_col (sp_cols s) q /\ ~ suffixed q /\ ~ interval (sp_cols s) q /\ v <> QNone) ->
   sp_contents s = Err ParameterError).
Proof. intros s. split; [apply contents_plain|apply contents_leftover]. Qed.
Print Assumptions C42_contents.

(** A selection that falls in a gap between merged sources keeps an entry that
    cannot be loaded. *)
Theorem C42_gap_selection_refuted : exists s t,
  sp_chunk stable_argsort (mkChunker None None false true 20 1 true) "time"
    (dummy_spool tcols ticols [(0, trow "a" 0 9); (2, trow "c" 20 29)]) = Ok s /\
  sp_select s [("time", rng 12 15)]%string = Ok t /\ sp_len t = 1 /\ sp_parts t 0 = Err AssertionError.
Proof. eexists _, _. do 3 (split; [vm_compute; reflexivity|]). vm_compute; reflexivity. Qed.
Print Assumptions C42_gap_selection_refuted.

(** Selecting on a coordinate that is not in the table keeps every entry and makes
    get_contents raise. *)
Theorem C42_contents_refuted : exists s, sp_select three [("latitude", rng 1 2)]%string = Ok s /\
  sp_len s = sp_len three /\ sp_contents s = Err ParameterError.
Proof. eexists. split; [vm_compute; reflexivity|]. split; vm_compute; reflexivity. Qed.
Print Assumptions C42_contents_refuted.

(** Keywords no column answers are kept for loading: a later selection replaces the
    value of the same keyword and leaves the others. *)
Theorem C42_leftover : forall s kw s' q, sp_select s kw = Ok s' -> NoDup (map fst kw) ->
  (forall v, In (q, v) kw -> ~ has_col (sp_cols s) q -> ~ interval (sp_cols s) q -> v <> QNone ->
     assoc q (sp_sel s') = Some v) /\
  (has_col (sp_cols s) q \/ ~ In q (map fst kw) \/
   (interval (sp_cols s) q /\ exists a b, In (q, QColl [a; b]) kw) ->
     assoc q (sp_sel s') = assoc q (sp_sel s)).
Proof. exact select_leftover. Qed.
Print Assumptions C42_leftover.

Example C42_leftover_witness :
  (do s <- sp_select three [("latitude", rng 1 2); ("depth", rng 0 4)]%string;
   do t <- sp_select s [("latitude", rng 1 9); ("time", rng 0 15)]%string; Ok (sp_sel t))
  = Ok [("latitude", rng 1 9); ("depth", rng 0 4)]%string.
Proof. vm_compute. reflexivity. Qed.

(** Such a keyword is not applied to the entries another keyword has trimmed. *)
Theorem C42_leftover_refuted : exists s x y,
  sp_select three [("latitude", rng 1 2); ("time", rng 0 15)]%string = Ok s /\
  sp_parts s 0 = Ok [x] /\ sp_parts s 1 = Ok [y] /\
  part_extra s x = [] /\ part_extra s y = [("latitude", rng 1 2)]%string.
Proof. eexists _, _, _. split; [vm_compute; reflexivity|]. split; [vm_compute; reflexivity|]. split; [vm_compute; reflexivity|]. split; reflexivity. Qed.
Print Assumptions C42_leftover_refuted.

(** Sorting after selecting an entry twice raises. *)
Theorem C42_sort_repeated_refuted : exists s, sp_array three (IxInts [1; 1]) = Ok s /\
  sp_sort stable_argsort s "time" = Err ValueError.
Proof. eexists. split; vm_compute; reflexivity. Qed.
Print Assumptions C42_sort_repeated_refuted.

(** <column>_max is accepted by the contents table but not by the instructions. *)
Theorem C42_suffix_refuted : exists s kw,
  adjust_labelled (sp_cols s) (sp_df s) kw = Ok (sp_df s) /\ sp_select s kw = Err KeyError.
Proof.
  exists (dummy_spool ("channels" :: tcols)%string ticols [(0, mkRow (("channels", VInt 3) :: f_cells (trow "a" 0 9))%string false)]),
    [("channels_max", QVal (VInt 5))]%string. split; vm_compute; reflexivity.
Qed.
Print Assumptions C42_suffix_refuted.

Example C42_witness :
  match sp_sort stable_argsort three "time" with
  | Ok s => map (fun x => val (snd x) "time_min") (sp_df s) = [VInt 0; VInt 10; VInt 20] /\
      match sp_select s [("time", rng 5 12)]%string with
      | Ok t => map (fun x => (val (snd x) "time_min", val (snd x) "time_max")) (sp_df t) = [(VInt 5, VInt 9); (VInt 10, VInt 12)]
      | Err _ => False
      end
  | Err _ => False
  end /\ (forall q, In q (map fst [("time", rng 5 12)]%string) -> ~ suffixed q).
Proof.
  split; [vm_compute; auto|]. intros q [<-|[]] H. apply FrameProofs2.suffixed_spec in H. vm_compute in H. intuition discriminate.
Qed.

(** * C24 again: the patches a chunked spool hands out *)
Theorem C24_spool_samples : forall D argsort c k s s' base st (load : frow -> list (Z * D)) (f : Z -> D) rows,
  valid_argsort argsort -> 0 < st -> 0 < c_tol_den c -> c_tol_num c < 2 * c_tol_den c ->
  NoDup (map fst (sp_src s)) -> segs_of k (sp_src s) = Some rows -> rows <> [] ->
  Forall (ChunkSpec.grid_seg base st) rows ->
  (exists ordered, Permutation ordered rows /\ ChunkSpec.staggered ordered) ->
  ChunkSpec.whole_steps st c ->
  (forall x g, In x (sp_src s) -> seg_of k x = Some g ->
     load (snd x) = map (fun y => (y, f y)) (ChunkSpec.seg_samples st g)) ->
  sp_chunk argsort c k s = Ok s' ->
  forall i lb row, znth (sp_df s') i = Some (lb, row) ->
  exists a b, a <= b /\ val row (append k "_min") = VInt a /\ val row (append k "_max") = VInt b /\
    sp_samples k load s' i = Ok (ChunkSpec.signal f a st b).
Proof. exact @chunk_samples. Qed.
Print Assumptions C24_spool_samples.

Example C24_spool_witness :
  segs_of "time" (sp_src three) = Some [mkSeg 0 10 19 (Some 1) 0 0 0 false; mkSeg 1 0 9 (Some 1) 0 0 0 false; mkSeg 2 20 29 (Some 1) 0 0 0 false] /\
  match sp_chunk stable_argsort (every 15) "time" three with
  | Ok s => sp_len s = 2 /\ (do x <- sp_samples "time" tload s 1; Ok (map fst x)) = Ok (progression 15 1 15)
  | Err _ => False
  end.
Proof. split; [reflexivity|vm_compute; auto]. Qed.

(** The same after a selection: the source rows may have been trimmed to limits
    inside the stored patches; the chunks hold the samples within those limits. *)
Theorem C24_spool_trimmed : forall D argsort c k s s' base st (load : frow -> list (Z * D)) (f : Z -> D) rows,
  valid_argsort argsort -> 0 < st -> 0 < c_tol_den c -> c_tol_num c < 2 * c_tol_den c ->
  NoDup (map fst (sp_src s)) -> segs_of k (sp_src s) = Some rows -> rows <> [] ->
  Forall (ChunkSpec.grid_seg base st) rows ->
  (exists ordered, Permutation ordered rows /\ ChunkSpec.staggered ordered) ->
  ChunkSpec.whole_steps st c ->
  (forall x g, In x (sp_src s) -> seg_of k x = Some g ->
     filter (fun p => (g_min g <=? fst p) && (fst p <=? g_max g)) (load (snd x))
       = map (fun y => (y, f y)) (ChunkSpec.seg_samples st g) /\
     (f_mod (snd x) = false -> load (snd x) = map (fun y => (y, f y)) (ChunkSpec.seg_samples st g))) ->
  sp_chunk argsort c k s = Ok s' ->
  forall i lb row, znth (sp_df s') i = Some (lb, row) ->
  exists a b, a <= b /\ val row (append k "_min") = VInt a /\ val row (append k "_max") = VInt b /\
    sp_samples k load s' i = Ok (ChunkSpec.signal f a st b).
Proof. exact @chunk_trimmed. Qed.
Print Assumptions C24_spool_trimmed.

(** Selecting 5 to 24 and then chunking by 15: the stored patches reach beyond. *)
Example C24_spool_trimmed_witness :
  (do s <- sp_select three [("time", rng 5 24)]%string;
   do t <- sp_chunk stable_argsort (every 20) "time" s;
   do x <- sp_samples "time" tload t 0; Ok (sp_len t, map fst x)) = Ok (1, progression 5 1 20).
Proof. vm_compute. reflexivity. Qed.

(** Properties C27-C30: the directory index.
    Model: IndexModel.v. Specification vocabulary: IndexSpec.v. *)
From Verif Require Import Base BaseFacts FrameModel FrameSpec IndexModel IndexSpec IndexProofs IndexProofs2.
From Coq Require Import Strings.String Lia.
Local Open Scope Z_scope.

Definition icols : list string := ["path"; "time_min"; "time_max"]%string.
Definition irow_ (p : string) (a b : Z) : frow :=
  mkRow [("path", VStr p); ("time_min", VInt (a * second)); ("time_max", VInt (b * second))]%string false.
Definition ask (a b : Z) : query := mkQuery (Some (a * second), Some (b * second)) [] [].

Ltac table := split; [vm_compute; auto|split; [vm_compute; auto|split; [vm_compute; intuition discriminate|]]];
  cbn [In]; intros ? Hr; repeat (destruct Hr as [<-|Hr]; [eexists _, _; split; vm_compute; reflexivity|]); destruct Hr.

(** * C27: no overlapping file is missed *)
Theorem C27_kernel : forall lo hi a b, a <= hi -> lo <= b ->
  (kernel_query lo hi a b = false <->
   a <= lo - second /\ hi + second <= b /\ (a = lo - second \/ b = hi + second)).
Proof. exact kernel_query_miss. Qed.
Print Assumptions C27_kernel.

(** A lookup that misses the cache returns exactly the answering rows, except
    those starting exactly one second before (or ending exactly one second
    after) the range and covering it. *)
Theorem C27_lookup_partial : forall cols tbl c q lo hi out c',
  index_table cols tbl -> filter_keywords cols (q_kw q) -> q_hdf q = [] ->
  max_min_times (q_time q) = Ok (lo, hi) ->
  cache_lookup c lo hi (q_kw q) = None ->
  get_contents cols tbl c q = (Ok out, c') ->
  exists P, out = filter P tbl /\
    forall r, In r tbl -> (P r = true <-> answers cols lo hi (q_kw q) r /\ ~ on_edge lo hi r).
Proof. exact get_contents_miss. Qed.
Print Assumptions C27_lookup_partial.

Theorem C27_defaults : forall t lo hi, max_min_times t = Ok (lo, hi) ->
  lo = default_time small_time (fst t) /\ hi = default_time large_time (snd t) /\ lo <= hi.
Proof. exact max_min_times_spec. Qed.
Print Assumptions C27_defaults.

(** A file covering seconds 0..10, asked for seconds 1..5, is not found. *)
Theorem C27_covering_file_missed_refuted : exists tbl q lo hi r,
  index_table icols tbl /\ max_min_times (q_time q) = Ok (lo, hi) /\
  In r tbl /\ answers icols lo hi [] r /\ q_kw q = [] /\
  fst (get_contents icols tbl (empty_cache 5) q) = Ok [].
Proof.
  exists [irow_ "f" 0 10], (ask 1 5), second, (5 * second), (irow_ "f" 0 10).
  split; [table|]. split; [vm_compute; reflexivity|]. split; [now left|]. split.
  - split; [|intros ? ? []]. exists 0, (10 * second). split; [split; vm_compute; reflexivity|].
    split; vm_compute; discriminate.
  - split; [reflexivity|vm_compute; reflexivity].
Qed.
Print Assumptions C27_covering_file_missed_refuted.

(** A bound of exactly the epoch is taken for no bound. *)
Theorem C27_epoch_bound_refuted : exists tbl q,
  snd (q_time q) = Some 0 /\
  fst (get_contents icols tbl (empty_cache 5) q) = Ok tbl /\
  exists r, In r tbl /\ ~ answers icols (-5 * second) 0 [] r.
Proof.
  exists [irow_ "f" 20 30], (ask (-5) 0). split; [reflexivity|]. split; [vm_compute; reflexivity|].
  exists (irow_ "f" 20 30). split; [now left|]. intros [(s & e & [H1 H2] & L1 & L2) _].
  vm_compute in H1. injection H1 as <-. vm_compute in L1. congruence.
Qed.
Print Assumptions C27_epoch_bound_refuted.

Example C27_witness :
  index_table icols [irow_ "f" 0 10; irow_ "g" 11 20] /\ filter_keywords icols (q_kw (ask 3 5)) /\
  max_min_times (q_time (ask 3 5)) = Ok (3 * second, 5 * second) /\
  cache_lookup (empty_cache 5) (3 * second) (5 * second) (q_kw (ask 3 5)) = None /\
  fst (get_contents icols [irow_ "f" 0 10; irow_ "g" 11 20] (empty_cache 5) (ask 3 5)) = Ok [irow_ "f" 0 10].
Proof.
  split; [table|]. split; [intros ? ? []|]. repeat split; vm_compute; reflexivity.
Qed.

(** * C28: the query cache *)
Theorem C28_history : forall cols tbl0 size l q lo hi out,
  own_history cols l -> proper_query cols q -> q_hdf q = [] ->
  let s := ixrun cols (mkIx tbl0 (empty_cache size)) l in
  index_table cols (x_tbl s) ->
  max_min_times (q_time q) = Ok (lo, hi) ->
  fst (get_contents cols (x_tbl s) (x_cache s) q) = Ok out ->
  exists P, out = filter P (x_tbl s) /\
    (forall r, In r (x_tbl s) -> P r = true -> answers cols lo hi (q_kw q) r) /\
    (forall r, In r (x_tbl s) -> answers cols lo hi (q_kw q) r -> ~ sticks_out lo hi r -> P r = true).
Proof. exact get_contents_history. Qed.
Print Assumptions C28_history.

Theorem C28_transparent_partial : forall cols tbl0 size l q lo hi out out' c,
  own_history cols l -> proper_query cols q -> q_hdf q = [] ->
  let s := ixrun cols (mkIx tbl0 (empty_cache size)) l in
  index_table cols (x_tbl s) ->
  max_min_times (q_time q) = Ok (lo, hi) ->
  (forall r, In r (x_tbl s) -> ~ sticks_out lo hi r) ->
  fst (get_contents cols (x_tbl s) (x_cache s) q) = Ok out ->
  cache_lookup c lo hi (q_kw q) = None ->
  fst (get_contents cols (x_tbl s) c q) = Ok out' ->
  out = out'.
Proof. exact get_contents_cache_transparent. Qed.
Print Assumptions C28_transparent_partial.

Theorem C28_ring : forall c e, 0 <= c_pos c < zlen (c_slots c) ->
  let c' := set_cache c e in
  zlen (c_slots c') = zlen (c_slots c) /\ 0 <= c_pos c' < zlen (c_slots c') /\
  c_pos c' = (c_pos c + 1) mod zlen (c_slots c) /\
  znth (c_slots c') (c_pos c') = Some (Some e) /\
  forall j, j <> c_pos c' -> znth (c_slots c') j = znth (c_slots c) j.
Proof. exact set_cache_spec. Qed.
Print Assumptions C28_ring.

Theorem C28_repeat : forall cols tbl c q lo hi, 0 <= c_pos c < zlen (c_slots c) ->
  max_min_times (q_time q) = Ok (lo, hi) -> q_kw q = [] -> q_hdf q = [] ->
  let c' := snd (get_contents cols tbl c q) in
  exists rows, cache_lookup c' lo hi [] = Some rows /\
    (cache_lookup c lo hi [] = None -> forall q' lo' hi', q_kw q' = [] -> lo <= lo' -> hi' <= hi ->
       exists rows', cache_lookup c' lo' hi' [] = Some rows').
Proof. exact get_contents_repeat. Qed.
Print Assumptions C28_repeat.

(** Queries with keywords never use the cache: the stored and the compared
    keywords are different sets. *)
Theorem C28_keywords_never_cached : forall cols tbl0 size l q lo hi,
  own_history cols l -> proper_query cols q -> q_kw q <> [] ->
  let s := ixrun cols (mkIx tbl0 (empty_cache size)) l in
  cache_lookup (x_cache s) lo hi (q_kw q) = None.
Proof. exact get_contents_keywords_miss. Qed.
Print Assumptions C28_keywords_never_cached.

(** The same query gives different rows with and without an earlier query. *)
Theorem C28_cached_gains_row_refuted : exists tbl q1 q2,
  own_history icols [OpQuery q1] /\ proper_query icols q2 /\
  let s := ixrun icols (mkIx tbl (empty_cache 5)) [OpQuery q1] in
  fst (get_contents icols (x_tbl s) (x_cache s) q2) = Ok tbl /\ tbl <> [] /\
  fst (get_contents icols tbl (empty_cache 5) q2) = Ok [].
Proof.
  exists [irow_ "f" 0 10], (mkQuery (None, None) [] []), (ask 1 5).
  split; [intros o [<-|[]]; split; intros ? ? []|]. split; [split; intros ? ? []|].
  cbv zeta. split; [vm_compute; reflexivity|]. split; [discriminate|vm_compute; reflexivity].
Qed.
Print Assumptions C28_cached_gains_row_refuted.

Theorem C28_cached_loses_row_refuted : exists tbl q1 q2,
  own_history icols [OpQuery q1] /\ proper_query icols q2 /\
  let s := ixrun icols (mkIx tbl (empty_cache 5)) [OpQuery q1] in
  fst (get_contents icols (x_tbl s) (x_cache s) q2) = Ok [] /\ tbl <> [] /\
  fst (get_contents icols tbl (empty_cache 5) q2) = Ok tbl.
Proof.
  exists [irow_ "f" 0 10], (ask 1 5), (ask 2 3).
  split; [intros o [<-|[]]; split; intros ? ? []|]. split; [split; intros ? ? []|].
  cbv zeta. split; [vm_compute; reflexivity|]. split; [discriminate|vm_compute; reflexivity].
Qed.
Print Assumptions C28_cached_loses_row_refuted.

(** Options passed to read_hdf are ignored when the cache answers. *)
Theorem C28_options_ignored_refuted : exists tbl q1 q2,
  own_history icols [OpQuery q1] /\ proper_query icols q2 /\
  let s := ixrun icols (mkIx tbl (empty_cache 5)) [OpQuery q1] in
  fst (get_contents icols (x_tbl s) (x_cache s) q2) <> fst (get_contents icols tbl (empty_cache 5) q2).
Proof.
  exists [irow_ "f" 0 10; irow_ "g" 11 20], (mkQuery (None, None) [] []),
    (mkQuery (None, None) [("stop"%string, QVal (VInt 1))] []).
  split; [intros o [<-|[]]; split; intros ? ? []|]. split.
  - split; [intros ? ? []|]. cbn. intros k v [H|[]]. injection H as <- _. vm_compute. auto 10.
  - vm_compute. congruence.
Qed.
Print Assumptions C28_options_ignored_refuted.

(** Rows appended by another process stay invisible to a cached query. *)
Theorem C28_foreign_update_refuted : exists tbl q rows,
  let s := ixrun icols (mkIx tbl (empty_cache 5)) [OpQuery q; OpForeign rows] in
  fst (get_contents icols (x_tbl s) (x_cache s) q) = Ok tbl /\
  fst (get_contents icols (x_tbl s) (empty_cache 5) q) = Ok (tbl ++ rows) /\ rows <> [].
Proof.
  exists [irow_ "f" 0 10], (mkQuery (None, None) [] []), [irow_ "g" 11 20].
  cbv zeta. split; [vm_compute; reflexivity|]. split; [vm_compute; reflexivity|discriminate].
Qed.
Print Assumptions C28_foreign_update_refuted.

Example C28_witness :
  let l := [OpQuery (ask 0 30); OpUpdate [irow_ "h" 21 30]; OpQuery (ask 0 40)] in
  let s := ixrun icols (mkIx [irow_ "f" 0 10; irow_ "g" 11 20] (empty_cache 5)) l in
  own_history icols l /\ proper_query icols (ask 5 25) /\ index_table icols (x_tbl s) /\
  (forall r, In r (x_tbl s) -> ~ sticks_out (5 * second) (25 * second) r) /\
  (exists rows, cache_lookup (x_cache s) (5 * second) (25 * second) [] = Some rows) /\
  fst (get_contents icols (x_tbl s) (x_cache s) (ask 5 25)) = Ok [irow_ "f" 0 10; irow_ "g" 11 20; irow_ "h" 21 30].
Proof.
  cbv zeta. split; [intros o [<-|[<-|[<-|[]]]]; try exact Logic.I; split; intros ? ? []|].
  split; [split; intros ? ? []|]. split; [vm_compute x_tbl; table|]. split.
  - intros r Hr (s & e & [H1 H2] & L1 & L2). vm_compute in Hr.
    destruct Hr as [<-|[<-|[<-|[]]]]; vm_compute in H1, H2; injection H1 as <-; injection H2 as <-;
      vm_compute in L1, L2; congruence.
  - split; [eexists; vm_compute; reflexivity|vm_compute; reflexivity].
Qed.

(** * C29: no file is lost *)
Theorem C29_stamp_complete : forall gran w, gran <= slack -> reachable gran w ->
  forall l, w_stamp w = Some l ->
  forall f, In f (w_files w) -> f_readable f = true -> f_write f < l -> indexed w f.
Proof. exact update_complete. Qed.
Print Assumptions C29_stamp_complete.

Theorem C29_update_complete : forall gran w l1 u l2, gran <= slack -> reachable gran w ->
  w_upds w = l1 ++ u :: l2 -> u_todo u = [] -> u_phase u = Appended \/ u_found u = [] ->
  forall f, In f (w_files w) -> f_readable f = true -> f_write f < u_start u -> indexed w f.
Proof. exact update_done. Qed.
Print Assumptions C29_update_complete.

Theorem C29_rows_real : forall gran w, gran <= slack -> reachable gran w ->
  forall x, In x (w_rows w) -> In x (w_ever w).
Proof. exact rows_real. Qed.
Print Assumptions C29_rows_real.

Lemma star_front (R : world -> world -> Prop) w1 w2 w3 : R w1 w2 -> star R w2 w3 -> star R w1 w3.
Proof. intros H S. revert w1 H. induction S; intros; [eapply star_step; [apply star_refl|eauto]|]. eapply star_step; eauto. Qed.

Ltac go tac := eapply star_front; [tac|]; cbv [w_clock w_files w_rows w_stamp w_upds w_ever replace_upd app].
Ltac scan := go ltac:(eapply (W_scan _ _ []); [reflexivity|discriminate]); vm_compute scan_one.

(** Modification times 4 ms coarse (a kernel tick), a file written half a
    millisecond after an update began: no later update ever sees it. *)
Theorem C29_coarse_mtime_refuted : exists w u f,
  reachable 4000 w /\ w_upds w = [u] /\ u_todo u = [] /\ u_found u = [] /\
  In f (w_files w) /\ f_readable f = true /\ f_write f < u_start u /\ ~ indexed w f.
Proof.
  eexists _, _, (mkFile "a" 10500 8000 true). split.
  - unfold reachable, start_world.
    go ltac:(apply (W_tick _ _ 10000); lia).
    go ltac:(apply (W_write _ _ "b"%string 10000 true); cbn; lia).
    go ltac:(apply (W_begin _ _ ["b"%string]); cbn; intros f [<-|[]]; cbn; auto).
    go ltac:(apply (W_tick _ _ 500); lia).
    go ltac:(apply (W_write _ _ "a"%string 8000 true); cbn; lia).
    scan.
    go ltac:(eapply (W_append _ _ []); [reflexivity|reflexivity|reflexivity|discriminate]).
    go ltac:(eapply (W_stamp _ _ []); [reflexivity|reflexivity]).
    go ltac:(apply (W_tick _ _ 10000); lia).
    go ltac:(apply (W_begin _ _ ["a"; "b"]%string); cbn; intros f [<-|[<-|[]]]; cbn; auto).
    scan.
    go ltac:(apply (W_remove _ _ "b"%string)).
    scan.
    apply star_refl.
  - cbn. repeat split; auto; try lia. unfold indexed. cbn. intros [H|[]]. discriminate.
Qed.
Print Assumptions C29_coarse_mtime_refuted.

(** update(paths=...) moves the time stamp although other files were not scanned:
    they are lost to every later update(). *)
Theorem C29_partial_update_refuted : exists w u f,
  star (wstep_paths 0) start_world w /\ w_upds w = [u] /\ u_todo u = [] /\ u_found u = [] /\
  In f (w_files w) /\ f_readable f = true /\ f_write f < u_start u /\ ~ indexed w f.
Proof.
  eexists _, _, (mkFile "b" 0 0 true). split.
  - unfold start_world.
    go ltac:(apply WP_step, (W_write _ _ "a"%string 0 true); cbn; lia).
    go ltac:(apply WP_step, (W_write _ _ "b"%string 0 true); cbn; lia).
    go ltac:(apply WP_step, (W_tick _ _ 5000); lia).
    go ltac:(apply (WP_begin _ _ ["a"%string])).
    go ltac:(apply WP_step; eapply (W_scan _ _ []); [reflexivity|discriminate]); vm_compute scan_one.
    go ltac:(apply WP_step; eapply (W_append _ _ []); [reflexivity|reflexivity|reflexivity|discriminate]).
    go ltac:(apply WP_step; eapply (W_stamp _ _ []); [reflexivity|reflexivity]).
    go ltac:(apply WP_step, (W_tick _ _ 5000); lia).
    go ltac:(apply WP_step, (W_begin _ _ ["a"; "b"]%string); cbn; intros f [<-|[<-|[]]]; cbn; auto).
    go ltac:(apply WP_step; eapply (W_scan _ _ []); [reflexivity|discriminate]); vm_compute scan_one.
    go ltac:(apply WP_step; eapply (W_scan _ _ []); [reflexivity|discriminate]); vm_compute scan_one.
    apply star_refl.
  - cbn. repeat split; auto; try lia. unfold indexed. cbn. intros [H|[]]. discriminate.
Qed.
Print Assumptions C29_partial_update_refuted.

(** A crash between the two writes, a file changed during the scan, two updates
    at once: the hypotheses are met by such a run. *)
Example C29_witness : exists w, reachable 0 w /\ w_stamp w = Some 2000 /\
  In (mkFile "a" 1000 1000 true) (w_files w) /\ In (mkFile "b" 3000 3000 true) (w_files w) /\ zlen (w_rows w) = 4.
Proof.
  eexists. split.
  - unfold reachable, start_world.
    go ltac:(apply (W_tick _ _ 1000); lia).
    go ltac:(apply (W_write _ _ "a"%string 1000 true); cbn; lia).
    go ltac:(apply (W_begin _ _ ["a"%string]); cbn; intros f [<-|[]]; cbn; auto).
    go ltac:(apply (W_tick _ _ 1000); lia).
    go ltac:(apply (W_begin _ _ ["a"%string]); cbn; intros f [<-|[]]; cbn; auto).
    go ltac:(eapply (W_scan _ _ [_]); [reflexivity|discriminate]); vm_compute scan_one.
    go ltac:(eapply (W_append _ _ [_]); [reflexivity|reflexivity|reflexivity|discriminate]).
    go ltac:(eapply (W_crash _ _ [_]); reflexivity).
    go ltac:(apply (W_tick _ _ 1000); lia).
    scan.
    go ltac:(apply (W_write _ _ "b"%string 3000 true); cbn; lia).
    go ltac:(eapply (W_append _ _ []); [reflexivity|reflexivity|reflexivity|discriminate]).
    go ltac:(eapply (W_stamp _ _ []); [reflexivity|reflexivity]).
    go ltac:(apply (W_begin _ _ ["a"; "b"]%string); cbn; intros f [<-|[<-|[]]]; cbn; auto).
    scan. scan.
    go ltac:(eapply (W_append _ _ []); [reflexivity|reflexivity|reflexivity|discriminate]).
    apply star_refl.
  - cbn. split; [reflexivity|]. split; [auto|]. split; [auto|reflexivity].
Qed.

(** * C30: rows per file *)
Theorem C30_scan_once : forall fs since todo,
  (forall f, In f fs -> lookup_file (f_path f) fs = Some f) -> NoDup todo ->
  NoDup (flat_map (scan_path fs since) todo) /\
  forall p v, In (p, v) (flat_map (scan_path fs since) todo) <->
    In p todo /\ exists f, In f fs /\ f_path f = p /\ f_write f = v /\ f_readable f = true /\ eligible since f = true.
Proof. exact scan_all_spec. Qed.
Print Assumptions C30_scan_once.

Theorem C30_scan_collects : forall fs todo u, u_todo u = todo ->
  u_found (scan_all (List.length todo) fs u) = u_found u ++ flat_map (scan_path fs (u_since u)) todo /\
  u_todo (scan_all (List.length todo) fs u) = [].
Proof. exact scan_all_found. Qed.
Print Assumptions C30_scan_collects.

Theorem C30_quiet_partial : forall fs since todo,
  (forall f, In f fs -> eligible since f = false) -> flat_map (scan_path fs since) todo = [].
Proof. exact quiet_scan. Qed.
Print Assumptions C30_quiet_partial.

(** Two updates in a row, the first right after the file was written: the file
    is listed twice. *)
Theorem C30_listed_twice_refuted : exists w p v, reachable 0 w /\ w_rows w = [(p, v); (p, v)].
Proof.
  eexists _, "a"%string, 0. split.
  - unfold reachable, start_world.
    go ltac:(apply (W_write _ _ "a"%string 0 true); cbn; lia).
    go ltac:(apply (W_tick _ _ 500); lia).
    go ltac:(apply (W_begin _ _ ["a"%string]); cbn; intros f [<-|[]]; cbn; auto).
    scan.
    go ltac:(eapply (W_append _ _ []); [reflexivity|reflexivity|reflexivity|discriminate]).
    go ltac:(eapply (W_stamp _ _ []); [reflexivity|reflexivity]).
    go ltac:(apply (W_begin _ _ ["a"%string]); cbn; intros f [<-|[]]; cbn; auto).
    scan.
    go ltac:(eapply (W_append _ _ []); [reflexivity|reflexivity|reflexivity|discriminate]).
    apply star_refl.
  - reflexivity.
Qed.
Print Assumptions C30_listed_twice_refuted.

(** A rewritten file keeps its old row, a removed file too. *)
Theorem C30_stale_row_refuted : exists w, reachable 0 w /\ w_files w = [] /\
  w_rows w = [("a"%string, 0); ("a"%string, 5000)].
Proof.
  eexists. split.
  - unfold reachable, start_world.
    go ltac:(apply (W_write _ _ "a"%string 0 true); cbn; lia).
    go ltac:(apply (W_begin _ _ ["a"%string]); cbn; intros f [<-|[]]; cbn; auto).
    scan.
    go ltac:(eapply (W_append _ _ []); [reflexivity|reflexivity|reflexivity|discriminate]).
    go ltac:(eapply (W_stamp _ _ []); [reflexivity|reflexivity]).
    go ltac:(apply (W_tick _ _ 5000); lia).
    go ltac:(apply (W_write _ _ "a"%string 5000 true); cbn; lia).
    go ltac:(apply (W_begin _ _ ["a"%string]); cbn; intros f [<-|[]]; cbn; auto).
    scan.
    go ltac:(eapply (W_append _ _ []); [reflexivity|reflexivity|reflexivity|discriminate]).
    go ltac:(apply (W_remove _ _ "a"%string)).
    apply star_refl.
  - split; reflexivity.
Qed.
Print Assumptions C30_stale_row_refuted.

Example C30_witness :
  let fs := [mkFile "a" 5 5 true; mkFile "b" 7 7 false; mkFile "c" 3 3 true]%string in
  (forall f, In f fs -> lookup_file (f_path f) fs = Some f) /\ NoDup ["a"; "b"; "c"]%string /\
  flat_map (scan_path fs (Some 4)) ["a"; "b"; "c"]%string = [("a"%string, 5)] /\
  (forall f, In f fs -> eligible (Some 8) f = false).
Proof.
  cbv zeta. split; [|split; [|split]].
  - intros f [<-|[<-|[<-|[]]]]; reflexivity.
  - repeat constructor; cbn; intuition discriminate.
  - reflexivity.
  - intros f [<-|[<-|[<-|[]]]]; reflexivity.
Qed.

(** Properties C01-C19: one-dimensional coordinates.
    Model: CoordModel.v. Specification vocabulary: CoordSpec.v. *)
From Verif Require Import Base BaseFacts CoordModel CoordSpec CoordProofs CoordProofs2 CoordProofs3
  CoordProofs4 CoordProofs5 ArgSort.
From Coq Require Import Sorting.Permutation Sorting.Sorted.

(** A ten-sample ascending and a five-sample descending coordinate used by the
    witnesses below. *)
Definition up10 : crange := mkRange KInt 0 100 10 10.
Definition down5 : crange := mkRange KTime 50 0 (-10) 5.
Example up10_wf : wf_range up10. Proof. unfold wf_range; cbn; lia. Qed.
Example down5_wf : wf_range down5. Proof. unfold wf_range; cbn; lia. Qed.

(** * C01: construction *)
Theorem C01_range_construction : forall k a b s, s <> 0 ->
  match mk_range k a b s with
  | Ok r => exists n, 1 <= n /\
      20 * ((n - 1) * Z.abs s) + Z.abs s < 20 * ((b - a) * Z.sgn s) <= 20 * (n * Z.abs s) + Z.abs s /\
      r_values r = progression a s n /\ r_kind r = k /\
      r_start r = a /\ r_step r = s /\ r_len r = n /\ r_stop r = a + n * s /\
      is_least (r_min r) (progression a s n) /\ is_greatest (r_max r) (progression a s n)
  | Err e => e = CoordError /\ 20 * ((b - a) * Z.sgn s) <= Z.abs s
  end.
Proof. exact mk_range_construction. Qed.
Print Assumptions C01_range_construction.

Theorem C01_zero_step : forall k a b,
  mk_range k a b 0 = if a =? b then Ok (mkRange k a b 0 1) else Err ZeroDivision.
Proof. exact mk_range_zero_step. Qed.
Print Assumptions C01_zero_step.

Theorem C01_from_length_stop : forall k a s n, s <> 0 -> 1 <= n ->
  mk_range_opt k (Some a) None (Some s) (Some n) = Ok (mkRange k a (a + s * n) s n).
Proof. exact mk_range_opt_stop. Qed.
Print Assumptions C01_from_length_stop.

Theorem C01_from_length_start : forall k b s n, s <> 0 -> 1 <= n ->
  mk_range_opt k None (Some b) (Some s) (Some n) = Ok (mkRange k (b - s * n) b s n).
Proof. exact mk_range_opt_start. Qed.
Print Assumptions C01_from_length_start.

Theorem C01_from_length_step : forall k a s n, s <> 0 -> 1 <= n ->
  mk_range_opt k (Some a) (Some (a + s * n)) None (Some n) = Ok (mkRange k a (a + s * n) s n).
Proof. exact mk_range_opt_step. Qed.
Print Assumptions C01_from_length_step.

Example C01_witness : mk_range KInt 0 97 10 = Ok up10 /\ mk_range KTime 50 4 (-10) = Ok down5 /\
  mk_range KInt 0 (-5) 10 = Err CoordError /\
  r_values up10 = [0; 10; 20; 30; 40; 50; 60; 70; 80; 90].
Proof. vm_compute; repeat split; reflexivity. Qed.

(** * C02: slicing *)
Theorem C02_range_slicing : forall r s, wf_range r ->
  match slice_positions (r_len r) s with
  | None => c_getitem (CRange r) (IxSlice s) = Err ValueError
  | Some ps =>
      exists c, c_getitem (CRange r) (IxSlice s) = Ok c /\
        (exists vs, gather (r_values r) ps = Some vs /\ c_values c = map Some vs) /\
        (ps <> [] -> exists r', c = CRange r' /\ wf_range r') /\
        (ps = [] -> c = CPart 0)
  end.
Proof. exact r_getitem_slice. Qed.
Print Assumptions C02_range_slicing.

Example C02_witness :
  slice_positions 10 (mkSlice (Some (-2)) (Some 1) (Some (-3))) = Some [8; 5; 2] /\
  (do c <- c_getitem (CRange up10) (IxSlice (mkSlice (Some (-2)) (Some 1) (Some (-3)))); Ok (c_values c))
  = Ok [Some 80; Some 50; Some 20].
Proof. vm_compute; split; reflexivity. Qed.

(** * C03: range select on an evenly sampled coordinate *)
Theorem C03_range_select : forall r relative lo hi,
  wf_range r -> Z.abs (r_step r) < 20000000000 ->
  exists out, c_select (CRange r) relative lo hi = Ok out /\
    keeps_exactly (r_values r)
      (between (resolve relative (r_min r) (r_max r) lo) (resolve relative (r_min r) (r_max r) hi)) out.
Proof. exact r_select_exact. Qed.
Print Assumptions C03_range_select.

(** Steps of 20 s and more: exact up to half a unit in the tenth decimal of a
    sample. *)
Theorem C03_range_select_tolerance : forall r relative lo hi mn mx,
  wf_range r -> r_min r = mn -> r_max r = mx ->
  exists out, c_select (CRange r) relative lo hi = Ok out /\
    keeps_exactly (r_values r)
      (between_tol (r_step r) (resolve relative mn mx lo) (resolve relative mn mx hi)) out.
Proof. exact r_select_core. Qed.
Print Assumptions C03_range_select_tolerance.

Example C03_witness :
  (do x <- c_select (CRange up10) false (Some 55) (Some 20); Ok (c_values (fst x), snd x))
  = Ok ([Some 20; Some 30; Some 40; Some 50], simple_slice (Some 2) (Some 6)) /\
  (do x <- c_select (CRange down5) true (Some 5) (Some (-15)); Ok (c_values (fst x), snd x))
  = Ok ([Some 30; Some 20], simple_slice (Some 2) (Some 4)).
Proof. vm_compute; split; reflexivity. Qed.

(** * C04: range select on a monotonic array *)
Theorem C04_mono_select_partial : forall k v relative lo hi mn mx,
  v <> [] -> ascending v \/ descending v -> list_min v = Some mn -> list_max v = Some mx ->
  exists out, c_select (CMono k v) relative lo hi = Ok out /\
    keeps_as_coord v (between (resolve relative mn mx lo) (resolve relative mn mx hi)) out.
Proof. exact m_select_spec. Qed.
Print Assumptions C04_mono_select_partial.

(** The missing part: when the selected values are nearly, but not exactly, even
    the result is snapped to an even grid, so its values are not the selected
    ones. *)
Theorem C04_mono_select_refuted : exists v lo hi out,
  ascending v /\ c_select (CMono KTime v) false lo hi = Ok out /\
  c_values (fst out) <> map Some (filter (between lo hi) v).
Proof.
  exists [0; 1000; 2001; 5000], (Some 0), (Some 2500). eexists.
  split; [cbn; lia|]. split; [vm_compute; reflexivity|]. vm_compute; discriminate.
Qed.
Print Assumptions C04_mono_select_refuted.

Example C04_witness :
  (do x <- c_select (CMono KInt [1; 4; 9; 16; 25]) false (Some 4) (Some 24); Ok (c_values (fst x), snd x))
  = Ok ([Some 4; Some 9; Some 16], simple_slice (Some 1) (Some 4)) /\
  spread (filter (between (Some 4) (Some 24)) [1; 4; 9; 16; 25]).
Proof.
  split; [vm_compute; reflexivity|]. cbn. intros m2 H d d' Hd Hd'. exfalso.
  assert (A : near_half m2 5) by (apply H; exists 0, 4, 9; auto).
  assert (B : near_half m2 7) by (apply H; exists 1, 9, 16; auto).
  unfold near_half in *; lia.
Qed.

(** * C05: range select on an arbitrary array *)
Theorem C05_array_select_partial : forall k v relative lo hi mn mx,
  list_min v = Some mn -> list_max v = Some mx ->
  exists out, c_select (CArr k v) relative lo hi = Ok out /\
    keeps_as_coord v (between (resolve relative mn mx lo) (resolve relative mn mx hi)) out.
Proof. exact a_select_spec. Qed.
Print Assumptions C05_array_select_partial.

Theorem C05_array_select_refuted : exists v lo hi out,
  c_select (CArr KTime v) false lo hi = Ok out /\
  c_values (fst out) <> map Some (filter (between lo hi) v).
Proof.
  exists [9000; 0; 1000; 2001; 5000], (Some 0), (Some 2500). eexists.
  split; [vm_compute; reflexivity|]. vm_compute; discriminate.
Qed.
Print Assumptions C05_array_select_refuted.

Example C05_witness :
  (do x <- c_select (CArr KInt [3; 1; 3; 9; 2]) false (Some 2) (Some 3); Ok (c_values (fst x), snd x))
  = Ok ([Some 3; Some 3; Some 2], IxInts [0; 2; 4]).
Proof. vm_compute; reflexivity. Qed.

(** * C06: selecting with arrays *)
Theorem C06_select_values_partial : forall c arr keep, wf_coord c -> concrete c ->
  (forall x, keep x = true <-> In x arr) ->
  exists out, select_values c arr = Ok out /\ keeps_as_coord (c_ints c) keep out.
Proof. exact select_values_spec. Qed.
Print Assumptions C06_select_values_partial.

Theorem C06_select_sample_array_partial : forall c arr, wf_coord c -> concrete c ->
  exists out ps vs, select_sample_array c arr = Ok out /\
    StronglySorted Z.lt ps /\ (forall i, In i ps <-> In i arr /\ 0 <= i < c_len c) /\
    indexer_positions (c_len c) (snd out) = Some ps /\
    gather (c_ints c) ps = Some vs /\ represents (fst out) vs.
Proof. exact select_sample_array_spec. Qed.
Print Assumptions C06_select_sample_array_partial.

Theorem C06_select_bools_partial : forall c m, wf_coord c -> concrete c ->
  if zlen m =? c_len c then
    exists out ps vs, select_bools c m = Ok out /\
      StronglySorted Z.lt ps /\ (forall i, In i ps <-> znth m i = Some true) /\
      indexer_positions (c_len c) (snd out) = Some ps /\
      gather (c_ints c) ps = Some vs /\ represents (fst out) vs
  else exists e, select_bools c m = Err e.
Proof. exact select_bools_spec. Qed.
Print Assumptions C06_select_bools_partial.

(** Array coordinates, and slices of any coordinate, keep the picked values
    exactly (no rebuilding through get_coord). *)
Theorem C06_index_exact : forall c ix ps, wf_coord c -> concrete c ->
  indexer_positions (c_len c) ix = Some ps ->
  (c_evenly c = false \/ exists s, ix = IxSlice s) ->
  exists c' vs, c_getitem c ix = Ok c' /\ gather (c_ints c) ps = Some vs /\
    c_values c' = map Some vs.
Proof. exact c_getitem_exact. Qed.
Print Assumptions C06_index_exact.

(** The missing part: picking from an evenly sampled coordinate rebuilds it. *)
Theorem C06_select_values_refuted : exists r arr out,
  wf_range r /\ select_values (CRange r) arr = Ok out /\
  c_values (fst out) <> map Some (filter (fun x => existsb (Z.eqb x) arr) (r_values r)).
Proof.
  exists (mkRange KTime 0 2002 1 2002), [0; 1000; 2001]. eexists.
  split; [unfold wf_range; cbn; lia|]. split; [vm_compute; reflexivity|].
  vm_compute; discriminate.
Qed.
Print Assumptions C06_select_values_refuted.

Example C06_witness :
  (do x <- select_values (CRange up10) [40; 7; 20; 40]; Ok (c_values (fst x)))
  = Ok [Some 20; Some 40] /\
  (do x <- select_sample_array (CRange up10) [9; 2; 30; -1]; Ok (c_values (fst x)))
  = Ok [Some 20; Some 90] /\
  (do x <- select_bools (CArr KInt [5; 3; 4]) [true; false; true]; Ok (c_values (fst x)))
  = Ok [Some 5; Some 4].
Proof. vm_compute; repeat split; reflexivity. Qed.

(** * C07: sample ranges *)
Theorem C07_sample_select : forall c a, wf_coord c ->
  match slice_positions (c_len c) (to_slice a) with
  | None => exists e, select_samples c a = Err e
  | Some ps =>
      exists c', select_samples c a = Ok (c', IxSlice (to_slice a)) /\
        (concrete c -> exists vs, gather (c_ints c) ps = Some vs /\ c_values c' = map Some vs) /\
        (~ concrete c -> c' = CPart (zlen ps))
  end.
Proof. exact select_samples_spec. Qed.
Print Assumptions C07_sample_select.

Theorem C07_sample_int : forall n i, - n <= i < n ->
  slice_positions n (to_slice (SaInt i)) = Some [if i <? 0 then i + n else i].
Proof. exact to_slice_int. Qed.
Print Assumptions C07_sample_int.

Theorem C07_sample_pair : forall n a b, 0 <= n ->
  slice_positions n (to_slice (SaPair a b)) =
  Some (filter (fun i => (match a with None => true
                          | Some x => (if x <? 0 then x + n else x) <=? i end)
                         && (match b with None => true
                             | Some y => i <? (if y <? 0 then y + n else y) end))
               (zrange n)).
Proof. exact to_slice_pair. Qed.
Print Assumptions C07_sample_pair.

Example C07_witness :
  (do x <- select_samples (CRange up10) (SaPair (Some (-3)) None); Ok (c_values (fst x)))
  = Ok [Some 70; Some 80; Some 90] /\
  (do x <- select_samples (CMono KInt [1; 4; 9]) (SaInt (-1)); Ok (c_values (fst x))) = Ok [Some 9] /\
  (do x <- select_samples (CPart 7) (SaPair (Some 2) (Some 5)); Ok (fst x)) = Ok (CPart 3).
Proof. vm_compute; repeat split; reflexivity. Qed.

(** * C08: order *)
Theorem C08_order_values_partial : forall argsort c arr,
  valid_argsort argsort -> wf_coord c -> concrete c ->
  exists out inds, order_values argsort c arr = Ok out /\
    blocks_of (c_ints c) arr inds /\
    indexer_positions (c_len c) (snd out) = Some inds /\
    gather (c_ints c) inds
      = Some (concat (map (fun x => map (fun _ => x) (occurrences x (c_ints c))) arr)) /\
    represents (fst out) (concat (map (fun x => map (fun _ => x) (occurrences x (c_ints c))) arr)).
Proof. exact order_values_full. Qed.
Print Assumptions C08_order_values_partial.

Theorem C08_order_values_refuted : exists r arr out,
  wf_range r /\ order_values stable_argsort (CRange r) arr = Ok out /\
  c_values (fst out) <> map Some arr /\ (forall x, In x arr -> In x (r_values r)).
Proof.
  exists (mkRange KTime 0 2002 1 2002), [0; 1000; 2001]. eexists.
  split; [unfold wf_range; cbn; lia|]. split; [vm_compute; reflexivity|].
  split; [vm_compute; discriminate|].
  intros x [<-|[<-|[<-|[]]]]; apply memZ_In; vm_compute; reflexivity.
Qed.
Print Assumptions C08_order_values_refuted.

Theorem C08_order_samples_partial : forall c arr, wf_coord c -> concrete c ->
  let ok := filter (fun i => (- c_len c <? i) && (i <? c_len c)) arr in
  exists out vs, order_samples c arr = Ok out /\
    gather (c_ints c) (map (wrap_index (c_len c)) ok) = Some vs /\
    represents (fst out) vs /\
    ((forall i, In i ok -> 0 <= i) -> indexer_positions (c_len c) (snd out) = Some ok).
Proof. exact order_samples_spec. Qed.
Print Assumptions C08_order_samples_partial.

Theorem C08_argsort_exists : valid_argsort stable_argsort.
Proof. exact stable_argsort_valid. Qed.
Print Assumptions C08_argsort_exists.

Example C08_witness :
  (do x <- order_values stable_argsort (CArr KInt [5; 2; 5; 7]) [7; 5; 1]; Ok (c_values (fst x), snd x))
  = Ok ([Some 7; Some 5; Some 5], IxInts [3; 0; 2]) /\
  (do x <- order_values stable_argsort (CRange down5) [30; 20; 10]; Ok (c_values (fst x), snd x))
  = Ok ([Some 30; Some 20; Some 10], simple_slice (Some 2) (Some 5)).
Proof. vm_compute; split; reflexivity. Qed.

(** * C09: sort *)
Theorem C09_sort_partial : forall argsort c reverse,
  valid_argsort argsort -> wf_coord c -> concrete c ->
  exists out vs, c_sort argsort c reverse = Ok out /\
    np_index (c_ints c) (snd out) = Some vs /\ Permutation vs (c_ints c) /\
    sorted_as reverse vs /\ represents (fst out) vs.
Proof. exact c_sort_spec. Qed.
Print Assumptions C09_sort_partial.

(** Evenly sampled coordinates sort exactly. *)
Theorem C09_sort_range : forall r reverse, wf_range r ->
  let out := r_sort r reverse in
  exists vs, c_values (fst out) = map Some vs /\ sorted_as reverse vs /\
    np_index (r_values r) (snd out) = Some vs /\ Permutation vs (r_values r) /\
    exists r', fst out = CRange r' /\ wf_range r' /\ Z.abs (r_step r') = Z.abs (r_step r).
Proof. exact r_sort_spec. Qed.
Print Assumptions C09_sort_range.

Theorem C09_sort_refuted : exists v out, v <> [] /\
  c_sort stable_argsort (CArr KTime v) false = Ok out /\
  forall s, Permutation s v -> c_values (fst out) <> map Some s.
Proof.
  exists [2001; 0; 1000]. eexists. split; [discriminate|]. split; [vm_compute; reflexivity|].
  intros s P E. assert (H : In (Some 2001) (map Some s)).
  { apply in_map. eapply Permutation_in; [symmetry; exact P|]. cbn; auto. }
  rewrite <- E in H. vm_compute in H. intuition discriminate.
Qed.
Print Assumptions C09_sort_refuted.

Example C09_witness :
  (do x <- c_sort stable_argsort (CArr KInt [5; 2; 9; 2]) true; Ok (c_values (fst x)))
  = Ok [Some 9; Some 5; Some 2; Some 2] /\
  c_values (fst (r_sort down5 false)) = [Some 10; Some 20; Some 30; Some 40; Some 50].
Proof. vm_compute; split; reflexivity. Qed.

(** * C10: get_coord *)
Theorem C10_get_coord_partial : forall k v,
  exists c, get_coord_data k v = Ok c /\ represents c v /\ wf_coord c.
Proof. exact get_coord_represents. Qed.
Print Assumptions C10_get_coord_partial.

Theorem C10_get_coord_flags : forall k v c, 2 <= zlen v -> get_coord_data k v = Ok c ->
  (c_sorted c = true <-> ascending v) /\ (c_reverse_sorted c = true <-> descending v).
Proof. exact get_coord_flags. Qed.
Print Assumptions C10_get_coord_flags.

Theorem C10_get_coord_refuted : exists v c,
  get_coord_data KTime v = Ok c /\ c_values c <> map Some v.
Proof.
  exists [0; 1000; 2001]. eexists. split; [vm_compute; reflexivity|]. vm_compute; discriminate.
Qed.
Print Assumptions C10_get_coord_refuted.

(** How far a snapped coordinate can be off: sample i by at most 0.2003 % of i
    steps. *)
Theorem C10_drift_bound : forall k v r, get_coord_data k v = Ok (CRange r) ->
  r_len r = zlen v /\ znth v 0 = Some (r_start r) /\ gap v (r_step r) /\
  forall i x, znth v i = Some x ->
    1000000 * Z.abs (x - (r_start r + i * r_step r)) <= 2003 * i * Z.abs (r_step r).
Proof. exact get_coord_drift. Qed.
Print Assumptions C10_drift_bound.

(** ... and that is not bounded by any number of samples. *)
Theorem C10_drift_unbounded : forall N, 0 < N -> exists v r i x,
  get_coord_data KTime v = Ok (CRange r) /\ znth v i = Some x /\
  N * Z.abs (r_step r) <= Z.abs (x - (r_start r + i * r_step r)).
Proof. exact drift_unbounded. Qed.
Print Assumptions C10_drift_unbounded.

(** One value with an explicit step. *)
Theorem C10_get_coord_one : forall k x s, s <> 0 ->
  exists r, get_coord_one k x s = Ok (CRange r) /\ wf_range r /\ r_values r = [x] /\ r_step r = s /\ r_len r = 1 /\ r_kind r = k.
Proof. exact get_coord_one_ok. Qed.
Print Assumptions C10_get_coord_one.

Example C10_witness :
  get_coord_data KInt [0; 10; 20; 30] = Ok (CRange (mkRange KInt 0 40 10 4)) /\
  get_coord_data KInt [30; 20; 7] = Ok (CMono KInt [30; 20; 7]) /\
  get_coord_data KInt [1; 1] = Ok (CArr KInt [1; 1]) /\
  get_coord_data KInt [4] = Ok (CMono KInt [4]).
Proof. vm_compute; repeat split; reflexivity. Qed.

(** * C11: flags stay truthful *)
Theorem C11_flags_truthful_partial : forall argsort ops c c',
  wf_coord c -> no_order_on_mono argsort c ops ->
  run_ops argsort c ops = Ok c' -> truthful c'.
Proof. exact run_truthful. Qed.
Print Assumptions C11_flags_truthful_partial.

(** The missing part: ordering a monotonic array keeps its class. *)
Theorem C11_flags_truthful_refuted : exists v arr c',
  wf_coord (CMono KInt v) /\
  run_ops stable_argsort (CMono KInt v) [OpOrderValues arr] = Ok c' /\
  c_sorted c' = true /\ ~ ascending (c_ints c').
Proof.
  exists [0; 1; 3; 7], [7; 0; 3]. eexists. split; [cbn; split; [discriminate|left; lia]|].
  split; [vm_compute; reflexivity|]. split; [vm_compute; reflexivity|]. cbn; lia.
Qed.
Print Assumptions C11_flags_truthful_refuted.

(** A consequence: a later range select returns the wrong values. *)
Theorem C11_select_after_order_refuted : exists v arr c' out,
  run_ops stable_argsort (CMono KInt v) [OpOrderValues arr] = Ok c' /\
  c_select c' false (Some 0) (Some 1) = Ok out /\
  c_values (fst out) <> map Some (filter (between (Some 0) (Some 1)) (c_ints c')).
Proof.
  exists [0; 1; 3; 7], [7; 0; 3]. eexists. eexists. split; [vm_compute; reflexivity|].
  split; [vm_compute; reflexivity|]. vm_compute; discriminate.
Qed.
Print Assumptions C11_select_after_order_refuted.

Example C11_witness :
  let ops := [OpSelect false (Some 5) None; OpSort true; OpOrderSamples [3; 2; 0]; OpSlice (mkSlice None None (Some (-1)))] in
  no_order_on_mono stable_argsort (CRange up10) ops /\
  (do c <- run_ops stable_argsort (CRange up10) ops; Ok (c_ints c)) = Ok [90; 70; 60].
Proof. vm_compute; repeat split; reflexivity. Qed.

(** * C12: update_limits *)
Theorem C12_three_arguments : forall r a b s,
  r_update_limits r (Some a) (Some b) (Some s) = Err ValueError.
Proof. exact update_limits_three. Qed.
Print Assumptions C12_three_arguments.

Theorem C12_step : forall r s, wf_range r -> s <> 0 ->
  r_update_limits r None None (Some s)
  = Ok (CRange (mkRange (r_kind r) (r_start r) (r_start r + s * r_len r) s (r_len r))).
Proof. exact update_limits_step. Qed.
Print Assumptions C12_step.

(** Moving the start (the minimum of an ascending coordinate), optionally with a
    new step. *)
Theorem C12_min : forall r m os, wf_range r -> (forall s, os = Some s -> s <> 0) ->
  let s := match os with Some s => s | None => r_step r end in
  r_update_limits r (Some m) None os
  = Ok (CRange (mkRange (r_kind r) m (m + s * r_len r) s (r_len r))).
Proof. exact update_limits_min. Qed.
Print Assumptions C12_min.

Theorem C12_max : forall r m os, wf_range r -> (forall s, os = Some s -> s <> 0) ->
  let s := match os with Some s => s | None => r_step r end in
  r_update_limits r None (Some m) os
  = Ok (CRange (mkRange (r_kind r) (m + s - s * r_len r) (m + s) s (r_len r))).
Proof. exact update_limits_max. Qed.
Print Assumptions C12_max.

(** Those two coordinates have minimum, respectively maximum, m. *)
Theorem C12_min_is_min : forall k a s n, 0 < s -> 1 <= n ->
  r_min (mkRange k a (a + s * n) s n) = a.
Proof. exact r_min_asc. Qed.
Print Assumptions C12_min_is_min.
Theorem C12_max_is_max : forall k a s n, 0 < s -> 1 <= n ->
  r_max (mkRange k (a + s - s * n) (a + s) s n) = a.
Proof. exact r_max_asc. Qed.
Print Assumptions C12_max_is_max.

Theorem C12_both_partial : forall r a b, wf_range r -> r_kind r = KTime ->
  a <> b -> (b - a) mod r_len r = 0 ->
  r_update_limits r (Some a) (Some b) None
  = Ok (CRange (mkRange KTime a b ((b - a) / r_len r) (r_len r))).
Proof. exact update_limits_both. Qed.
Print Assumptions C12_both_partial.

Theorem C12_none : forall r, r_update_limits r None None None = Ok (CRange r).
Proof. exact update_limits_none. Qed.
Print Assumptions C12_none.

Theorem C12_array : forall k mono v m (hi : bool), v <> [] ->
  exists c old, (if hi then is_greatest old v else is_least old v) /\
    a_update_limits k mono v (if hi then None else Some m) (if hi then Some m else None) None = Ok c /\
    represents c (map (fun y => y + (m - old)) v).
Proof. exact a_update_limits_spec. Qed.
Print Assumptions C12_array.

(** Changing the limits of an evenly sampled coordinate never degrades it to one
    without values, whatever the arguments. *)
Theorem C12_stays_range : forall r mn mx step c, wf_range r ->
  r_update_limits r mn mx step = Ok c -> exists r', c = CRange r'.
Proof. exact update_limits_range. Qed.
Print Assumptions C12_stays_range.

(** A zero step is accepted and leaves a single sample, whatever the length was:
    [coord.update_limits(step=0)] changes the length without an error. *)
Theorem C12_zero_step_length_refuted : exists r c, wf_range r /\ r_len r = 5 /\
  r_update_limits r None None (Some 0) = Ok c /\ c_len c = 1.
Proof.
  exists (mkRange KInt 10 20 2 5). eexists. split; [split; [discriminate|split; [vm_compute; discriminate|reflexivity]]|].
  split; [reflexivity|]. split; vm_compute; reflexivity.
Qed.
Print Assumptions C12_zero_step_length_refuted.

(** Refuted parts: on a descending coordinate the new minimum becomes the
    maximum; with both limits the length can change and the requested maximum is
    not the maximum. *)
Theorem C12_min_descending_refuted : exists r m r', wf_range r /\
  r_update_limits r (Some m) None None = Ok (CRange r') /\ r_min r' <> m.
Proof. exists down5, 0. eexists. split; [exact down5_wf|]. split; [vm_compute; reflexivity|]. vm_compute; discriminate. Qed.
Print Assumptions C12_min_descending_refuted.
Theorem C12_both_length_refuted : exists r a b r', wf_range r /\
  r_update_limits r (Some a) (Some b) None = Ok (CRange r') /\ r_len r' <> r_len r.
Proof.
  exists (mkRange KTime 0 30000 1 30000), 0, 1000000000. eexists.
  split; [unfold wf_range; cbn; lia|]. split; [vm_compute; reflexivity|]. vm_compute; discriminate.
Qed.
Print Assumptions C12_both_length_refuted.
Theorem C12_both_max_refuted : exists r a b r', wf_range r /\
  r_update_limits r (Some a) (Some b) None = Ok (CRange r') /\ r_max r' <> b.
Proof.
  exists (mkRange KTime 0 100 10 10), 0, 200. eexists.
  split; [unfold wf_range; cbn; lia|]. split; [vm_compute; reflexivity|]. vm_compute; discriminate.
Qed.
Print Assumptions C12_both_max_refuted.

Example C12_witness :
  (do c <- r_update_limits up10 None (Some 7) (Some 2); Ok (c_ints c))
  = Ok [-11; -9; -7; -5; -3; -1; 1; 3; 5; 7].
Proof. vm_compute; reflexivity. Qed.

(** * C13: change_length *)
Theorem C13_change_length_ok : forall r n c, wf_range r -> change_length r n = Ok c ->
  0 <= n /\ ((n = 0 /\ c = CPart 0) \/
    exists r', c = CRange r' /\ wf_range r' /\ r_kind r' = r_kind r /\
      r_start r' = r_start r /\ r_step r' = r_step r /\ r_len r' = n).
Proof. exact change_length_ok. Qed.
Print Assumptions C13_change_length_ok.

Theorem C13_change_length_partial : forall r n, wf_range r -> 1 <= n ->
  (r_kind r = KTime \/ r_len r = n \/
   1 + 1000 * Z.abs (r_stop r) < 100000000 * (Z.abs (r_step r) * Z.abs (n - r_len r))) ->
  change_length r n = Ok (CRange (mkRange (r_kind r) (r_start r) (r_start r + r_step r * n) (r_step r) n)).
Proof. exact change_length_wf. Qed.
Print Assumptions C13_change_length_partial.

Theorem C13_prefix : forall r r', wf_range r -> wf_range r' ->
  r_start r' = r_start r -> r_step r' = r_step r ->
  firstn (Z.to_nat (Z.min (r_len r) (r_len r'))) (r_values r')
  = firstn (Z.to_nat (Z.min (r_len r) (r_len r'))) (r_values r).
Proof. exact change_length_prefix. Qed.
Print Assumptions C13_prefix.

Theorem C13_negative : forall r n, n < 0 -> change_length r n = Err ParameterError.
Proof. exact change_length_neg. Qed.
Print Assumptions C13_negative.
Theorem C13_zero : forall r, wf_range r -> change_length r 0 = Ok (CPart 0).
Proof. exact change_length_zero. Qed.
Print Assumptions C13_zero.

(** Refuted for integer coordinates: growing a coordinate of 200 000 samples by
    one is swallowed as a rounding difference and fails an assertion. *)
Theorem C13_change_length_refuted : exists r n, wf_range r /\ 1 <= n /\
  change_length r n = Err AssertionError.
Proof.
  exists (mkRange KInt 0 200000 1 200000), 200001. split; [unfold wf_range; cbn; lia|].
  split; [lia|]. vm_compute; reflexivity.
Qed.
Print Assumptions C13_change_length_refuted.

Example C13_witness :
  (do c <- change_length down5 7; Ok (c_ints c)) = Ok [50; 40; 30; 20; 10; 0; -10].
Proof. vm_compute; reflexivity. Qed.

(** * C14: snap *)
Theorem C14_snap : forall mono v mn mx, v <> [] -> is_least mn v -> is_greatest mx v ->
  let n := zlen v in
  let step := if n =? 1 then 1000000000 else round_half_even (mx - mn) (n - 1) in
  let down := mono && step_meets false v in
  (0 < step ->
     exists r, snap KTime mono v = Ok (CRange r) /\ wf_range r /\ r_len r = n /\
       r_start r = (if down then mx else mn) /\ r_step r = (if down then - step else step)) /\
  (step <= 0 -> snap KTime mono v = Err AssertionError).
Proof. exact snap_spec. Qed.
Print Assumptions C14_snap.

Theorem C14_snap_error : forall span n, 2 <= n -> 0 <= span ->
  2 * Z.abs (round_half_even span (n - 1) * (n - 1) - span) <= n - 1.
Proof. exact snap_step_error. Qed.
Print Assumptions C14_snap_error.

Example C14_witness :
  (do c <- snap KTime true [100; 60; 50; 0]; Ok (c_ints c)) = Ok [100; 67; 34; 1] /\
  snap KTime false [5; 5; 5] = Err AssertionError.
Proof. vm_compute; split; reflexivity. Qed.

(** * C15: align_to *)
Theorem C15_align_to_partial : forall argsort a b, valid_argsort argsort ->
  wf_coord a -> wf_coord b -> concrete a -> concrete b ->
  NoDup (c_ints a) -> NoDup (c_ints b) -> ~ confusable a b ->
  exists a' b' ia ib common,
    align_to argsort a b = Ok (a', b', ia, ib) /\
    ascending common /\ (forall x, In x common <-> In x (c_ints a) /\ In x (c_ints b)) /\
    np_index (c_ints a) ia = Some common /\ np_index (c_ints b) ib = Some common /\
    represents a' common /\ represents b' common.
Proof. exact align_to_spec. Qed.
Print Assumptions C15_align_to_partial.

Theorem C15_align_confusable : forall argsort a b, confusable a b ->
  align_to argsort a b = Ok (a, b, simple_slice None None, simple_slice None None).
Proof. exact align_to_confusable. Qed.
Print Assumptions C15_align_confusable.

Theorem C15_align_equal_times : forall argsort a b, confusable a b ->
  (concrete a -> c_kind a = KTime) ->
  align_to argsort a b = Ok (a, b, simple_slice None None, simple_slice None None) /\
  c_ints a = c_ints b.
Proof. intros argsort a b H K. split; [exact (align_to_confusable _ _ _ H)|exact (confusable_times _ _ H K)]. Qed.
Print Assumptions C15_align_equal_times.

(** Refuted for integer arrays that differ by less than 1e-5 of their values:
    they count as equal and come back unaligned. *)
Theorem C15_align_close_refuted : exists a b a' b' ia ib,
  wf_coord a /\ wf_coord b /\ align_to stable_argsort a b = Ok (a', b', ia, ib) /\
  znth (c_ints a') 1 = Some 1000003 /\ znth (c_ints b') 1 = Some 1000004.
Proof.
  exists (CMono KInt [1000000; 1000003; 1000010]), (CMono KInt [1000000; 1000004; 1000010]).
  do 4 eexists. split; [cbn; split; [discriminate|lia]|]. split; [cbn; split; [discriminate|lia]|].
  split; [vm_compute; reflexivity|]. split; reflexivity.
Qed.
Print Assumptions C15_align_close_refuted.

Theorem C15_align_unknown_values : forall argsort a b, a <> b -> ~ (concrete a /\ concrete b) ->
  align_to argsort a b =
  if (c_len a =? 1) || (c_len b =? 1) || (c_len a =? c_len b)
  then Ok (a, b, simple_slice None None, simple_slice None None) else Err CoordError.
Proof. exact align_to_partial. Qed.
Print Assumptions C15_align_unknown_values.

Example C15_witness :
  (do x <- align_to stable_argsort (CRange up10) (CArr KInt [70; 5; 20; 40]);
   let '(a, b, ia, ib) := x in Ok (c_ints a, c_ints b, ia, ib))
  = Ok ([20; 40; 70], [20; 40; 70], IxInts [2; 4; 7], IxInts [2; 3; 0]) /\
  NoDup [70; 5; 20; 40] /\ ~ confusable (CRange up10) (CArr KInt [70; 5; 20; 40]) /\
  confusable (CMono KTime [1; 2; 4]) (CArr KTime [1; 2; 4]).
Proof.
  split; [vm_compute; reflexivity|].
  split; [repeat constructor; cbn; intuition discriminate|].
  split; [intros [H|(k & v & w & [H|H] & _)]; discriminate|].
  right. exists KTime, [1; 2; 4], [1; 2; 4]. repeat split; auto. repeat constructor.
Qed.

(** * C16: get_next_index *)
Theorem C16_next_index_range : forall r arr allow,
  wf_range r -> 0 < r_step r -> r_step r < 20000000000 ->
  (forall x, In x arr -> r_min r <= x <= r_max r) ->
  exists out, next_index (CRange r) arr allow = Ok out /\
    Forall2 (first_at_or_after (r_values r)) arr out.
Proof. exact next_index_range. Qed.
Print Assumptions C16_next_index_range.

Theorem C16_next_index_mono_partial : forall k v arr allow mn mx,
  ascending v -> list_min v = Some mn -> list_max v = Some mx ->
  c_sorted (CMono k v) = true ->
  (forall x, In x arr -> mn < x <= mx) ->
  exists out, next_index (CMono k v) arr allow = Ok out /\ Forall2 (first_at_or_after v) arr out.
Proof. exact next_index_mono. Qed.
Print Assumptions C16_next_index_mono_partial.

(** Refuted at the first value of a monotonic array: index 1 instead of 0. *)
Theorem C16_next_index_mono_refuted : exists v x out, ascending v /\ In x v /\
  next_index (CMono KInt v) [x] false = Ok out /\ ~ Forall2 (first_at_or_after v) [x] out.
Proof.
  exists [2; 5; 9], 2. eexists. split; [cbn; lia|]. split; [cbn; auto|].
  split; [vm_compute; reflexivity|]. intros F. inversion F as [|? ? ? ? H]; subst.
  destruct H as (_ & H & _). specialize (H 0 2 eq_refl ltac:(lia)). lia.
Qed.
Print Assumptions C16_next_index_mono_refuted.

Theorem C16_out_of_bounds : forall c arr mn mx,
  c_sorted c = true -> c_min c = Some mn -> c_max c = Some mx ->
  (exists x, In x arr /\ (x < mn \/ mx < x)) -> next_index c arr false = Err ValueError.
Proof. exact next_index_oob. Qed.
Print Assumptions C16_out_of_bounds.

Theorem C16_unsorted : forall c arr b, c_sorted c = false -> next_index c arr b = Err CoordError.
Proof. exact next_index_unsorted. Qed.
Print Assumptions C16_unsorted.

Theorem C16_samples : forall c arr, c_sorted c = true ->
  next_index_samples c arr false =
  if forallb (fun i => (- c_len c <=? i) && (i <? c_len c)) arr
  then Ok (map (wrap_index (c_len c)) arr) else Err ValueError.
Proof. exact next_index_samples_spec. Qed.
Print Assumptions C16_samples.

Example C16_witness :
  next_index (CRange up10) [0; 1; 10; 90] false = Ok [0; 1; 1; 9] /\
  next_index (CMono KInt [2; 5; 9]) [3; 5; 9] false = Ok [1; 1; 2] /\
  next_index_samples (CRange up10) [-1; 3] false = Ok [9; 3].
Proof. vm_compute; repeat split; reflexivity. Qed.

(** * C17: get_sample_count *)
Theorem C17_sample_count : forall r d enforce, wf_range r -> 0 < r_step r -> 0 <= d ->
  exists n, (n - 1) * r_step r < d <= n * r_step r /\
    sample_count r d enforce
    = if enforce && (r_len r <? n) then Err ParameterError else Ok n.
Proof. exact sample_count_spec. Qed.
Print Assumptions C17_sample_count.

Theorem C17_sample_count_samples : forall r n enforce,
  sample_count_samples r n enforce
  = if enforce && (r_len r <? n) then Err ParameterError else Ok n.
Proof. reflexivity. Qed.
Print Assumptions C17_sample_count_samples.

Example C17_witness : sample_count up10 31 true = Ok 4 /\ sample_count up10 101 true = Err ParameterError.
Proof. vm_compute; split; reflexivity. Qed.

(** * C18: summary round trip *)
Theorem C18_summary_roundtrip : forall r, wf_range r ->
  summary_to_coord (r_kind r) (to_summary r) = Ok r.
Proof. exact summary_roundtrip. Qed.
Print Assumptions C18_summary_roundtrip.

Theorem C18_summary_truthful : forall r, wf_range r ->
  to_summary r = (r_min r, r_max r, r_step r) /\
  is_least (r_min r) (r_values r) /\ is_greatest (r_max r) (r_values r).
Proof. exact (fun r W => conj eq_refl (conj (r_min_least r W) (r_max_greatest r W))). Qed.
Print Assumptions C18_summary_truthful.

Theorem C18_coord_range : forall r extend, wf_range r ->
  coord_range (CRange r) extend = Ok ((r_len r - 1 + (if extend then 1 else 0)) * Z.abs (r_step r)).
Proof. exact coord_range_spec. Qed.
Print Assumptions C18_coord_range.

Example C18_witness : to_summary down5 = (10, 50, -10) /\
  summary_to_coord KTime (10, 50, -10) = Ok down5.
Proof. vm_compute; split; reflexivity. Qed.

(** * C19: index compression *)
Theorem C19_index_compression : forall l n, 0 <= n -> (forall i, In i l -> 0 <= i < n) ->
  indexer_positions n (maybe_slice l n) = Some l.
Proof. exact maybe_slice_faithful. Qed.
Print Assumptions C19_index_compression.

Example C19_witness : maybe_slice [2; 3; 4] 9 = simple_slice (Some 2) (Some 5) /\
  maybe_slice [0; 1; 2] 3 = simple_slice None None /\
  maybe_slice [0; 2; 1; 3] 9 = IxInts [0; 2; 1; 3].
Proof. vm_compute; repeat split; reflexivity. Qed.

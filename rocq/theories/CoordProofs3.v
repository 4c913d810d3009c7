(** Lemmas behind CoordProps.v: array selects, ordering, sorting, limits. *)
From Verif Require Import Base BaseFacts CoordModel CoordSpec CoordProofs CoordProofs2.
From Coq Require Import ZifyBool Sorting.Permutation Sorting.Sorted.
Ltac Zify.zify_post_hook ::= Z.div_mod_to_equations.

(** ** Indexing in general *)
Lemma wf_len c : wf_coord c -> concrete c -> zlen (c_ints c) = c_len c.
Proof.
  destruct c; cbn [wf_coord concrete c_ints c_len]; auto; [|tauto].
  intros; now apply zlen_r_values.
Qed.
Lemma concrete_values c : concrete c -> c_values c = map Some (c_ints c).
Proof. destruct c; cbn; tauto. Qed.

Lemma c_getitem_spec c ix : wf_coord c -> concrete c ->
  match indexer_positions (c_len c) ix with
  | None => exists e, c_getitem c ix = Err e
  | Some ps =>
      exists c' vs, c_getitem c ix = Ok c' /\ gather (c_ints c) ps = Some vs /\
        represents c' vs
  end.
Proof.
  intros W C. pose proof (wf_len c W C) as L. destruct c as [r|k v|k v|n]; [| | |destruct C].
  - cbn [c_ints c_len] in *. destruct ix as [s|l|m].
    + pose proof (r_getitem_slice r s W) as H. cbn [indexer_positions].
      destruct (slice_positions (r_len r) s) as [ps|]; [|eauto].
      destruct H as (c & E & (vs & G & V) & _). exists c, vs. repeat split; auto; rewrite V.
      * apply zlen_map.
      * apply znth_map.
    + destruct (indexer_positions (r_len r) (IxInts l)) as [ps|] eqn:E.
      * rewrite <- L in E. destruct (np_index_ok _ _ _ E) as (vs & N & G).
        destruct (get_coord_represents (r_kind r) vs) as (c & Ec & R & _).
        exists c, vs. repeat split; auto; try apply R. cbn [c_getitem]. now rewrite N.
      * exists IndexError. cbn [c_getitem]. unfold np_index. now rewrite L, E.
    + destruct (indexer_positions (r_len r) (IxBools m)) as [ps|] eqn:E.
      * rewrite <- L in E. destruct (np_index_ok _ _ _ E) as (vs & N & G).
        destruct (get_coord_represents (r_kind r) vs) as (c & Ec & R & _).
        exists c, vs. repeat split; auto; try apply R. cbn [c_getitem]. now rewrite N.
      * exists IndexError. cbn [c_getitem]. unfold np_index. now rewrite L, E.
  - cbn [c_ints c_len c_getitem] in *.
    destruct (indexer_positions (zlen v) ix) as [ps|] eqn:E.
    + destruct (np_index_ok _ _ _ E) as (vs & N & G). rewrite N. exists (CMono k vs), vs.
      repeat split; auto; cbn [c_values]; [apply zlen_map|apply znth_map].
    + unfold np_index. rewrite E. eauto.
  - cbn [c_ints c_len c_getitem] in *.
    destruct (indexer_positions (zlen v) ix) as [ps|] eqn:E.
    + destruct (np_index_ok _ _ _ E) as (vs & N & G). rewrite N. exists (CArr k vs), vs.
      repeat split; auto; cbn [c_values]; [apply zlen_map|apply znth_map].
    + unfold np_index. rewrite E. eauto.
Qed.

(** Slices, and any indexing of an array coordinate, keep the values exactly. *)
Lemma c_getitem_exact c ix ps : wf_coord c -> concrete c ->
  indexer_positions (c_len c) ix = Some ps ->
  (c_evenly c = false \/ exists s, ix = IxSlice s) ->
  exists c' vs, c_getitem c ix = Ok c' /\ gather (c_ints c) ps = Some vs /\
    c_values c' = map Some vs.
Proof.
  intros W C E H. destruct c as [r|k v|k v|n]; [| | |destruct C].
  - destruct H as [H|[s ->]]; [discriminate|]. cbn [c_ints c_len] in *.
    pose proof (r_getitem_slice r s W) as G. cbn [indexer_positions] in E. rewrite E in G.
    destruct G as (c & E' & (vs & G & V) & _). eauto.
  - cbn [c_ints c_len c_getitem] in *. destruct (np_index_ok _ _ _ E) as (vs & N & G).
    rewrite N. exists (CMono k vs), vs; auto.
  - cbn [c_ints c_len c_getitem] in *. destruct (np_index_ok _ _ _ E) as (vs & N & G).
    rewrite N. exists (CArr k vs), vs; auto.
Qed.

(** ** Array selects (C06) *)
Lemma mask_positions {A} (p : A -> bool) l :
  indexer_positions (zlen l) (IxBools (map p l)) = Some (positions_where p l).
Proof.
  cbn [indexer_positions]. rewrite zlen_map, Z.eqb_refl. now rewrite positions_where_true.
Qed.

Lemma memZ_In x l : memZ x l = true <-> In x l.
Proof.
  unfold memZ. rewrite existsb_exists. split.
  - intros (y & Hy & E); assert (x = y) by lia; now subst.
  - intros H; exists x; split; auto; lia.
Qed.

Lemma select_values_spec c arr keep : wf_coord c -> concrete c ->
  (forall x, keep x = true <-> In x arr) ->
  exists out, select_values c arr = Ok out /\ keeps_as_coord (c_ints c) keep out.
Proof.
  intros W C K.
  assert (E : forall x, memZ x arr = keep x).
  { intros x. apply eq_true_iff_eq. now rewrite memZ_In, K. }
  unfold select_values. rewrite (map_ext _ _ E).
  pose proof (c_getitem_spec c (IxBools (map keep (c_ints c))) W C) as H.
  rewrite <- (wf_len c W C), mask_positions in H.
  destruct H as (c' & vs & -> & G & R). rewrite gather_positions_where in G.
  injection G as <-. cbn [bind]. eexists; split; [reflexivity|]. split; auto.
  apply mask_positions.
Qed.

Lemma positions_where_zrange p n : positions_where p (zrange n) = filter p (zrange n).
Proof.
  unfold positions_where. rewrite zlen_zrange.
  replace (zrange (Z.max 0 n)) with (zrange n)
    by (unfold zrange; f_equal; f_equal; lia).
  apply filter_ext_in. intros i Hi; apply in_zrange in Hi. rewrite znth_zrange.
  destruct (Z.leb_spec 0 i), (Z.ltb_spec i n); try lia; reflexivity.
Qed.

Lemma select_sample_array_spec c arr : wf_coord c -> concrete c ->
  exists out ps vs, select_sample_array c arr = Ok out /\
    zsorted ps /\ (forall i, In i ps <-> In i arr /\ 0 <= i < c_len c) /\
    indexer_positions (c_len c) (snd out) = Some ps /\
    gather (c_ints c) ps = Some vs /\ represents (fst out) vs.
Proof.
  intros W C. pose proof (wf_len c W C) as L.
  assert (P : indexer_positions (c_len c) (IxBools (map (fun i => memZ i arr) (zrange (c_len c))))
     = Some (filter (fun i => memZ i arr) (zrange (c_len c)))).
  { pose proof (mask_positions (fun i => memZ i arr) (zrange (c_len c))) as M.
    rewrite positions_where_zrange, zlen_zrange in M.
    rewrite Z.max_r in M by (rewrite <- L; apply zlen_nonneg). exact M. }
  unfold select_sample_array.
  pose proof (c_getitem_spec c
      (IxBools (map (fun i => memZ i arr) (zrange (c_len c)))) W C) as H.
  rewrite P in H. destruct H as (c' & vs & -> & G & R). cbn [bind].
  eexists _, _, vs. repeat split; try exact P; try exact G; try apply R.
  - apply zsorted_filter, zsorted_zrange.
  - apply filter_In in H as [H1 H2]. now apply memZ_In.
  - apply filter_In in H as [H1 H2]. now apply in_zrange in H1.
  - apply filter_In in H as [H1 H2]. now apply in_zrange in H1.
  - intros [H1 H2]. apply filter_In; split; [now apply in_zrange|now apply memZ_In].
Qed.

Lemma select_bools_spec c m : wf_coord c -> concrete c ->
  if zlen m =? c_len c then
    exists out ps vs, select_bools c m = Ok out /\
      zsorted ps /\ (forall i, In i ps <-> znth m i = Some true) /\
      indexer_positions (c_len c) (snd out) = Some ps /\
      gather (c_ints c) ps = Some vs /\ represents (fst out) vs
  else exists e, select_bools c m = Err e.
Proof.
  intros W C. unfold select_bools.
  pose proof (c_getitem_spec c (IxBools m) W C) as H. cbn [indexer_positions] in *.
  destruct (Z.eqb_spec (zlen m) (c_len c)) as [E|E].
  - destruct H as (c' & vs & -> & G & R). cbn [bind].
    eexists _, _, vs. split; [reflexivity|]. split; [apply zsorted_true_positions|].
    split; [|repeat split; try exact G; try apply R].
    + intros i. rewrite in_true_positions, Z.sub_0_r. reflexivity.
    + cbn [snd indexer_positions]. now rewrite E, Z.eqb_refl.
  - destruct H as [e ->]. cbn; eauto.
Qed.

(** ** Sample selects (C07) *)
Lemma select_samples_spec c a : wf_coord c ->
  match slice_positions (c_len c) (to_slice a) with
  | None => exists e, select_samples c a = Err e
  | Some ps =>
      exists c', select_samples c a = Ok (c', IxSlice (to_slice a)) /\
        (concrete c -> exists vs, gather (c_ints c) ps = Some vs /\ c_values c' = map Some vs) /\
        (~ concrete c -> c' = CPart (zlen ps))
  end.
Proof.
  intros W. unfold select_samples.
  destruct (slice_positions (c_len c) (to_slice a)) as [ps|] eqn:E.
  - destruct c as [r|k v|k v|n].
    4:{ cbn [c_getitem c_len indexer_positions] in *. rewrite E. cbn [bind].
        eexists; split; [reflexivity|]. split; [intros []|auto]. }
    all: match goal with |- context [c_getitem ?c ?ix] =>
      destruct (c_getitem_exact c ix ps W I E ltac:(eauto)) as (c' & vs & -> & G & V) end;
      cbn [bind]; eexists; (split; [reflexivity|]); split; [eauto|cbn; tauto].
  - destruct c as [r|k v|k v|n].
    4:{ cbn [c_getitem c_len indexer_positions] in *. rewrite E. cbn [bind]. eauto. }
    all: match goal with |- context [c_getitem ?c ?ix] =>
      pose proof (c_getitem_spec c ix W I) as H end;
      cbn [indexer_positions] in H; rewrite E in H; destruct H as [e ->]; cbn [bind]; eauto.
Qed.

(** Reading of the sample arguments. *)
Lemma to_slice_pair n a b : 0 <= n ->
  slice_positions n (to_slice (SaPair a b)) =
  Some (filter (fun i => (match a with None => true
                          | Some x => (if x <? 0 then x + n else x) <=? i end)
                         && (match b with None => true
                             | Some y => i <? (if y <? 0 then y + n else y) end))
               (zrange n)).
Proof.
  intros Hn. unfold to_slice, slice_positions, slice_indices, clip_index.
  cbn [sl_start sl_stop sl_step]. change (1 =? 0) with false. change (1 <? 0) with false.
  cbv iota zeta.
  set (A := match a with Some i => _ | None => 0 end).
  set (B := match b with Some i => _ | None => n end).
  assert (HA : 0 <= A <= n).
  { subst A; destruct a as [x|]; [|lia]. dif; lia. }
  assert (HB : 0 <= B <= n).
  { subst B; destruct b as [x|]; [|lia]. dif; lia. }
  f_equal. apply zsorted_ext.
  - apply zsorted_map_mono; [intros; lia|]. apply zsorted_zrange.
  - apply zsorted_filter, zsorted_zrange.
  - intros i. rewrite in_map_iff, filter_In, in_zrange.
    assert (Q : 0 <= i < n ->
       ((match a with None => true | Some x => (if x <? 0 then x + n else x) <=? i end)
       && (match b with None => true | Some y => i <? (if y <? 0 then y + n else y) end) = true
       <-> A <= i < B)).
    { intros Hi. subst A B. destruct a as [x|], b as [y|]; dif; lia. }
    clearbody A B.
    destruct (Z.ltb_spec A B) as [HAB|HAB].
    + rewrite Z.div_1_r. split.
      * intros (k & <- & Hk). apply in_zrange in Hk. split; [lia|]. apply Q; lia.
      * intros [Hi Hq]. apply Q in Hq; auto. exists (i - A). split; [lia|]. apply in_zrange; lia.
    + rewrite zrange_nonpos by lia. split.
      * intros (k & _ & []).
      * intros [Hi Hq]. apply Q in Hq; auto. lia.
Qed.

Lemma to_slice_int n i : - n <= i < n ->
  slice_positions n (to_slice (SaInt i)) = Some [wrap_index n i].
Proof.
  intros H. assert (E : to_slice (SaInt i)
    = to_slice (SaPair (Some i) (if i =? -1 then None else Some (i + 1)))).
  { cbn [to_slice]. destruct (Z.eqb_spec i (-1)) as [->|]; reflexivity. }
  rewrite E, to_slice_pair by lia. f_equal. apply zsorted_ext.
  - apply zsorted_filter, zsorted_zrange.
  - repeat constructor.
  - intros j. rewrite filter_In, in_zrange. cbn [In]. unfold wrap_index.
    destruct (Z.eqb_spec i (-1)), (Z.ltb_spec i 0); try destruct (Z.ltb_spec (i + 1) 0); lia.
Qed.
(** ** Index compression (C19) *)
Lemma consecutive l x : (forall d, In d (diffs (x :: l)) -> 0 < d) ->
  last (x :: l) 0 - x >= zlen l /\
  (last (x :: l) 0 - x = zlen l -> x :: l = map (fun i => x + i) (zrange (1 + zlen l))).
Proof.
  revert x; induction l as [|y l IH]; intros x H.
  - change (zlen (@nil Z)) with 0. change (zrange (1 + 0)) with [0]. cbn [last map].
    split; [lia|]. intros _. f_equal; lia.
  - rewrite diffs_cons2 in H.
    assert (H1 : 0 < y - x) by (apply H; cbn; auto).
    destruct (IH y) as [I1 I2]; [intros; apply H; cbn [In]; auto|].
    change (last (x :: y :: l) 0) with (last (y :: l) 0). rewrite zlen_cons. split; [lia|].
    intros E. rewrite zrange_cons by (pose proof (zlen_nonneg l); lia). cbn [map].
    f_equal; [lia|]. rewrite I2 by lia. rewrite map_map.
    replace (1 + (1 + zlen l) - 1) with (1 + zlen l) by lia. apply map_ext; intros; lia.
Qed.

Lemma maybe_slice_faithful l n : 0 <= n -> (forall i, In i l -> 0 <= i < n) ->
  indexer_positions n (maybe_slice l n) = Some l.
Proof.
  intros Hn H. unfold maybe_slice. destruct l as [|x [|x1 l]]; try (now apply ints_positions).
  set (t := x1 :: l) in *.
  destruct (Z.eqb_spec (last (x :: t) 0 - x) (zlen (x :: t) - 1)) as [E|E];
    [|now apply ints_positions].
  destruct (forallb (fun d => 0 <? d) (diffs (x :: t))) eqn:D; [|now apply ints_positions].
  assert (D' : forall d, In d (diffs (x :: t)) -> 0 < d)
    by (rewrite forallb_forall in D; intros d Hd; specialize (D d Hd); lia).
  destruct (consecutive t x D') as [_ L]. rewrite zlen_cons in E. specialize (L ltac:(lia)).
  assert (Hy : last (x :: t) 0 = x + zlen t) by lia.
  assert (Bx : 0 <= x < n) by (apply H; cbn; auto).
  assert (By : 0 <= last (x :: t) 0 < n).
  { apply H. rewrite Hy, L. apply in_map_iff. exists (zlen t); split; auto.
    apply in_zrange. pose proof (zlen_nonneg t); lia. }
  pose proof (zlen_nonneg t) as Ht.
  assert (G : forall a b, (forall i, 0 <= i < n ->
      (opt_or a 0 <= i < opt_or b n <-> x <= i < x + zlen t + 1)) ->
      (forall z, a = Some z -> 0 <= z <= n) -> (forall z, b = Some z -> 0 <= z) ->
      indexer_positions n (simple_slice a b) = Some (x :: t)).
  { intros a b Q Ha Hb. cbn [indexer_positions simple_slice].
    rewrite simple_slice_positions by auto. f_equal. rewrite L. apply zsorted_ext.
    - apply zsorted_filter, zsorted_zrange.
    - apply zsorted_map_mono; [intros; lia|apply zsorted_zrange].
    - intros i. rewrite filter_In, in_map_iff, in_zrange. split.
      + intros [Hi Hq]. exists (i - x). split; [lia|]. apply in_zrange. specialize (Q i Hi). lia.
      + intros (k & <- & Hk). apply in_zrange in Hk. split; [lia|].
        specialize (Q (x + k) ltac:(lia)). lia. }
  rewrite Hy in *.
  destruct (Z.eqb_spec (zlen (x :: t)) n) as [En|En].
  - rewrite zlen_cons in En. apply G; try discriminate. cbn [opt_or]. intros; lia.
  - apply G; cbn [opt_or]; [intros; lia|intros z [= <-]; lia|intros z [= <-]; lia].
Qed.

(** ** Ordering (C08) *)
Lemma value_index_ranges v find :
  value_index v find =
  concat (map (fun x => map (fun i => searchsorted true v x + i)
     (zrange (searchsorted false v x - searchsorted true v x))) find).
Proof.
  unfold value_index.
  assert (C : forall A B (f : Z -> A) (g : Z -> B) l,
     combine (map f l) (map g l) = map (fun x => (f x, g x)) l).
  { clear; induction l; cbn; congruence. }
  rewrite C. destruct (forallb _ _) eqn:F.
  - rewrite forallb_forall in F. clear C. induction find as [|x t IH]; auto.
    cbn [map concat]. rewrite <- IH by (intros p Hp; apply F; cbn; auto).
    pose proof (F (searchsorted true v x, searchsorted false v x)) as Fx.
    cbn [fst snd map In] in Fx. specialize (Fx (or_introl eq_refl)).
    replace (searchsorted false v x - searchsorted true v x) with 1 by lia.
    change (zrange 1) with [0]. cbn. f_equal; lia.
  - rewrite map_map. reflexivity.
Qed.

Lemma sorted_occurrences v x : wsorted v ->
  map (fun i => searchsorted true v x + i)
     (zrange (searchsorted false v x - searchsorted true v x)) = occurrences x v.
Proof.
  intros S. destruct (searchsorted_left v x S) as [Bl Sl], (searchsorted_right v x S) as [Br Sr].
  apply zsorted_ext.
  - apply zsorted_map_mono; [intros; lia|apply zsorted_zrange].
  - apply zsorted_filter, zsorted_zrange.
  - intros i. unfold occurrences, positions_where.
    rewrite in_map_iff, filter_In, in_zrange. split.
    + intros (k & <- & Hk). apply in_zrange in Hk.
      assert (R : 0 <= searchsorted true v x + k < zlen v) by lia. split; auto.
      destruct (proj2 (znth_range v _) R) as [y Hy]. rewrite Hy.
      specialize (Sl _ _ Hy); specialize (Sr _ _ Hy). lia.
    + intros [Hi Hx]. destruct (znth v i) as [y|] eqn:Hy; [|discriminate].
      specialize (Sl _ _ Hy); specialize (Sr _ _ Hy).
      exists (i - searchsorted true v x). split; [lia|]. apply in_zrange; lia.
Qed.

Lemma in_occurrences x v i : In i (occurrences x v) <-> znth v i = Some x.
Proof.
  unfold occurrences, positions_where. rewrite filter_In, in_zrange. split.
  - intros [_ H]. destruct (znth v i) as [y|]; [|discriminate]. f_equal; lia.
  - intros H. rewrite H. split; [eapply znth_some; eauto|lia].
Qed.
Lemma occurrences_opp x v : occurrences (- x) (map Z.opp v) = occurrences x v.
Proof.
  apply zsorted_ext; try (apply zsorted_filter, zsorted_zrange).
  intros i. rewrite !in_occurrences, znth_map. destruct (znth v i); cbn; [|split; discriminate].
  split; intros [= E]; f_equal; lia.
Qed.

Lemma blocks_gather v find inds : blocks_of v find inds ->
  (forall x, In x find -> In x v) ->
  gather v inds = Some (concat (map (fun x => map (fun _ => x) (occurrences x v)) find)).
Proof.
  intros (blocks & -> & F) _. induction F as [|x b find blocks Hb F IH]; auto.
  cbn [concat map]. rewrite gather_app, IH.
  assert (E : gather v b = Some (map (fun _ => x) b)).
  { apply gather_eq_map. intros i Hi. apply in_occurrences.
    eapply Permutation_in; eauto. }
  rewrite E. do 2 f_equal. apply Permutation_length in Hb.
  revert Hb; generalize (occurrences x v); clear. induction b as [|i b IH]; intros [|j l] H;
    cbn in *; try discriminate; auto. f_equal; apply IH; lia.
Qed.
Lemma blocks_in_range v find inds : blocks_of v find inds ->
  forall i, In i inds -> 0 <= i < zlen v.
Proof.
  intros (blocks & -> & F) i Hi. apply in_concat in Hi as (b & Hb & Hi).
  induction F as [|x b' find blocks Hb' F IH]; [destruct Hb|]. destruct Hb as [<-|Hb]; auto.
  apply (Permutation_in _ Hb') in Hi. apply in_occurrences in Hi.
  eapply znth_some; eauto.
Qed.
Lemma value_index_occ v find : wsorted v ->
  value_index v find = concat (map (fun x => occurrences x v) find).
Proof.
  intros S; rewrite value_index_ranges. f_equal. apply map_ext; intros; now apply sorted_occurrences.
Qed.
Lemma blocks_sorted v find : wsorted v -> blocks_of v find (value_index v find).
Proof.
  intros S. rewrite value_index_ranges.
  exists (map (fun x => occurrences x v) find). split.
  - f_equal. apply map_ext; intros; now apply sorted_occurrences.
  - induction find; cbn; constructor; auto.
Qed.

Lemma gather_perm_occurrences v a sv x ps :
  Permutation a (zrange (zlen v)) -> gather v a = Some sv ->
  gather a (occurrences x sv) = Some ps -> Permutation ps (occurrences x v).
Proof.
  intros P Gs Gp. apply NoDup_Permutation.
  - assert (Na : NoDup a) by (eapply Permutation_NoDup; [symmetry; exact P|];
      apply zsorted_NoDup, zsorted_zrange).
    assert (No : NoDup (occurrences x sv)) by (apply zsorted_NoDup, zsorted_filter, zsorted_zrange).
    revert ps Gp No. generalize (occurrences x sv) as os.
    induction os as [|o os IH]; intros ps; cbn [gather].
    + intros [= <-] _; constructor.
    + destruct (znth a o) as [y|] eqn:Ey; [|discriminate].
      destruct (gather a os) as [q|] eqn:Eq; [|discriminate]. intros [= <-] No.
      inversion No as [|? ? N1 N2]; subst. constructor; [|eapply IH; eauto].
      intros Hy. apply in_znth in Hy as (j & Hj).
      rewrite (gather_znth _ _ _ Eq) in Hj. destruct (znth os j) as [o'|] eqn:Eo; [|discriminate].
      assert (o = o').
      { apply znth_some in Ey as B1; apply znth_some in Hj as B2.
        unfold znth in Ey, Hj. destruct (Z.ltb_spec o 0), (Z.ltb_spec o' 0); try lia.
        rewrite NoDup_nth_error in Na. specialize (Na (Z.to_nat o) (Z.to_nat o')).
        unfold zlen in *. specialize (Na ltac:(lia) ltac:(congruence)). lia. }
      subst o'. apply N1. eapply znth_in; eauto.
  - apply zsorted_NoDup, zsorted_filter, zsorted_zrange.
  - intros i. rewrite in_occurrences. split.
    + intros Hi. apply in_znth in Hi as (j & Hj). rewrite (gather_znth _ _ _ Gp) in Hj.
      destruct (znth (occurrences x sv) j) as [o|] eqn:Eo; [|discriminate].
      apply znth_in in Eo. apply in_occurrences in Eo.
      rewrite (gather_znth _ _ _ Gs), Hj in Eo. exact Eo.
    + intros Hi. assert (Hin : In i a).
      { eapply Permutation_in; [symmetry; exact P|]. apply in_zrange. eapply znth_some; eauto. }
      apply in_znth in Hin as (j & Hj).
      assert (Ho : In j (occurrences x sv)).
      { apply in_occurrences. rewrite (gather_znth _ _ _ Gs), Hj. exact Hi. }
      apply in_znth in Ho as (k & Hk).
      apply (znth_in ps k). rewrite (gather_znth _ _ _ Gp), Hk. exact Hj.
Qed.

Lemma order_index_spec argsort c arr : valid_argsort argsort -> wf_coord c -> concrete c ->
  exists inds, order_index argsort c arr = Some inds /\
    blocks_of (c_ints c) (filter (fun x => memZ x (c_ints c)) arr) inds.
Proof.
  intros VA W C. unfold order_index. set (v := c_ints c).
  set (find := filter (fun x => memZ x v) arr).
  assert (As : c_sorted c = true -> wsorted v).
  { intros S. apply zsorted_wsorted, ascending_zsorted. destruct c as [r|k w|k w|n]; cbn in *; try discriminate.
    - subst v; cbn. rewrite r_values_prog by auto. apply zsorted_ascending.
      unfold progression. apply zsorted_map_mono; [|apply zsorted_zrange].
      destruct W as (W & _). unfold r_sorted in S. intros; nia.
    - destruct W as [Hw [Ha|Hd]]; auto. subst v; cbn. rewrite step_meets_gt in S.
      apply orb_true_iff in S as [S|S].
      + apply existsb_exists in S as (d & Hd' & Hp). rewrite descending_diffs in Hd.
        specialize (Hd d Hd'); lia.
      + destruct w as [|a [|b t]]; cbn; auto. rewrite !zlen_cons in S; pose proof (zlen_nonneg t); lia. }
  assert (Ds : c_reverse_sorted c = true -> wsorted (map Z.opp v)).
  { intros S. apply zsorted_wsorted, ascending_zsorted, ascending_opp.
    destruct c as [r|k w|k w|n]; cbn in *; try discriminate.
    - subst v; cbn. rewrite r_values_prog by auto. apply ascending_opp, zsorted_ascending.
      unfold progression. rewrite map_map. apply zsorted_map_mono; [|apply zsorted_zrange].
      destruct W as (W & _). unfold r_reverse_sorted in S. intros; nia.
    - destruct W as [Hw [Ha|Hd]]; auto. subst v; cbn. rewrite step_meets_lt in S.
      apply existsb_exists in S as (d & Hd' & Hp). rewrite ascending_diffs in Ha.
      specialize (Ha d Hd'); lia. }
  destruct (c_sorted c).
  { eexists; split; [reflexivity|]. apply blocks_sorted; auto. }
  destruct (c_reverse_sorted c).
  { eexists; split; [reflexivity|].
    destruct (blocks_sorted (map Z.opp v) (map Z.opp find) (Ds eq_refl)) as (bl & E & F).
    exists bl. split; auto. clear E. revert bl F. induction find as [|x t IH]; intros bl F; cbn in F;
      inversion F; subst; constructor; auto. now rewrite <- (occurrences_opp x v). }
  destruct (VA v) as (P & sv & Gs & Ss). cbv zeta. rewrite Gs.
  assert (Hlen : zlen (argsort v) = zlen v).
  { apply Permutation_length in P. unfold zlen at 1. rewrite P.
    pose proof (zlen_zrange (zlen v)). unfold zlen in *. lia. }
  rewrite (value_index_occ sv find Ss).
  induction find as [|x t (inds & G & bl & E & F)]; cbn [map concat].
  - exists []. split; auto. exists []; auto.
  - destruct (gather_ok (argsort v) (occurrences x sv)) as (p & Gp).
    { intros i Hi. apply in_occurrences in Hi. rewrite <- (gather_some_len _ _ _ Gs).
      eapply znth_some; eauto. }
    exists (p ++ inds). rewrite gather_app, Gp, G. split; auto.
    exists (p :: bl). split; [cbn; congruence|]. constructor; auto.
    eapply gather_perm_occurrences; eauto.
Qed.

Lemma order_values_spec argsort c arr : valid_argsort argsort -> wf_coord c -> concrete c ->
  exists out inds vs, order_values argsort c arr = Ok out /\
    blocks_of (c_ints c) (filter (fun x => memZ x (c_ints c)) arr) inds /\
    indexer_positions (c_len c) (snd out) = Some inds /\
    gather (c_ints c) inds = Some vs /\
    vs = concat (map (fun x => map (fun _ => x) (occurrences x (c_ints c)))
                     (filter (fun x => memZ x (c_ints c)) arr)) /\
    represents (fst out) vs.
Proof.
  intros VA W C. destruct (order_index_spec argsort c arr VA W C) as (inds & E & B).
  pose proof (wf_len c W C) as L.
  assert (R : forall i, In i inds -> 0 <= i < c_len c)
    by (rewrite <- L; eapply blocks_in_range; eauto).
  assert (Hn : 0 <= c_len c) by (rewrite <- L; apply zlen_nonneg).
  pose proof (c_getitem_spec c (IxInts inds) W C) as H. rewrite ints_positions in H by auto.
  destruct H as (c' & vs & G1 & G2 & Rp).
  assert (G3 := G2). rewrite (blocks_gather _ _ _ B) in G3
    by (intros x Hx; apply filter_In in Hx as [_ Hx]; now apply memZ_In).
  exists (c', maybe_slice inds (c_len c)), inds, vs. split.
  - unfold order_values. destruct c; try (destruct C; fail); rewrite E, G1; reflexivity.
  - repeat split; auto; try apply Rp; [now apply maybe_slice_faithful|congruence].
Qed.

(** Requested values the coordinate does not hold contribute no occurrence, so
    the filter can be left out. *)
Lemma occurrences_absent x v : ~ In x v -> occurrences x v = [].
Proof.
  intros H. destruct (occurrences x v) as [|i t] eqn:E; auto. exfalso. apply H.
  assert (Hi : In i (occurrences x v)) by (rewrite E; cbn; auto).
  apply in_occurrences in Hi. eapply znth_in; eauto.
Qed.
Lemma blocks_unfilter v arr inds :
  blocks_of v (filter (fun x => memZ x v) arr) inds -> blocks_of v arr inds.
Proof.
  revert inds; induction arr as [|x t IH]; intros inds; cbn [filter]; auto.
  destruct (memZ x v) eqn:M.
  - intros (bl & -> & F). inversion F as [|? b ? bl' Hb F']; subst.
    destruct (IH (concat bl')) as (bl2 & E & F2); [exists bl'; auto|].
    exists (b :: bl2). cbn [concat]. split; [congruence|constructor; auto].
  - intros H. destruct (IH _ H) as (bl & -> & F). exists ([] :: bl). split; auto.
    constructor; auto. rewrite occurrences_absent; auto.
    intros Hin; apply memZ_In in Hin; congruence.
Qed.
Lemma order_filter_concat {A} v arr (g : Z -> list Z -> list A) :
  (forall x, g x [] = []) ->
  concat (map (fun x => g x (occurrences x v)) (filter (fun x => memZ x v) arr))
  = concat (map (fun x => g x (occurrences x v)) arr).
Proof.
  intros Hg. induction arr as [|x t IH]; auto. cbn [filter map concat].
  destruct (memZ x v) eqn:M; cbn [map concat]; rewrite IH; auto.
  rewrite (occurrences_absent x v), Hg; auto. intros Hin; apply memZ_In in Hin; congruence.
Qed.
Lemma order_values_full argsort c arr : valid_argsort argsort -> wf_coord c -> concrete c ->
  exists out inds, order_values argsort c arr = Ok out /\
    blocks_of (c_ints c) arr inds /\
    indexer_positions (c_len c) (snd out) = Some inds /\
    gather (c_ints c) inds
      = Some (concat (map (fun x => map (fun _ => x) (occurrences x (c_ints c))) arr)) /\
    represents (fst out) (concat (map (fun x => map (fun _ => x) (occurrences x (c_ints c))) arr)).
Proof.
  intros VA W C. destruct (order_values_spec argsort c arr VA W C)
    as (out & inds & vs & E & B & P & G & V & R).
  rewrite (order_filter_concat _ _ (fun x l => map (fun _ => x) l)) in V by auto.
  subst vs. exists out, inds. split; [auto|]. split; [now apply blocks_unfilter|auto].
Qed.

Lemma order_samples_spec c arr : wf_coord c -> concrete c ->
  let ok := filter (fun i => (- c_len c <? i) && (i <? c_len c)) arr in
  exists out vs, order_samples c arr = Ok out /\
    gather (c_ints c) (map (wrap_index (c_len c)) ok) = Some vs /\
    represents (fst out) vs /\
    ((forall i, In i ok -> 0 <= i) -> indexer_positions (c_len c) (snd out) = Some ok).
Proof.
  intros W C ok. pose proof (wf_len c W C) as L.
  assert (Hn : 0 <= c_len c) by (rewrite <- L; apply zlen_nonneg).
  assert (E : filter (fun i => Z.abs i <? c_len c) arr = ok).
  { subst ok. apply filter_ext; intros; lia. }
  unfold order_samples; rewrite E.
  assert (R : forall i, In i ok -> - c_len c < i < c_len c).
  { intros i Hi; subst ok; apply filter_In in Hi; lia. }
  pose proof (c_getitem_spec c (IxInts ok) W C) as H. cbn [indexer_positions] in H.
  assert (F : forallb (fun i => (- c_len c <=? i) && (i <? c_len c)) ok = true).
  { apply forallb_forall; intros i Hi; specialize (R i Hi); lia. }
  rewrite F in H. destruct H as (c' & vs & -> & G & Rp). cbn [bind].
  eexists _, vs. split; [reflexivity|]. repeat split; auto; try apply Rp.
  intros Hp. apply maybe_slice_faithful; auto. intros i Hi; specialize (R i Hi); specialize (Hp i Hi); lia.
Qed.

(** ** Sorting (C09) *)
Lemma rev_progression a s n : 0 <= n ->
  rev (progression a s n) = progression (a + (n - 1) * s) (- s) n.
Proof.
  intros Hn. unfold progression. rewrite <- map_rev.
  assert (E : rev (zrange n) = map (fun i => n - 1 - i) (zrange n)).
  { apply znth_ext_len; rewrite zlen_rev, ?zlen_map; auto. rewrite zlen_zrange, Z.max_r by lia.
    intros i Hi. rewrite znth_map, znth_zrange. destruct (Z.leb_spec 0 i), (Z.ltb_spec i n); try lia.
    cbn [andb option_map].
    assert (R : forall (l : list Z) j, 0 <= j < zlen l -> znth (rev l) j = znth l (zlen l - 1 - j)).
    { clear. intros l j Hj. unfold znth, zlen in *.
      destruct (Z.ltb_spec j 0); [lia|]. destruct (Z.ltb_spec (Z.of_nat (length l) - 1 - j) 0); [lia|].
      rewrite (nth_error_nth' (rev l) 0) by (rewrite rev_length; lia).
      rewrite (nth_error_nth' l 0) by lia. f_equal. rewrite rev_nth by lia. f_equal; lia. }
    rewrite R by (rewrite zlen_zrange; lia). rewrite zlen_zrange, Z.max_r, znth_zrange by lia.
    destruct (Z.leb_spec 0 (n - 1 - i)), (Z.ltb_spec (n - 1 - i) n); try lia. reflexivity. }
  rewrite E, map_map. apply map_ext; intros; ring.
Qed.
Lemma rev_slice_positions n : 0 <= n ->
  slice_positions n (mkSlice None None (Some (-1))) = Some (rev (zrange n)).
Proof.
  intros Hn. unfold slice_positions, slice_indices; cbn [sl_start sl_stop sl_step].
  change (-1 =? 0) with false. change (-1 <? 0) with true. cbv iota.
  f_equal. pose proof (rev_progression 0 1 n Hn) as R. unfold progression in R.
  rewrite (map_ext (fun i => 0 + i * 1) (fun i => i)), map_id in R by (intros; lia).
  rewrite R. destruct (Z.ltb_spec (-1) (n - 1)).
  - change (- (-1)) with 1. rewrite Z.div_1_r.
    replace (n - 1 - -1 - 1 + 1) with n by lia. apply map_ext; intros; lia.
  - rewrite !zrange_nonpos by lia. reflexivity.
Qed.
Lemma ascending_weakly v : ascending v -> weakly_ascending v.
Proof. intros H; apply zsorted_wsorted, ascending_zsorted, H. Qed.
Lemma descending_weakly v : descending v -> weakly_descending v.
Proof.
  intros H%ascending_opp%ascending_zsorted%zsorted_wsorted.
  unfold weakly_descending. induction v as [|x t IH]; constructor; inversion H; subst; auto.
  rewrite Forall_forall in *. intros y Hy. specialize (H3 (- y) (in_map _ _ _ Hy)). lia.
Qed.
Lemma progression_ascending a s n : 0 <= s -> (s = 0 -> n <= 1) -> ascending (progression a s n).
Proof.
  intros Hs Hn. destruct (Z.eq_dec s 0) as [->|].
  - destruct (Z_le_gt_dec n 0); [unfold progression; rewrite zrange_nonpos by lia; exact I|].
    assert (n = 1) as -> by lia. split; exact I.
  - apply zsorted_ascending. unfold progression. apply zsorted_map_mono; [|apply zsorted_zrange].
    intros; nia.
Qed.
Lemma progression_descending a s n : s < 0 -> descending (progression a s n).
Proof.
  intros Hs. apply ascending_opp. unfold progression. rewrite map_map.
  apply zsorted_ascending, zsorted_map_mono; [|apply zsorted_zrange]. intros; nia.
Qed.

Lemma r_sort_spec r reverse : wf_range r ->
  let out := r_sort r reverse in
  exists vs, c_values (fst out) = map Some vs /\ sorted_as reverse vs /\
    np_index (r_values r) (snd out) = Some vs /\ Permutation vs (r_values r) /\
    exists r', fst out = CRange r' /\ wf_range r' /\ Z.abs (r_step r') = Z.abs (r_step r).
Proof.
  intros W; cbv zeta. pose proof W as (Hs & Hn & Hstop). unfold r_sort, r_sorted, r_reverse_sorted.
  pose proof (zlen_r_values r W) as L.
  destruct ((negb reverse && (0 <=? r_step r)) || (reverse && (r_step r <? 0))) eqn:D.
  - exists (r_values r). cbn [fst snd]. split; auto. split.
    + rewrite r_values_prog by auto. destruct reverse; cbn in D |- *.
      * apply descending_weakly, progression_descending; lia.
      * apply ascending_weakly, progression_ascending; lia.
    + split; [|split; [reflexivity|eauto]].
      unfold np_index. rewrite full_slice_positions by apply zlen_nonneg. apply gather_zrange.
  - set (r' := mkRange (r_kind r) (r_start r + (r_len r - 1) * r_step r) (r_start r - r_step r)
                 (- r_step r) (r_len r)).
    assert (E : (let (a, b) := if reverse then (r_max r, r_min r + - r_step r)
                 else (r_min r, r_max r + - r_step r) in
       (r_new r a b (- r_step r), IxSlice (mkSlice None None (Some (-1)))))
      = (CRange r', IxSlice (mkSlice None None (Some (-1))))).
    { assert (Q : (r_start r - r_step r)
        = (r_start r + (r_len r - 1) * r_step r) + (- r_step r) * r_len r) by ring.
      subst r'. rewrite Q.
      pose proof (r_new_exact r (r_start r + (r_len r - 1) * r_step r) (- r_step r) (r_len r)
                    ltac:(lia) Hn) as N.
      unfold r_max, r_min. rewrite Hstop.
      destruct reverse; cbn in D.
      - rewrite Z.max_l, Z.min_l by nia.
        replace (r_start r + r_len r * r_step r - r_step r)
          with (r_start r + (r_len r - 1) * r_step r) by ring.
        rewrite <- Q in N |- *. f_equal. exact N.
      - rewrite Z.max_r, Z.min_r by nia.
        replace (r_start r + r_len r * r_step r - r_step r)
          with (r_start r + (r_len r - 1) * r_step r) by ring.
        rewrite <- Q in N |- *. f_equal. exact N. }
    rewrite E; cbn [fst snd].
    assert (W' : wf_range r') by (unfold wf_range; subst r'; cbn; repeat split; lia).
    assert (V : r_values r' = rev (r_values r)).
    { rewrite !r_values_prog, rev_progression by (auto; lia). reflexivity. }
    exists (r_values r'). cbn [c_values]. split; auto. split.
    { rewrite r_values_prog by auto. subst r'; cbn [r_start r_step r_len].
      destruct reverse; cbn in D |- *.
      - apply descending_weakly, progression_descending; lia.
      - apply ascending_weakly, progression_ascending; lia. }
    split; [|split].
    + unfold np_index. cbn [indexer_positions]. rewrite rev_slice_positions by apply zlen_nonneg.
      rewrite V. pose proof (gather_zrange (r_values r)) as G.
      revert G. generalize (zrange (zlen (r_values r))) as is. generalize (r_values r) at 2 4 as w.
      intros w is; revert w. induction is as [|i is IH]; intros w; cbn [gather rev].
      * intros [= <-]; reflexivity.
      * destruct (znth (r_values r) i) as [x|] eqn:Ex; [|discriminate].
        destruct (gather (r_values r) is) as [q|] eqn:Eq; [|discriminate].
        intros [= <-]. rewrite gather_app, (IH _ eq_refl). cbn [gather rev]. now rewrite Ex.
    + rewrite V. symmetry; apply Permutation_rev.
    + exists r'. split; auto. split; auto. subst r'; cbn; lia.
Qed.

Lemma gather_rev {A} (l : list A) is w : gather l is = Some w -> gather l (rev is) = Some (rev w).
Proof.
  revert w; induction is as [|i is IH]; intros w; cbn [gather rev].
  - intros [= <-]; reflexivity.
  - destruct (znth l i) as [x|] eqn:Ex; [|discriminate].
    destruct (gather l is) as [q|] eqn:Eq; [|discriminate].
    intros [= <-]. rewrite gather_app, (IH _ eq_refl). cbn [gather rev]. now rewrite Ex.
Qed.
Lemma gather_Permutation {A} (l : list A) is js w u : Permutation is js ->
  gather l is = Some w -> gather l js = Some u -> Permutation w u.
Proof.
  intros P; revert w u. induction P; cbn [gather]; intros w u.
  - intros [= <-] [= <-]; auto.
  - destruct (znth l x); [|discriminate]. destruct (gather l l0), (gather l l'); try discriminate.
    intros [= <-] [= <-]; auto.
  - destruct (znth l x), (znth l y), (gather l l0); try discriminate.
    intros [= <-] [= <-]; constructor.
  - intros Hw Hu. destruct (gather_ok l l') as [q Hq].
    { intros i Hi. eapply gather_in_range; [exact Hu|]. eapply Permutation_in; eauto. }
    transitivity q; [apply IHP1|apply IHP2]; auto.
Qed.
Lemma weakly_rev v : weakly_ascending v -> weakly_descending (rev v).
Proof.
  unfold weakly_ascending, weakly_descending. induction 1 as [|x t Ht IH Hx]; [constructor|].
  cbn [rev]. assert (H : forall y, In y (rev t) -> y >= x)
    by (intros y Hy; apply in_rev in Hy; rewrite Forall_forall in Hx; specialize (Hx y Hy); lia).
  clear Hx Ht. induction IH as [|y s Hs IH' Hy]; cbn; [repeat constructor|].
  constructor; [apply IH'; intros; apply H; cbn; auto|].
  rewrite Forall_forall in *. intros z Hz. apply in_app_or in Hz as [Hz|[<-|[]]]; auto.
  apply H; cbn; auto.
Qed.

Lemma c_sort_spec argsort c reverse : valid_argsort argsort -> wf_coord c -> concrete c ->
  exists out vs, c_sort argsort c reverse = Ok out /\
    np_index (c_ints c) (snd out) = Some vs /\ Permutation vs (c_ints c) /\
    sorted_as reverse vs /\ represents (fst out) vs.
Proof.
  intros VA W C. destruct c as [r|k v|k v|n]; [| | |destruct C].
  - destruct (r_sort_spec r reverse W) as (vs & V & S & N & P & _).
    exists (r_sort r reverse), vs. repeat split; auto; rewrite V; [apply zlen_map|apply znth_map].
  - cbn [c_sort c_ints].
    set (a := if reverse then rev (argsort v) else argsort v).
    destruct (VA v) as (P & s & G & S).
    set (vs := if reverse then rev s else s).
    assert (Ga : gather v a = Some vs) by (subst a vs; destruct reverse; auto using gather_rev).
    assert (Pa : Permutation a (zrange (zlen v)))
      by (subst a; destruct reverse; auto; rewrite <- Permutation_rev; auto).
    rewrite Ga. destruct (get_coord_represents k vs) as (c & -> & R & _). cbn [bind].
    eexists _, vs. split; [reflexivity|]. cbn [fst snd]. repeat split; try apply R.
    + unfold np_index. rewrite ints_positions; auto.
      intros i Hi. apply in_zrange. eapply Permutation_in; eauto.
    + eapply gather_Permutation; [exact Pa|exact Ga|apply gather_zrange].
    + subst vs; destruct reverse; cbn; auto. now apply weakly_rev.
  - cbn [c_sort c_ints].
    set (a := if reverse then rev (argsort v) else argsort v).
    destruct (VA v) as (P & s & G & S).
    set (vs := if reverse then rev s else s).
    assert (Ga : gather v a = Some vs) by (subst a vs; destruct reverse; auto using gather_rev).
    assert (Pa : Permutation a (zrange (zlen v)))
      by (subst a; destruct reverse; auto; rewrite <- Permutation_rev; auto).
    rewrite Ga. destruct (get_coord_represents k vs) as (c & -> & R & _). cbn [bind].
    eexists _, vs. split; [reflexivity|]. cbn [fst snd]. repeat split; try apply R.
    + unfold np_index. rewrite ints_positions; auto.
      intros i Hi. apply in_zrange. eapply Permutation_in; eauto.
    + eapply gather_Permutation; [exact Pa|exact Ga|apply gather_zrange].
    + subst vs; destruct reverse; cbn; auto. now apply weakly_rev.
Qed.

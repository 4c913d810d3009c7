(** Lemmas behind CoordProps.v: flags, limits, lengths, alignment, lookups. *)
From Verif Require Import Base BaseFacts CoordModel CoordSpec CoordProofs CoordProofs2 CoordProofs3.
From Coq Require Import ZifyBool Sorting.Permutation Sorting.Sorted.
Ltac Zify.zify_post_hook ::= Z.div_mod_to_equations.

(** ** Flags (C11) *)
Definition honest (c : coord) : Prop :=
  match c with
  | CRange r => wf_range r
  | CMono _ v => ascending v \/ descending v
  | CArr _ _ => True
  | CPart n => 0 <= n
  end.
Lemma wf_honest c : wf_coord c -> honest c.
Proof. destruct c; cbn; tauto. Qed.

Lemma honest_truthful c : honest c -> truthful c.
Proof.
  intros H. destruct c as [r|k v|k v|n]; unfold truthful; cbn [c_sorted c_reverse_sorted c_evenly
    c_ints c_len c_values concrete] in *.
  - pose proof H as (Hs & Hn & _). rewrite zlen_map, zlen_r_values, r_values_prog by auto.
    unfold r_sorted, r_reverse_sorted. repeat split; intros.
    + apply progression_ascending; lia.
    + apply progression_descending; lia.
    + eauto.
  - repeat split; try discriminate; try (rewrite zlen_map; auto).
    + intros S. destruct H as [Ha|Hd]; auto. rewrite step_meets_gt in S.
      apply orb_true_iff in S as [S|S].
      * apply existsb_exists in S as (d & Hd' & Hp). rewrite descending_diffs in Hd.
        specialize (Hd d Hd'); lia.
      * destruct v as [|a [|b t]]; cbn; auto. rewrite !zlen_cons in S; pose proof (zlen_nonneg t); lia.
    + intros S. destruct H as [Ha|Hd]; auto. rewrite step_meets_lt in S.
      apply existsb_exists in S as (d & Hd' & Hp). rewrite ascending_diffs in Ha.
      specialize (Ha d Hd'); lia.
  - repeat split; try discriminate; try (rewrite zlen_map; auto).
  - repeat split; try discriminate; tauto.
Qed.

Lemma ascending_adjacent v : ascending v <->
  forall i x y, znth v i = Some x -> znth v (i + 1) = Some y -> x < y.
Proof.
  rewrite ascending_diffs. split; intros H.
  - intros i x y Hx Hy. enough (0 < y - x) by lia. apply H, in_diffs_gap.
    exists i, x, y; auto.
  - intros d Hd. apply in_diffs_gap in Hd as (i & x & y & Hx & Hy & ->).
    specialize (H i x y Hx Hy); lia.
Qed.
Lemma gather_ascending v ps w : ascending v -> ascending ps -> gather v ps = Some w -> ascending w.
Proof.
  intros Hv Hp G. apply ascending_adjacent. intros i x y Hx Hy.
  rewrite (gather_znth _ _ _ G) in Hx, Hy.
  destruct (znth ps i) as [p|] eqn:E1; [|discriminate].
  destruct (znth ps (i + 1)) as [q|] eqn:E2; [|discriminate].
  eapply (ascending_znth v p q); eauto. apply (ascending_znth ps i (i + 1)); auto. lia.
Qed.
Lemma gather_opp v ps w : gather v ps = Some w -> gather (map Z.opp v) ps = Some (map Z.opp w).
Proof. intros G; rewrite gather_map, G; reflexivity. Qed.
Lemma opp_opp v : map Z.opp (map Z.opp v) = v.
Proof. rewrite map_map. rewrite <- (map_id v) at 2. apply map_ext; intros; lia. Qed.
Lemma gather_descending v ps w : ascending v -> descending ps -> gather v ps = Some w -> descending w.
Proof.
  intros Hv Hp G. apply gather_rev in G. apply ascending_opp in Hp.
  assert (Hr : ascending (rev ps)).
  { apply ascending_adjacent. intros i x y Hx Hy.
    assert (R : forall (l : list Z) j, 0 <= j < zlen l -> znth (rev l) j = znth l (zlen l - 1 - j)).
    { clear. intros l j Hj. unfold znth, zlen in *.
      destruct (Z.ltb_spec j 0); [lia|]. destruct (Z.ltb_spec (Z.of_nat (length l) - 1 - j) 0); [lia|].
      rewrite (nth_error_nth' (rev l) 0) by (rewrite rev_length; lia).
      rewrite (nth_error_nth' l 0) by lia. f_equal. rewrite rev_nth by lia. f_equal; lia. }
    apply znth_some in Hx as B1; apply znth_some in Hy as B2. rewrite zlen_rev in B1, B2.
    rewrite R in Hx, Hy by lia.
    assert (- x < - y -> False).
    { intros Hlt. apply (ascending_znth (map Z.opp ps) (zlen ps - 1 - i) (zlen ps - 1 - (i + 1)) (- x) (- y))
        in Hlt; auto; try lia; rewrite znth_map, ?Hx, ?Hy; auto. }
    assert (x <> y).
    { intros ->. assert (Hlt : - y < - y <-> False) by lia.
      assert (zlen ps - 1 - (i + 1) < zlen ps - 1 - i) as L by lia.
      apply (ascending_znth (map Z.opp ps) _ _ (- y) (- y)) in L; auto; try lia;
        rewrite znth_map, ?Hx, ?Hy; auto. }
    lia. }
  pose proof (gather_ascending _ _ _ Hv Hr G) as Ha.
  apply ascending_zsorted in Ha. apply ascending_opp, zsorted_ascending.
  rewrite <- (rev_involutive w). rewrite map_rev. revert Ha. generalize (rev w). clear.
  intros l Ha. induction Ha as [|x t Ht IH Hx]; cbn [map rev]; [constructor|].
  apply zsorted_app; auto; [repeat constructor|].
  intros a b Ha [<-|[]]. apply in_rev in Ha. apply in_map_iff in Ha as (z & <- & Hz).
  rewrite Forall_forall in Hx. specialize (Hx z Hz); lia.
Qed.
Lemma slice_positions_mono n s ps : slice_positions n s = Some ps -> ascending ps \/ descending ps.
Proof.
  unfold slice_positions. destruct (slice_indices n s) as [[[i0 st] cnt]|] eqn:E; [|discriminate].
  intros [= <-].
  assert (Hst : st <> 0).
  { unfold slice_indices in E. destruct (Z.eqb_spec (match sl_step s with Some k => k | None => 1 end) 0);
      [discriminate|]. congruence. }
  destruct (Z_lt_dec st 0); [right|left].
  - apply (progression_descending i0 st cnt); lia.
  - apply (progression_ascending i0 st cnt); lia.
Qed.
Lemma honest_gather v ps w : ascending v \/ descending v -> ascending ps \/ descending ps ->
  gather v ps = Some w -> ascending w \/ descending w.
Proof.
  intros Hv Hp G. destruct Hv as [Hv|Hv].
  - destruct Hp; [left; apply (gather_ascending v ps)|right; apply (gather_descending v ps)]; auto.
  - apply ascending_opp in Hv. apply gather_opp in G. destruct Hp as [Hp|Hp].
    + right. apply ascending_opp. apply (gather_ascending (map Z.opp v) ps); auto.
    + left. rewrite <- (opp_opp w). apply -> ascending_opp. apply (gather_descending (map Z.opp v) ps); auto.
Qed.

Definition is_ints (ix : indexer) : bool := match ix with IxInts _ => true | _ => false end.
Lemma r_new_honest r a b s : s <> 0 -> wf_range r -> honest (r_new r a b s).
Proof.
  intros Hs W. unfold r_new. destruct (mk_range (r_kind r) a b s) as [r'|e] eqn:E.
  - eapply mk_range_wf in E; auto. apply E.
  - cbn. destruct W as (_ & ? & _); lia.
Qed.
Lemma get_coord_honest k v c : get_coord_data k v = Ok c -> honest c.
Proof.
  intros E. destruct (get_coord_represents k v) as (c' & E' & _ & W).
  rewrite E in E'; injection E' as ->. now apply wf_honest.
Qed.

Lemma getitem_honest c ix c' : honest c -> is_mono c && is_ints ix = false ->
  c_getitem c ix = Ok c' -> honest c'.
Proof.
  intros H NB. destruct c as [r|k v|k v|n]; cbn [c_getitem].
  - assert (G : forall ix, match np_index (r_values r) ix with
          | Some v => get_coord_data (r_kind r) v | None => Err IndexError end = Ok c' -> honest c').
    { intros ix'. destruct (np_index (r_values r) ix'); [|discriminate]. apply get_coord_honest. }
    destruct ix as [s|l|m]; try apply G.
    destruct (slice_indices (r_len r) s) as [[[i0 st] cnt]|] eqn:E; [|discriminate].
    destruct (0 <? cnt); [|apply G]. intros [= <-]. apply r_new_honest; auto.
    cbn in H. pose proof H as (? & ? & ?). apply slice_indices_bounds in E as (? & _); lia.
  - destruct (np_index v ix) as [w|] eqn:N; [|discriminate]. intros [= <-]. cbn in *.
    unfold np_index in N. destruct (indexer_positions (zlen v) ix) as [ps|] eqn:P; [|discriminate].
    apply (honest_gather v ps); auto. destruct ix as [s|l|m]; cbn in *; [|discriminate|].
    + eapply slice_positions_mono; eauto.
    + destruct (zlen m =? zlen v); [|discriminate]. injection P as <-. left.
      apply zsorted_ascending, zsorted_true_positions.
  - destruct (np_index v ix); [|discriminate]. intros [= <-]. exact I.
  - destruct (indexer_positions n ix) as [ps|]; [|discriminate]. intros [= <-]. cbn.
    apply zlen_nonneg.
Qed.

Lemma select_honest c rel lo hi out : honest c -> c_select c rel lo hi = Ok out -> honest (fst out).
Proof.
  intros H. destruct c as [r|k v|k v|n]; cbn [c_select].
  - unfold r_select. destruct (slice_tuple _ _ _ _) as [args|]; [cbn [bind]|discriminate].
    cbv zeta.
    match goal with |- context [if slice_degenerate ?a ?b ?c then _ else _] =>
      destruct (slice_degenerate a b c) end; [intros [= <-]; cbn; lia|].
    match goal with |- bind ?x _ = _ -> _ => destruct x; [cbn [bind]|discriminate] end.
    match goal with |- bind ?x _ = _ -> _ => destruct x; [cbn [bind]|discriminate] end.
    intros [= <-]. cbn [fst]. apply r_new_honest; auto. cbn in H. pose proof H as (? & ? & ?); auto.
  - unfold m_select. destruct (slice_tuple _ _ _ _) as [args|]; [cbn [bind]|discriminate].
    cbv zeta.
    match goal with |- context [if slice_degenerate ?a ?b ?c then _ else _] =>
      destruct (slice_degenerate a b c) end; [intros [= <-]; cbn; lia|].
    match goal with |- context [np_index v ?x] => destruct (np_index v x) as [w|]; [|discriminate] end.
    destruct (get_coord_data k w) as [c'|] eqn:E; [cbn [bind]|discriminate]. intros [= <-].
    cbn [fst]. eapply get_coord_honest; eauto.
  - unfold a_select. destruct (slice_tuple _ _ _ _) as [args|]; [cbn [bind]|discriminate].
    cbv zeta. match goal with |- context [if negb ?x then _ else _] => destruct x; cbn [negb] end;
      [|intros [= <-]; cbn; lia].
    match goal with |- context [if forallb ?x ?y then _ else _] => destruct (forallb x y) end;
      [intros [= <-]; exact I|].
    match goal with |- context [np_index v ?x] => destruct (np_index v x) as [w|]; [|discriminate] end.
    destruct (get_coord_data k w) as [c'|] eqn:E; [cbn [bind]|discriminate]. intros [= <-].
    cbn [fst]. eapply get_coord_honest; eauto.
  - unfold p_select. destruct lo, hi; try discriminate. intros [= <-]; auto.
Qed.

Lemma sort_honest argsort c b out : honest c -> c_sort argsort c b = Ok out -> honest (fst out).
Proof.
  intros H. destruct c as [r|k v|k v|n]; cbn [c_sort].
  - intros [= <-]. destruct (r_sort_spec r b H) as (_ & _ & _ & _ & _ & r' & -> & W & _). exact W.
  - destruct (gather v _) as [w|]; [|discriminate].
    destruct (get_coord_data k w) as [c'|] eqn:E; [cbn [bind]|discriminate]. intros [= <-].
    cbn [fst]. eapply get_coord_honest; eauto.
  - destruct (gather v _) as [w|]; [|discriminate].
    destruct (get_coord_data k w) as [c'|] eqn:E; [cbn [bind]|discriminate]. intros [= <-].
    cbn [fst]. eapply get_coord_honest; eauto.
  - intros [= <-]; auto.
Qed.

Lemma apply_honest argsort c o c' : honest c -> is_mono c && is_order o = false ->
  apply_op argsort c o = Ok c' -> honest c'.
Proof.
  intros H NB. destruct o; cbn [apply_op]; unfold fst_result.
  - destruct (c_select c relative lo hi) as [out|] eqn:E; [cbn [bind]|discriminate].
    intros [= <-]; eapply select_honest; eauto.
  - unfold select_samples. destruct (c_getitem c _) as [x|] eqn:E; [cbn [bind fst]|discriminate].
    intros [= <-]; eapply getitem_honest; eauto. now rewrite andb_false_r.
  - unfold select_values. destruct (c_getitem c _) as [x|] eqn:E; [cbn [bind fst]|discriminate].
    intros [= <-]; eapply getitem_honest; eauto. now rewrite andb_false_r.
  - unfold select_sample_array. destruct (c_getitem c _) as [x|] eqn:E; [cbn [bind fst]|discriminate].
    intros [= <-]; eapply getitem_honest; eauto. now rewrite andb_false_r.
  - unfold select_bools. destruct (c_getitem c _) as [x|] eqn:E; [cbn [bind fst]|discriminate].
    intros [= <-]; eapply getitem_honest; eauto. now rewrite andb_false_r.
  - intros E; eapply getitem_honest; eauto. now rewrite andb_false_r.
  - destruct (c_sort argsort c reverse) as [out|] eqn:E; [cbn [bind]|discriminate].
    intros [= <-]; eapply sort_honest; eauto.
  - unfold order_values. destruct c as [r|k v|k v|n]; try discriminate;
      (destruct (order_index argsort _ arr) as [inds|]; [|discriminate]);
      (destruct (c_getitem _ _) as [x|] eqn:E; [cbn [bind fst]|discriminate]);
      intros [= <-]; eapply getitem_honest; eauto.
  - unfold order_samples. destruct (c_getitem c _) as [x|] eqn:E; [cbn [bind fst]|discriminate].
    intros [= <-]; eapply getitem_honest; eauto. cbn in NB |- *. now rewrite andb_true_r in *.
Qed.

Lemma run_honest argsort ops : forall c c', honest c -> no_order_on_mono argsort c ops ->
  run_ops argsort c ops = Ok c' -> honest c'.
Proof.
  induction ops as [|o t IH]; intros c c' H N; cbn [run_ops].
  - intros [= <-]; auto.
  - destruct N as [N1 N2]. destruct (apply_op argsort c o) as [c1|] eqn:E; [cbn [bind]|discriminate].
    intros R. apply (IH c1 c'); auto. apply (apply_honest argsort c o); auto.
Qed.
Lemma run_truthful argsort ops c c' : wf_coord c -> no_order_on_mono argsort c ops ->
  run_ops argsort c ops = Ok c' -> truthful c'.
Proof. intros W N R. apply honest_truthful, (run_honest argsort ops c); auto. now apply wf_honest. Qed.

(** ** Drift of nearly even arrays (C10) *)
Lemma get_coord_drift k v r : get_coord_data k v = Ok (CRange r) ->
  r_len r = zlen v /\ znth v 0 = Some (r_start r) /\ gap v (r_step r) /\
  forall i x, znth v i = Some x ->
    1000000 * Z.abs (x - (r_start r + i * r_step r)) <= 2003 * i * Z.abs (r_step r).
Proof.
  intros E. pose proof (get_coord_cases k v) as H. destruct v as [|x0 [|x1 t]].
  { rewrite E in H; discriminate. } { rewrite E in H; discriminate. }
  set (v := x0 :: x1 :: t) in *.
  destruct H as [[_ H]|[[_ [H _]]|[M [C (s & Hin & Hs & _ & H)]]]]; rewrite E in H; try discriminate.
  injection H as ->. cbn [r_len r_start r_step]. split; auto. split; [reflexivity|].
  split; [now apply in_diffs_gap|].
  assert (D : forall d, In d (diffs v) -> 1000000 * Z.abs (d - s) <= 2003 * Z.abs s).
  { intros d Hd. destruct C as [C|C].
    - assert (L : forall d, In d (diffs v) -> np_unique (diffs v) = [d]).
      { intros e He; apply in_np_unique in He. destruct (np_unique (diffs v)) as [|a [|b l]].
        - destruct He.
        - destruct He as [->|[]]; reflexivity.
        - rewrite !zlen_cons in C; pose proof (zlen_nonneg l); lia. }
      assert (d = s) by (pose proof (L d Hd); pose proof (L s Hin); congruence). lia.
    - apply close_to_median_spec in C as (_ & m2 & C).
      pose proof (C d (proj2 (in_np_unique _ _) Hd)) as Cd.
      pose proof (C s (proj2 (in_np_unique _ _) Hin)) as Cs.
      unfold near_half in *. lia. }
  assert (G : forall n i x, i = Z.of_nat n -> znth v i = Some x ->
    1000000 * Z.abs (x - (x0 + i * s)) <= 2003 * i * Z.abs s).
  { induction n as [|n IH]; intros i x -> Hx.
    - cbn in Hx. injection Hx as <-. lia.
    - destruct (proj2 (znth_range v (Z.of_nat n))) as [y Hy].
      { apply znth_some in Hx; lia. }
      specialize (IH _ _ eq_refl Hy).
      assert (Hg : 1000000 * Z.abs (x - y - s) <= 2003 * Z.abs s).
      { apply D, in_diffs_gap. exists (Z.of_nat n), y, x. repeat split; auto.
        replace (Z.of_nat n + 1) with (Z.of_nat (S n)) by lia. auto. }
      replace (Z.of_nat (S n)) with (Z.of_nat n + 1) by lia.
      set (i := Z.of_nat n) in *. assert (0 <= i) by lia. clearbody i.
      replace (x - (x0 + (i + 1) * s)) with ((x - y - s) + (y - (x0 + i * s))) by ring.
      replace (2003 * (i + 1) * Z.abs s) with (2003 * i * Z.abs s + 2003 * Z.abs s) by ring.
      pose proof (Z.abs_triangle (x - y - s) (y - (x0 + i * s))). lia. }
  intros i x Hx. apply (G (Z.to_nat i)); auto. apply znth_some in Hx; lia.
Qed.

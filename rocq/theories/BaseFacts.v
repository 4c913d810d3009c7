(** Lemmas about the primitives of Base.v. *)
From Verif Require Import Base.
From Coq Require Import ZifyBool Sorting.Permutation Sorting.Sorted.
Ltac Zify.zify_post_hook ::= Z.div_mod_to_equations.

(** Case split on the innermost conditions of the goal. *)
Ltac dif := repeat match goal with
  |- context [if ?b then _ else _] =>
    lazymatch b with
    | context [if _ then _ else _] => fail
    | _ => destruct b eqn:?
    end end.

(** ** zlen, znth, zrange *)
Lemma zlen_nonneg {A} (l : list A) : 0 <= zlen l.
Proof. unfold zlen; lia. Qed.
Lemma zlen_nil {A} : zlen (@nil A) = 0. Proof. reflexivity. Qed.
Lemma zlen_cons {A} (x : A) l : zlen (x :: l) = 1 + zlen l.
Proof. unfold zlen; cbn [length]; lia. Qed.
Lemma zlen_app {A} (a b : list A) : zlen (a ++ b) = zlen a + zlen b.
Proof. unfold zlen; rewrite app_length; lia. Qed.
Lemma zlen_map {A B} (f : A -> B) l : zlen (map f l) = zlen l.
Proof. unfold zlen; now rewrite map_length. Qed.
Lemma zlen_rev {A} (l : list A) : zlen (rev l) = zlen l.
Proof. unfold zlen; now rewrite rev_length. Qed.
Lemma zlen_zrange n : zlen (zrange n) = Z.max 0 n.
Proof. unfold zlen, zrange; rewrite map_length, seq_length; lia. Qed.
Lemma zlen_zero {A} (l : list A) : zlen l = 0 -> l = [].
Proof. destruct l; [auto|rewrite zlen_cons; pose proof (zlen_nonneg l); lia]. Qed.

Lemma in_zrange n i : In i (zrange n) <-> 0 <= i < n.
Proof.
  unfold zrange; rewrite in_map_iff; split.
  - intros (k & <- & Hk); rewrite in_seq in Hk; lia.
  - intros H; exists (Z.to_nat i); rewrite in_seq; lia.
Qed.

Lemma znth_cons {A} (x : A) l i :
  znth (x :: l) i = if i =? 0 then Some x else znth l (i - 1).
Proof.
  unfold znth. destruct (Z.eqb_spec i 0) as [->|Hi]; [reflexivity|].
  destruct (Z.ltb_spec i 0), (Z.ltb_spec (i - 1) 0); try lia; auto.
  replace (Z.to_nat i) with (S (Z.to_nat (i - 1))) by lia; reflexivity.
Qed.
Lemma znth_nil {A} i : znth (@nil A) i = None.
Proof. unfold znth; destruct (i <? 0); [auto|now destruct (Z.to_nat i)]. Qed.
Lemma znth_range {A} (l : list A) i : (exists x, znth l i = Some x) <-> 0 <= i < zlen l.
Proof.
  unfold znth, zlen. destruct (Z.ltb_spec i 0).
  - split; [intros [x Hx]; discriminate|lia].
  - split.
    + intros [x Hx]. assert (N : nth_error l (Z.to_nat i) <> None) by congruence.
      apply nth_error_Some in N; lia.
    + intros Hi. destruct (nth_error l (Z.to_nat i)) eqn:E; [eauto|].
      apply nth_error_None in E; lia.
Qed.
Lemma znth_some {A} (l : list A) i x : znth l i = Some x -> 0 <= i < zlen l.
Proof. intros H; apply znth_range; eauto. Qed.
Lemma znth_none {A} (l : list A) i : znth l i = None <-> ~ (0 <= i < zlen l).
Proof.
  rewrite <- znth_range. destruct (znth l i) eqn:E; split; intros H; try congruence.
  - exfalso; apply H; eauto.
  - intros [x Hx]; discriminate.
Qed.
Lemma znth_in {A} (l : list A) i x : znth l i = Some x -> In x l.
Proof. unfold znth; destruct (i <? 0); [discriminate|apply nth_error_In]. Qed.
Lemma in_znth {A} (l : list A) x : In x l -> exists i, znth l i = Some x.
Proof.
  intros H; apply In_nth_error in H as [k Hk]; exists (Z.of_nat k).
  unfold znth; destruct (Z.ltb_spec (Z.of_nat k) 0); [lia|].
  now rewrite Nat2Z.id.
Qed.
Lemma znth_map {A B} (f : A -> B) l i : znth (map f l) i = option_map f (znth l i).
Proof. unfold znth; destruct (i <? 0); [auto|apply nth_error_map]. Qed.
Lemma znth_app {A} (a b : list A) i :
  znth (a ++ b) i = if i <? zlen a then znth a i else znth b (i - zlen a).
Proof.
  unfold znth, zlen. destruct (Z.ltb_spec i 0), (Z.ltb_spec i (Z.of_nat (length a)));
    try (destruct (Z.ltb_spec (i - Z.of_nat (length a)) 0)); try lia; auto.
  - now rewrite nth_error_app1 by lia.
  - rewrite nth_error_app2 by lia. f_equal; lia.
Qed.
Lemma znth_zrange n i : znth (zrange n) i = if (0 <=? i) && (i <? n) then Some i else None.
Proof.
  destruct (Z.leb_spec 0 i), (Z.ltb_spec i n); cbn [andb].
  2-4: apply znth_none; rewrite zlen_zrange; lia.
  unfold znth, zrange. destruct (Z.ltb_spec i 0); [lia|].
  rewrite nth_error_map.
  assert (E : nth_error (seq 0 (Z.to_nat n)) (Z.to_nat i) = Some (Z.to_nat i)).
  { rewrite (nth_error_nth' _ 0%nat) by (rewrite seq_length; lia).
    rewrite seq_nth by lia. reflexivity. }
  rewrite E; cbn. f_equal; lia.
Qed.

(** Extensionality through znth. *)
Lemma znth_ext {A} (a b : list A) : (forall i, znth a i = znth b i) -> a = b.
Proof.
  revert b; induction a as [|x a IH]; intros [|y b] H; auto.
  - specialize (H 0); rewrite znth_nil, znth_cons in H; discriminate.
  - specialize (H 0); rewrite znth_nil, znth_cons in H; discriminate.
  - pose proof (H 0) as H0; rewrite !znth_cons in H0; cbn in H0; injection H0 as ->.
    f_equal; apply IH; intros i.
    destruct (Z.ltb_spec i 0) as [Hi|Hi].
    + assert (forall l : list A, znth l i = None) as N
        by (intros l; apply znth_none; lia). now rewrite !N.
    + specialize (H (i + 1)); rewrite !znth_cons in H.
      destruct (Z.eqb_spec (i + 1) 0); [lia|].
      now replace (i + 1 - 1) with i in H by lia.
Qed.
Lemma znth_ext_len {A} (a b : list A) :
  zlen a = zlen b -> (forall i, 0 <= i < zlen a -> znth a i = znth b i) -> a = b.
Proof.
  intros L H; apply znth_ext; intros i.
  destruct (Z_lt_dec i 0) as [Hi|Hi]; [|destruct (Z_lt_dec i (zlen a)) as [Hj|Hj]].
  - transitivity (@None A); [|symmetry]; apply znth_none; lia.
  - apply H; lia.
  - transitivity (@None A); [|symmetry]; apply znth_none; lia.
Qed.

Lemma znth_firstn {A} (l : list A) n i :
  znth (firstn (Z.to_nat n) l) i = if i <? n then znth l i else None.
Proof.
  unfold znth. destruct (Z.ltb_spec i 0), (Z.ltb_spec i n); auto.
  - assert (G : forall k m (l : list A), (k < m)%nat ->
              nth_error (firstn m l) k = nth_error l k).
    { clear. induction k; intros [|m] [|x l] H; cbn; auto; try lia.
      apply IHk; lia. }
    apply G; lia.
  - apply nth_error_None. rewrite firstn_length. lia.
Qed.

Lemma firstn_all_z {A} (l : list A) n : zlen l <= n -> firstn (Z.to_nat n) l = l.
Proof. unfold zlen; intros; apply firstn_all2; lia. Qed.

Lemma zrange_nonpos n : n <= 0 -> zrange n = [].
Proof. intros; unfold zrange; now replace (Z.to_nat n) with 0%nat by lia. Qed.
Lemma zrange_succ n : 0 <= n -> zrange (n + 1) = zrange n ++ [n].
Proof.
  intros H; unfold zrange. replace (Z.to_nat (n + 1)) with (S (Z.to_nat n)) by lia.
  rewrite seq_S, map_app; cbn. repeat f_equal; lia.
Qed.
Lemma zrange_cons n : 0 < n -> zrange n = 0 :: map (fun i => i + 1) (zrange (n - 1)).
Proof.
  intros H; apply znth_ext; intros i.
  rewrite znth_cons, znth_map, !znth_zrange.
  destruct (Z.eqb_spec i 0) as [->|]; [cbn; destruct (Z.ltb_spec 0 n); auto; lia|].
  destruct (Z.leb_spec 0 i), (Z.ltb_spec i n), (Z.leb_spec 0 (i - 1)),
    (Z.ltb_spec (i - 1) (n - 1)); cbn; try lia; auto.
  f_equal; lia.
Qed.
Lemma zrange_app a b : 0 <= a -> 0 <= b ->
  zrange (a + b) = zrange a ++ map (fun i => a + i) (zrange b).
Proof.
  intros Ha Hb; apply znth_ext; intros i.
  rewrite znth_app, znth_map, !znth_zrange, zlen_zrange.
  destruct (Z.ltb_spec i (Z.max 0 a)); repeat match goal with
    |- context [?x <=? ?y] => destruct (Z.leb_spec x y)
  | |- context [?x <? ?y] => destruct (Z.ltb_spec x y) end; cbn; try lia; auto.
  f_equal; lia.
Qed.

(** ** Sorted position lists are determined by membership *)
Definition zsorted := StronglySorted Z.lt.

Lemma zsorted_ext a b : zsorted a -> zsorted b -> (forall x, In x a <-> In x b) -> a = b.
Proof.
  intros Ha; revert b; induction Ha as [|x a Ha IH Hx]; intros b Hb Hab.
  - destruct b as [|y b]; auto. destruct (proj2 (Hab y) (or_introl eq_refl)).
  - destruct Hb as [|y b Hb Hy].
    { destruct (proj1 (Hab x) (or_introl eq_refl)). }
    rewrite Forall_forall in Hx, Hy.
    assert (x = y) as ->.
    { destruct (proj1 (Hab x) (or_introl eq_refl)) as [->|Hin]; auto.
      destruct (proj2 (Hab y) (or_introl eq_refl)) as [->|Hin2]; auto.
      specialize (Hx _ Hin2); specialize (Hy _ Hin); lia. }
    f_equal; apply IH; auto. intros z; split; intros Hz.
    + destruct (proj1 (Hab z) (or_intror Hz)) as [->|]; auto.
      specialize (Hx _ Hz); lia.
    + destruct (proj2 (Hab z) (or_intror Hz)) as [->|]; auto.
      specialize (Hy _ Hz); lia.
Qed.

Lemma zsorted_filter f l : zsorted l -> zsorted (filter f l).
Proof.
  induction 1 as [|x l Hl IH Hx]; cbn; [constructor|].
  destruct (f x); auto. constructor; auto.
  rewrite Forall_forall in *; intros y Hy; apply filter_In in Hy as [Hy _]; auto.
Qed.
Lemma zsorted_map_mono (f : Z -> Z) l :
  (forall x y, x < y -> f x < f y) -> zsorted l -> zsorted (map f l).
Proof.
  intros Hf; induction 1 as [|x l Hl IH Hx]; cbn; [constructor|].
  constructor; auto. rewrite Forall_forall in *; intros y Hy.
  apply in_map_iff in Hy as (z & <- & Hz); auto.
Qed.
Lemma zsorted_app a b : zsorted a -> zsorted b ->
  (forall x y, In x a -> In y b -> x < y) -> zsorted (a ++ b).
Proof.
  induction 1 as [|x a Ha IH Hx]; cbn; auto. intros Hb Hab.
  constructor; [apply IH; auto; intros; apply Hab; cbn; auto|].
  rewrite Forall_forall in *; intros y Hy; apply in_app_or in Hy as [Hy|Hy]; auto.
Qed.
Lemma zsorted_zrange n : zsorted (zrange n).
Proof.
  destruct (Z_le_gt_dec n 0) as [H|H]; [rewrite zrange_nonpos by lia; constructor|].
  assert (0 <= n) as Hn by lia; clear H; revert n Hn; apply natlike_ind.
  - constructor.
  - intros n Hn IH; replace (Z.succ n) with (n + 1) by lia; rewrite zrange_succ by lia.
    apply zsorted_app; auto; [repeat constructor|].
    intros x y Hx [<-|[]]; apply in_zrange in Hx; lia.
Qed.
Lemma zsorted_NoDup l : zsorted l -> NoDup l.
Proof.
  induction 1 as [|x l Hl IH Hx]; constructor; auto.
  intros Hin; rewrite Forall_forall in Hx; specialize (Hx _ Hin); lia.
Qed.
Lemma zsorted_perm_eq a b : zsorted a -> zsorted b -> Permutation a b -> a = b.
Proof.
  intros Ha Hb Hp; apply zsorted_ext; auto.
  intros x; split; intros H; [|symmetry in Hp]; eapply Permutation_in; eauto.
Qed.

(** ** true_positions *)
Lemma in_true_positions m : forall k i,
  In i (true_positions k m) <-> znth m (i - k) = Some true.
Proof.
  induction m as [|b m IH]; intros k i; cbn [true_positions].
  - rewrite znth_nil; split; [intros []|discriminate].
  - rewrite znth_cons.
    destruct (Z.eqb_spec (i - k) 0) as [E|E]; destruct b; cbn [In]; rewrite ?IH.
    + split; auto. intros; left; lia.
    + replace (i - (k + 1)) with (-1) by lia.
      assert (N : znth m (-1) = None) by (apply znth_none; lia); rewrite N.
      split; discriminate.
    + replace (i - (k + 1)) with (i - k - 1) by lia.
      split; [intros [H|H]; [lia|auto]|auto].
    + replace (i - (k + 1)) with (i - k - 1) by lia; reflexivity.
Qed.
Lemma zsorted_true_positions m : forall k, zsorted (true_positions k m).
Proof.
  induction m as [|b m IH]; intros k; cbn [true_positions]; [constructor|].
  destruct b; auto. constructor; [apply IH|]. rewrite Forall_forall; intros i Hi.
  apply in_true_positions in Hi. apply znth_some in Hi. lia.
Qed.

(** ** gather *)
Lemma gather_nil {A} (l : list A) : gather l [] = Some []. Proof. reflexivity. Qed.
Lemma gather_some_len {A} (l : list A) is r : gather l is = Some r -> zlen r = zlen is.
Proof.
  revert r; induction is as [|i is IH]; intros r; cbn [gather].
  - injection 1 as <-; reflexivity.
  - destruct (znth l i); [|discriminate]; destruct (gather l is); [|discriminate].
    injection 1 as <-. rewrite !zlen_cons; f_equal; auto.
Qed.
Lemma gather_znth {A} (l : list A) is r :
  gather l is = Some r ->
  forall j, znth r j = match znth is j with Some i => znth l i | None => None end.
Proof.
  revert r; induction is as [|i is IH]; intros r; cbn [gather].
  - injection 1 as <-; intros j; now rewrite !znth_nil.
  - destruct (znth l i) eqn:E; [|discriminate]; destruct (gather l is) eqn:G; [|discriminate].
    injection 1 as <-. intros j; rewrite !znth_cons.
    destruct (j =? 0); [now rewrite E|]. now apply IH.
Qed.
Lemma gather_ok {A} (l : list A) is :
  (forall i, In i is -> 0 <= i < zlen l) -> exists r, gather l is = Some r.
Proof.
  induction is as [|i is IH]; intros H; cbn [gather]; [eauto|].
  destruct IH as [r Hr]; [intros; apply H; cbn; auto|].
  destruct (proj2 (znth_range l i) (H i (or_introl eq_refl))) as [x Hx].
  rewrite Hx, Hr; eauto.
Qed.
Lemma gather_in_range {A} (l : list A) is r :
  gather l is = Some r -> forall i, In i is -> 0 <= i < zlen l.
Proof.
  revert r; induction is as [|k is IH]; intros r; cbn [gather]; [intros _ i []|].
  destruct (znth l k) eqn:E; [|discriminate]; destruct (gather l is) eqn:G; [|discriminate].
  intros _ i [<-|Hi]; [eapply znth_some; eauto|eapply IH; eauto].
Qed.
Lemma gather_app {A} (l : list A) a b :
  gather l (a ++ b) = match gather l a, gather l b with
                      | Some x, Some y => Some (x ++ y) | _, _ => None end.
Proof.
  induction a as [|i a IH]; cbn [gather app].
  - now destruct (gather l b).
  - destruct (znth l i); [|reflexivity]. rewrite IH.
    destruct (gather l a), (gather l b); reflexivity.
Qed.
Lemma gather_map {A B} (f : A -> B) l is :
  gather (map f l) is = option_map (map f) (gather l is).
Proof.
  induction is as [|i is IH]; cbn [gather]; auto.
  rewrite znth_map, IH. destruct (znth l i), (gather l is); reflexivity.
Qed.
Lemma gather_zrange {A} (l : list A) : gather l (zrange (zlen l)) = Some l.
Proof.
  destruct (gather_ok l (zrange (zlen l))) as [r Hr].
  { intros i Hi; now apply in_zrange in Hi. }
  rewrite Hr; f_equal; apply znth_ext; intros j.
  rewrite (gather_znth _ _ _ Hr), znth_zrange.
  destruct (Z.leb_spec 0 j), (Z.ltb_spec j (zlen l)); cbn; auto;
    symmetry; apply znth_none; lia.
Qed.
(** Gathering from a sequence of positions is composition. *)
Lemma gather_gather {A} (l : list A) is js r ps :
  gather l is = Some r -> gather is js = Some ps -> gather r js = gather l ps.
Proof.
  intros Hr; revert ps; induction js as [|j js IH]; intros ps; cbn [gather].
  - injection 1 as <-; reflexivity.
  - destruct (znth is j) eqn:E; [|discriminate]; destruct (gather is js) eqn:G; [|discriminate].
    injection 1 as <-. rewrite (gather_znth _ _ _ Hr), E. cbn [gather].
    rewrite (IH _ eq_refl); reflexivity.
Qed.
Lemma gather_eq_map {A} (l : list A) (f : Z -> A) is :
  (forall i, In i is -> znth l i = Some (f i)) -> gather l is = Some (map f is).
Proof.
  induction is as [|i is IH]; intros H; cbn [gather map]; auto.
  rewrite (H i (or_introl eq_refl)), IH; [reflexivity|intros; apply H; cbn; auto].
Qed.
Lemma gather_true_positions_filter {A} (l : list A) (p : A -> bool) :
  gather l (true_positions 0 (map p l)) = Some (filter p l).
Proof.
  assert (G : forall (a b : list A),
    gather (a ++ b) (true_positions (zlen a) (map p b)) = Some (filter p b)).
  { intros a b; revert a; induction b as [|x b IH]; intros a; cbn [map true_positions filter].
    - reflexivity.
    - specialize (IH (a ++ [x])). rewrite zlen_app, <- app_assoc in IH; cbn in IH.
      change (zlen [x]) with 1 in IH. destruct (p x); cbn [gather]; auto.
      rewrite IH. rewrite znth_app.
      destruct (Z.ltb_spec (zlen a) (zlen a)); [lia|].
      now replace (zlen a - zlen a) with 0 by lia. }
  exact (G [] l).
Qed.

(** ** Slices *)
Lemma slice_indices_bounds n s i0 st cnt :
  0 <= n -> slice_indices n s = Some (i0, st, cnt) ->
  st <> 0 /\ 0 <= cnt /\
  (forall k, 0 <= k < cnt -> 0 <= i0 + k * st < n).
Proof.
  intros Hn. unfold slice_indices.
  set (step := match sl_step s with Some k => k | None => 1 end).
  destruct (Z.eqb_spec step 0) as [|Hs]; [discriminate|].
  set (start := match sl_start s with Some i => clip_index n step i | None => _ end).
  set (stop := match sl_stop s with Some i => clip_index n step i | None => _ end).
  injection 1 as <- <- <-. split; auto.
  assert (step < 0 -> -1 <= start <= n - 1 /\ -1 <= stop <= n - 1) as Hneg.
  { intros H0; subst start stop; unfold clip_index.
    destruct (sl_start s), (sl_stop s);
      dif; lia. }
  assert (0 < step -> 0 <= start <= n /\ 0 <= stop <= n) as Hpos.
  { intros H0; subst start stop; unfold clip_index.
    destruct (sl_start s), (sl_stop s);
      dif; lia. }
  clearbody start stop step.
  destruct (Z.ltb_spec step 0) as [Hlt|Hge].
  - specialize (Hneg Hlt). destruct (Z.ltb_spec stop start).
    + assert (0 <= (start - stop - 1) / - step) by (apply Z.div_pos; lia).
      split; [lia|]. intros k Hk.
      assert (k * - step <= start - stop - 1).
      { assert ((start - stop - 1) / - step * - step <= start - stop - 1)
          by (rewrite Z.mul_comm; apply Z.mul_div_le; lia). nia. }
      nia.
    + split; lia.
  - assert (Hp : 0 < step) by lia. specialize (Hpos Hp). destruct (Z.ltb_spec start stop).
    + assert (0 <= (stop - start - 1) / step) by (apply Z.div_pos; lia).
      split; [lia|]. intros k Hk.
      assert (k * step <= stop - start - 1).
      { assert ((stop - start - 1) / step * step <= stop - start - 1)
          by (rewrite Z.mul_comm; apply Z.mul_div_le; lia). nia. }
      nia.
    + split; lia.
Qed.

Lemma slice_positions_in_range n s ps :
  0 <= n -> slice_positions n s = Some ps -> forall i, In i ps -> 0 <= i < n.
Proof.
  unfold slice_positions; intros Hn.
  destruct (slice_indices n s) as [[[i0 st] cnt]|] eqn:E; [|discriminate].
  injection 1 as <-. apply slice_indices_bounds in E as (_ & _ & H); auto.
  intros i Hi; apply in_map_iff in Hi as (k & <- & Hk); apply in_zrange in Hk; auto.
Qed.

Lemma indexer_positions_in_range n ix ps :
  0 <= n -> indexer_positions n ix = Some ps -> forall i, In i ps -> 0 <= i < n.
Proof.
  intros Hn; destruct ix as [s|l|m]; cbn [indexer_positions].
  - apply slice_positions_in_range; auto.
  - destruct (forallb _ l) eqn:E; [|discriminate]. injection 1 as <-.
    rewrite forallb_forall in E. intros i Hi; apply in_map_iff in Hi as (k & <- & Hk).
    specialize (E k Hk); unfold wrap_index. destruct (Z.ltb_spec k 0); lia.
  - destruct (Z.eqb_spec (zlen m) n); [|discriminate]. injection 1 as <-.
    intros i Hi; apply in_true_positions in Hi; apply znth_some in Hi; lia.
Qed.

Lemma np_index_ok {A} (l : list A) ix ps :
  indexer_positions (zlen l) ix = Some ps -> exists r, np_index l ix = Some r /\ gather l ps = Some r.
Proof.
  intros H; unfold np_index; rewrite H.
  destruct (gather_ok l ps) as [r Hr]; eauto.
  eapply indexer_positions_in_range; eauto using zlen_nonneg.
Qed.
Lemma np_index_map {A B} (f : A -> B) l ix :
  np_index (map f l) ix = option_map (map f) (np_index l ix).
Proof.
  unfold np_index; rewrite zlen_map. destruct (indexer_positions _ ix); auto.
  apply gather_map.
Qed.

(** A step-less slice whose ends are in [0, n] or missing picks an interval. *)
Definition opt_or (o : option Z) (d : Z) : Z := match o with Some x => x | None => d end.
Lemma simple_slice_positions n a b :
  0 <= n ->
  (forall x, a = Some x -> 0 <= x <= n) ->
  (forall x, b = Some x -> 0 <= x) ->
  slice_positions n (mkSlice a b None)
  = Some (filter (fun i => (opt_or a 0 <=? i) && (i <? opt_or b n)) (zrange n)).
Proof.
  intros Hn Ha Hb. unfold slice_positions, slice_indices; cbn [sl_start sl_stop sl_step].
  change (1 =? 0) with false. change (1 <? 0) with false. cbv iota. cbv zeta. f_equal.
  set (s := match a with Some i => clip_index n 1 i | None => 0 end).
  assert (Hs : s = opt_or a 0).
  { subst s; destruct a as [x|]; auto. specialize (Ha _ eq_refl); cbn.
    unfold clip_index; cbn. dif; lia. }
  set (e := match b with Some i => clip_index n 1 i | None => n end).
  assert (He : e = Z.min n (opt_or b n)).
  { subst e; destruct b as [x|]; cbn; [|lia]. specialize (Hb _ eq_refl).
    unfold clip_index; cbn. dif; lia. }
  rewrite Hs, He; clear Hs He s e.
  assert (0 <= opt_or a 0 <= n) by (destruct a as [x|]; cbn; [apply Ha; auto|lia]).
  apply zsorted_ext.
  - apply zsorted_map_mono; [intros; lia|apply zsorted_zrange].
  - apply zsorted_filter, zsorted_zrange.
  - intros x; rewrite in_map_iff, filter_In, in_zrange. rewrite Z.div_1_r. split.
    + intros (k & <- & Hk). apply in_zrange in Hk.
      destruct (Z.ltb_spec (opt_or a 0) (Z.min n (opt_or b n))); lia.
    + intros (Hx & Hp). exists (x - opt_or a 0). split; [lia|]. apply in_zrange.
      destruct (Z.ltb_spec (opt_or a 0) (Z.min n (opt_or b n))); lia.
Qed.

(** ** Rounding *)
Lemma rhe_exact k q : q <> 0 -> round_half_even (k * q) q = k.
Proof.
  intros Hq; unfold round_half_even.
  assert (E : (if q <? 0 then - (k * q) else k * q) = k * Z.abs q)
    by (destruct (Z.ltb_spec q 0); [rewrite Z.abs_neq by lia|rewrite Z.abs_eq by lia]; ring).
  rewrite E, Z.div_mul, Z.mod_mul by lia.
  destruct (Z.ltb_spec (2 * 0) (Z.abs q)); lia.
Qed.
Lemma rhe_opp p q : q <> 0 -> round_half_even (- p) (- q) = round_half_even p q.
Proof.
  intros Hq; unfold round_half_even. rewrite Z.abs_opp.
  destruct (Z.ltb_spec q 0), (Z.ltb_spec (- q) 0); try lia; rewrite ?Z.opp_involutive; auto.
Qed.
(** The defining property of rounding, for a positive denominator. *)
Lemma rhe_bounds p q : 0 < q ->
  2 * p - q <= 2 * (round_half_even p q * q) <= 2 * p + q.
Proof.
  intros Hq; unfold round_half_even. destruct (Z.ltb_spec q 0); [lia|].
  rewrite Z.abs_eq by lia. pose proof (Z.div_mod p q ltac:(lia)).
  pose proof (Z.mod_pos_bound p q Hq).
  set (f := p / q) in *; set (m := p mod q) in *; clearbody f m; subst p.
  destruct (Z.ltb_spec (2 * m) q); [nia|]. destruct (Z.ltb_spec q (2 * m)); [nia|].
  destruct (Z.even f); nia.
Qed.
(** Ties go to the even neighbour. *)
Lemma rhe_tie f h : 0 < h ->
  round_half_even (f * (2 * h) + h) (2 * h) = if Z.even f then f else f + 1.
Proof.
  intros Hq; unfold round_half_even. destruct (Z.ltb_spec (2 * h) 0); [lia|].
  rewrite Z.abs_eq by lia.
  replace (f * (2 * h) + h) with (h + f * (2 * h)) by lia.
  rewrite Z.div_add, Z.mod_add by lia.
  rewrite Z.div_small, Z.mod_small by lia.
  destruct (Z.ltb_spec (2 * h) (2 * h)); [lia|]. reflexivity.
Qed.
Lemma ceil_div_spec p q n : 0 < q -> (ceil_div p q = n <-> (n - 1) * q < p <= n * q).
Proof.
  intros Hq; unfold ceil_div. pose proof (Z.div_mod (- p) q ltac:(lia)).
  pose proof (Z.mod_pos_bound (- p) q Hq).
  set (f := - p / q) in *; set (m := - p mod q) in *; clearbody f m.
  split; [intros <-|intros]; nia.
Qed.
Lemma floor_div_spec p q n : 0 < q -> (floor_div p q = n <-> n * q <= p < (n + 1) * q).
Proof.
  intros Hq; unfold floor_div. pose proof (Z.div_mod p q ltac:(lia)).
  pose proof (Z.mod_pos_bound p q Hq).
  set (f := p / q) in *; set (m := p mod q) in *; clearbody f m.
  split; [intros <-|intros]; nia.
Qed.
Lemma ceil_div_opp p q : q <> 0 -> ceil_div (- p) (- q) = ceil_div p q.
Proof. intros; unfold ceil_div. now rewrite Z.div_opp_opp by lia. Qed.

(** Facts about arrays picked from other arrays: composition, one axis at a
    time, transposition, reshaping. *)
From Verif Require Import Base BaseFacts NdModel NdSpec NdProofs.
From Coq Require Import ZifyBool.
Ltac Zify.zify_post_hook ::= Z.div_mod_to_equations.

Lemma znth_zrange_in n i : 0 <= i < n -> znth (zrange n) i = Some i.
Proof. intros H. rewrite znth_zrange. destruct ((0 <=? i) && (i <? n)) eqn:E; [reflexivity|lia]. Qed.

Lemma pick_ix_full s ix : inb s ix -> pick_ix (full s) ix = Some ix.
Proof.
  induction 1 as [|n i s r B F IH]; cbn; [reflexivity|].
  rewrite (znth_zrange_in _ _ B). change (map zrange s) with (full s). rewrite IH. reflexivity.
Qed.

Lemma map_zlen_full s : Forall (fun n => 0 <= n) s -> map zlen (full s) = s.
Proof. induction 1; cbn; [reflexivity|]. f_equal; [rewrite zlen_zrange; lia|assumption]. Qed.

Lemma full_in s : Forall2 (fun ps n => forall p, In p ps -> 0 <= p < n) (full s) s.
Proof. induction s; cbn; constructor; [intros p; rewrite in_zrange; lia|assumption]. Qed.

Lemma nd_picked_full {A} (a : nd A) : wf_nd a -> nd_picked a a (full (nd_shape a)).
Proof.
  intros W. pose proof W as [P _]. split; [exact W|]. split; [symmetry; apply map_zlen_full; exact P|].
  split; [apply full_in|]. rewrite (map_zlen_full _ P). intros ix B.
  destruct (nd_get_total a ix W B) as [x X]. exists ix, x. rewrite pick_ix_full by exact B. auto.
Qed.

(** Composition. *)
Fixpoint compose (P Q : list (list Z)) : list (list Z) :=
  match P, Q with
  | p :: s, q :: t => match gather p q with Some r => r | None => [] end :: compose s t
  | _, _ => []
  end.

Lemma gather_total_in {A} (l : list A) ps : (forall p, In p ps -> 0 <= p < zlen l) ->
  exists r, gather l ps = Some r /\ zlen r = zlen ps /\
    (forall i p, znth ps i = Some p -> znth r i = znth l p).
Proof.
  intros H. destruct (gather_ok l ps) as [r G]; [exact H|].
  exists r. split; [exact G|]. split; [apply (gather_some_len _ _ _ G)|].
  intros i p P. rewrite (gather_znth _ _ _ G), P. reflexivity.
Qed.

Lemma nd_picked_compose {A} (a b c : nd A) P Q : nd_picked a b P -> nd_picked b c Q ->
  nd_picked a c (compose P Q).
Proof.
  intros (Wb & Sb & Ib & Gb) (Wc & Sc & Ic & Gc).
  rewrite Sb in Ic.
  assert (L : map zlen (compose P Q) = map zlen Q /\
    Forall2 (fun ps n => forall p, In p ps -> 0 <= p < n) (compose P Q) (nd_shape a) /\
    forall ix, inb (map zlen Q) ix -> exists jx, pick_ix Q ix = Some jx /\ inb (map zlen P) jx /\
      pick_ix (compose P Q) ix = pick_ix P jx).
  { clear Gb Gc Sb Sc. revert Q Ic. generalize dependent (nd_shape a).
    induction P as [|p P IH]; intros s Ib Q Ic; inversion Ib; subst; inversion Ic; subst; cbn [compose map].
    - repeat split; [constructor|]. intros ix B. inversion B; subst. exists []. repeat split. constructor.
    - match goal with H : Forall2 _ P ?s', H' : Forall2 _ ?q' (map zlen P) |- _ =>
        destruct (IH s' H q' H') as (L & F & G) end.
      match goal with H : forall p0, In p0 ?x -> 0 <= p0 < zlen p |- _ =>
        destruct (gather_total_in p x H) as (r & Gr & Lr & Nr) end.
      rewrite Gr. rewrite L, Lr. split; [reflexivity|]. split.
      + constructor; [|exact F]. intros z Z.
        apply in_znth in Z. destruct Z as [i Zi]. pose proof (znth_some _ _ _ Zi) as Bi. rewrite Lr in Bi.
        match goal with H : forall p0, In p0 ?x -> 0 <= p0 < zlen p |- _ =>
          destruct (proj2 (znth_range x i) Bi) as [q Xq] end.
        rewrite (Nr _ _ Xq) in Zi. eauto using znth_in.
      + intros ix B. inversion B; subst.
        match goal with H : Forall2 _ (map zlen _) ?l |- _ => destruct (G l H) as (jx & J1 & J2 & J3) end.
        cbn [pick_ix].
        match goal with H : 0 <= ?i < zlen ?x |- _ =>
          destruct (proj2 (znth_range x i) H) as [q Xq]; rewrite (Nr _ _ Xq), Xq end.
        rewrite J1. exists (q :: jx). split; [reflexivity|]. split.
        * constructor; [|exact J2]. eauto using znth_in.
        * cbn [pick_ix]. rewrite J3. reflexivity. }
  destruct L as (L & F & G). split; [exact Wc|]. split; [congruence|]. split; [exact F|].
  intros ix B. rewrite L in B. destruct (G ix B) as (jx & J1 & J2 & J3).
  destruct (Gc ix B) as (jx' & x & K1 & K2 & K3). rewrite J1 in K1. injection K1 as <-.
  destruct (Gb jx J2) as (kx & y & M1 & M2 & M3). exists kx, x. rewrite J3. repeat split; congruence.
Qed.

Lemma compose_length P Q : length P = length Q -> length (compose P Q) = length P.
Proof. revert Q. induction P; intros [|q Q]; cbn; intros; try lia; auto. Qed.

Lemma compose_full P : compose P (full (map zlen P)) = P.
Proof. induction P; cbn; [reflexivity|]. rewrite gather_zrange. f_equal. exact IHP. Qed.

Lemma compose_put P ax ps p r : nth_error P ax = Some p -> gather p ps = Some r ->
  compose P (put (full (map zlen P)) ax ps) = put P ax r.
Proof.
  revert ax. induction P as [|q P IH]; intros [|ax]; cbn [nth_error]; try discriminate.
  - intros [= ->] G. cbn. rewrite G. f_equal. apply compose_full.
  - intros N G. cbn [map full put compose]. rewrite gather_zrange. f_equal. apply IH; assumption.
Qed.

(** One axis. *)
Lemma inb_full s : forall r, inb (map zlen (full s)) r -> inb s r.
Proof.
  induction s as [|m s IH]; intros r B; inversion B; subst; constructor.
  - rewrite zlen_zrange in *. lia.
  - apply IH. assumption.
Qed.

Lemma pick_ix_put s ix ax ps i p : inb (map zlen (put (full s) ax ps)) ix ->
  nth_error ix ax = Some i -> znth ps i = Some p ->
  pick_ix (put (full s) ax ps) ix = Some (put ix ax p).
Proof.
  revert ix ax. induction s as [|n s IH]; intros ix ax B.
  - cbn in B. inversion B; subst. destruct ax; cbn; discriminate.
  - destruct ax as [|ax]; cbn [full map put] in B; inversion B as [|? i' ? r Bi Br]; subst;
      cbn [nth_error]; intros E P; cbn [full map put pick_ix].
    + injection E as ->. rewrite P. change (map zrange s) with (full s) in Br |- *.
      rewrite pick_ix_full; [reflexivity|].
      apply inb_full; exact Br.
    + rewrite zlen_zrange in Bi. rewrite znth_zrange_in by lia.
      change (map zrange s) with (full s). rewrite (IH r ax); auto.
Qed.

Lemma put_map {A B} (f : A -> B) l n x : map f (put l n x) = put (map f l) n (f x).
Proof. revert n. induction l; intros [|n]; cbn; congruence. Qed.

Lemma Forall2_put {A B} (R : A -> B -> Prop) l m n x y : Forall2 R l m ->
  nth_error m n = Some y -> R x y -> Forall2 R (put l n x) m.
Proof.
  intros F. revert n. induction F; intros [|n]; cbn; try discriminate; intros E H'.
  - injection E as ->. constructor; assumption.
  - constructor; auto.
Qed.

Lemma nd_take_picked {A} (a : nd A) ax ps n : wf_nd a -> nth_error (nd_shape a) ax = Some n ->
  (forall p, In p ps -> 0 <= p < n) ->
  exists b, nd_take a ax ps = Some b /\ nd_picked a b (put (full (nd_shape a)) ax ps).
Proof.
  intros W N H. destruct (nd_take_total a ax ps n W N H) as [b B]. exists b. split; [exact B|].
  destruct (nd_take_spec a b ax ps n W N B) as (S & Wb & G).
  assert (E : map zlen (put (full (nd_shape a)) ax ps) = put (nd_shape a) ax (zlen ps)).
  { rewrite put_map, map_zlen_full by apply W. reflexivity. }
  split; [exact Wb|]. split; [congruence|]. split.
  - eapply Forall2_put; [apply full_in|exact N|exact H].
  - intros ix I. pose proof I as I'. rewrite E, <- S in I'.
    assert (exists i, nth_error ix ax = Some i) as [i Ei].
    { destruct (nth_error ix ax) eqn:X; [eauto|]. apply nth_error_None in X.
      apply inb_length in I'. rewrite S, put_length in I'.
      assert (ax < length (nd_shape a))%nat by (apply nth_error_Some; congruence). lia. }
    assert (0 <= i < zlen ps) as Hi.
    { apply inb_nth in I'. destruct I' as [_ I']. apply (I' ax); [|exact Ei]. rewrite S.
      apply nth_put_same. apply nth_error_Some. congruence. }
    destruct (proj2 (znth_range ps i) Hi) as [p Pp].
    exists (put ix ax p). rewrite (pick_ix_put _ _ _ _ i p I Ei Pp).
    rewrite (G ix i p I' Ei Pp).
    destruct (nd_get_total a (put ix ax p) W) as [x X].
    { eapply inb_put; [rewrite <- S; exact I'|exact N|]. apply H. eapply znth_in; exact Pp. }
    exists x. rewrite X. auto.
Qed.

Lemma nd_index_picked {A} (a : nd A) ax ix n ps : wf_nd a -> nth_error (nd_shape a) ax = Some n ->
  indexer_positions n ix = Some ps -> (forall p, In p ps -> 0 <= p < n) ->
  exists b, nd_index a ax ix = Some b /\ nd_picked a b (put (full (nd_shape a)) ax ps).
Proof. intros W N P H. unfold nd_index. rewrite N, P. apply (nd_take_picked a ax ps n W N H). Qed.

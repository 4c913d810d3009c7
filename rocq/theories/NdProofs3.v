(** Facts about N-d arrays: transposing, dropping axes of length one and adding
    axes, with axes addressed by name. *)
From Verif Require Import Base BaseFacts NdModel NdSpec NdProofs NdProofs2.
From Coq Require Import ZifyBool.
Ltac Zify.zify_post_hook ::= Z.div_mod_to_equations.
Local Open Scope Z_scope.
Local Open Scope list_scope.

Lemma traverse_map {A B} (f : A -> option B) (g : A -> B) l :
  (forall x, In x l -> f x = Some (g x)) -> traverse f l = Some (map g l).
Proof.
  induction l as [|x t IH]; intros H; [reflexivity|]. cbn [traverse map].
  rewrite (H x) by (left; reflexivity). rewrite IH; [reflexivity|]. intros; apply H; right; assumption.
Qed.

(** ** Reshape *)
Lemma drop_axes_ravel drop s : forall k ix,
  (forall j, existsb (Nat.eqb (k + j)) drop = true -> (j < length s)%nat -> nth_error s j = Some 1 /\ nth_error ix j = Some 0) ->
  length ix = length s ->
  ravel (drop_axes k drop s) (drop_axes k drop ix) = ravel s ix.
Proof.
  induction s as [|n s IH]; intros k [|i ix] H L; try discriminate; [reflexivity|].
  cbn [drop_axes]. destruct (existsb (Nat.eqb k) drop) eqn:E.
  - destruct (H O) as [[= ->] [= ->]]; [rewrite Nat.add_0_r; exact E|cbn; lia|].
    rewrite (IH (S k) ix); [|intros j J Lj; apply (H (S j)); [rewrite Nat.add_succ_r; exact J|cbn; lia]|cbn in L; lia].
    cbn [ravel]. change ((0 <=? 0) && (0 <? 1)) with true. cbv iota. destruct (ravel s ix); [f_equal; lia|reflexivity].
  - cbn [ravel].
    assert (SZ : size (drop_axes (S k) drop s) = size s).
    { assert (Q : forall j, existsb (Nat.eqb (S k + j)) drop = true -> (j < length s)%nat -> nth_error s j = Some 1).
      { intros j J Lj. apply (H (S j)); [rewrite Nat.add_succ_r; exact J|cbn; lia]. }
      clear - Q. revert k Q. induction s as [|m s IH]; intros k Q; [reflexivity|]. cbn [drop_axes].
      destruct (existsb (Nat.eqb (S k)) drop) eqn:E.
      - rewrite IH; [|intros j J Lj; apply (Q (S j)); [rewrite Nat.add_succ_r; exact J|cbn; lia]].
        assert (nth_error (m :: s) O = Some 1) as [= ->] by (apply Q; [rewrite Nat.add_0_r; exact E|cbn; lia]).
        rewrite size_cons. lia.
      - rewrite !size_cons. rewrite IH; [reflexivity|]. intros j J Lj. apply (Q (S j)); [rewrite Nat.add_succ_r; exact J|cbn; lia]. }
    rewrite SZ. rewrite (IH (S k) ix); [reflexivity| |cbn in L; lia].
    intros j J Lj. apply (H (S j)); [rewrite Nat.add_succ_r; exact J|cbn; lia].
Qed.

Lemma drop_axes_size drop s : forall k,
  (forall j, existsb (Nat.eqb (k + j)) drop = true -> (j < length s)%nat -> nth_error s j = Some 1) ->
  size (drop_axes k drop s) = size s.
Proof.
  induction s as [|m s IH]; intros k Q; [reflexivity|]. cbn [drop_axes].
  destruct (existsb (Nat.eqb k) drop) eqn:E.
  - rewrite IH; [|intros j J Lj; apply (Q (S j)); [rewrite Nat.add_succ_r; exact J|cbn; lia]].
    assert (nth_error (m :: s) O = Some 1) as [= ->] by (apply Q; [rewrite Nat.add_0_r; exact E|cbn; lia]).
    rewrite size_cons. lia.
  - rewrite !size_cons. rewrite IH; [reflexivity|]. intros j J Lj. apply (Q (S j)); [rewrite Nat.add_succ_r; exact J|cbn; lia].
Qed.

Lemma drop_axes_nonneg drop s : forall k, Forall (fun n => 0 <= n) s -> Forall (fun n => 0 <= n) (drop_axes k drop s).
Proof.
  induction s as [|m s IH]; intros k H; [constructor|]. inversion H; subst. cbn [drop_axes].
  destruct (existsb (Nat.eqb k) drop); [apply IH|constructor; [|apply IH]]; assumption.
Qed.

Lemma nd_squeeze_ok {A} (a : nd A) axes : wf_nd a ->
  (forall j, In j axes -> (j < length (nd_shape a))%nat -> nth_error (nd_shape a) j = Some 1) ->
  exists b, nd_reshape a (drop_axes 0 axes (nd_shape a)) = Some b /\ wf_nd b /\
    nd_shape b = drop_axes 0 axes (nd_shape a) /\
    forall ix, length ix = length (nd_shape a) -> (forall j, In j axes -> (j < length (nd_shape a))%nat -> nth_error ix j = Some 0) ->
      nd_get b (drop_axes 0 axes ix) = nd_get a ix.
Proof.
  intros [W1 W2] H.
  assert (H' : forall j, existsb (Nat.eqb (0 + j)) axes = true -> (j < length (nd_shape a))%nat -> nth_error (nd_shape a) j = Some 1).
  { intros j J. apply H. apply existsb_exists in J as (x & X & Y). apply Nat.eqb_eq in Y. cbn in Y. subst; exact X. }
  unfold nd_reshape. pose proof (drop_axes_size axes (nd_shape a) 0 H') as SZ. rewrite SZ, Z.eqb_refl.
  eexists. split; [reflexivity|]. split; [split|split]; cbn [nd_shape nd_flat].
  - apply drop_axes_nonneg. exact W1.
  - congruence.
  - reflexivity.
  - intros ix L Q. unfold nd_get. cbn [nd_shape nd_flat]. rewrite drop_axes_ravel; [reflexivity| |exact L].
    intros j J Lj. split; [apply H'; assumption|]. apply Q; [|exact Lj].
    apply existsb_exists in J as (x & X & Y). apply Nat.eqb_eq in Y. cbn in Y. subst; exact X.
Qed.

(** ** New trailing axes *)
Lemma inb_app_inv s e ix : inb (s ++ e) ix -> inb s (firstn (length s) ix) /\ inb e (skipn (length s) ix).
Proof.
  intros H. apply Forall2_app_inv_l in H as (a & b & Ha & Hb & ->). pose proof (inb_length _ _ Ha) as L.
  rewrite <- L, firstn_app, skipn_app, Nat.sub_diag, firstn_all, skipn_all. cbn. rewrite app_nil_r. auto.
Qed.
Lemma nd_append_ok {A} (a : nd A) e : wf_nd a -> Forall (fun n => 0 <= n) e ->
  exists b, nd_append a e = Some b /\ wf_nd b /\ nd_shape b = nd_shape a ++ e /\
    forall ix jx, inb e jx -> nd_get b (ix ++ jx) = nd_get a ix.
Proof.
  intros W E. unfold nd_append.
  assert (NN : Forall (fun n => 0 <= n) (nd_shape a ++ e)) by (apply Forall_app; split; [apply W|exact E]).
  destruct (nd_build_total (nd_shape a ++ e) (fun ix => nd_get a (firstn (length (nd_shape a)) ix)) NN) as [b B].
  { intros ix I. apply nd_get_total; [exact W|]. apply (inb_app_inv _ _ _ I). }
  exists b. split; [exact B|]. destruct (nd_build_spec _ _ _ NN B) as (S & Wb & G). split; [exact Wb|]. split; [exact S|].
  intros ix jx J. destruct (nd_get a ix) as [x|] eqn:X.
  - pose proof (nd_get_inb _ _ _ X) as I. destruct (G (ix ++ jx)) as (y & Y & ->); [apply Forall2_app; assumption|].
    pose proof (inb_length _ _ I) as L. rewrite <- L, firstn_app, Nat.sub_diag, firstn_all in Y. cbn in Y. rewrite app_nil_r in Y. congruence.
  - destruct (nd_get b (ix ++ jx)) as [y|] eqn:Y; [exfalso|reflexivity].
    pose proof (nd_get_inb _ _ _ Y) as I. rewrite S in I. pose proof (inb_length _ _ I) as L.
    pose proof (inb_length _ _ J) as L2. rewrite !app_length in L.
    assert (length ix = length (nd_shape a)) as L3 by lia.
    apply inb_app_inv in I as [I _]. rewrite <- L3, firstn_app, Nat.sub_diag, firstn_all in I. cbn in I. rewrite app_nil_r in I.
    destruct (nd_get_total a ix W I) as [z Z]. congruence.
Qed.

(** Lemmas behind AggProps.v: folding arrays along an axis. *)
From Verif Require Import Base BaseFacts CoordModel CoordSpec NdModel NdSpec NdProofs NdProofs2 NdProofs3 FrameModel CmModel CmSpec ConcatSpec AggModel AggSpec.
From Coq Require Import Strings.String ZifyBool Lia.
Local Open Scope Z_scope.
Local Open Scope list_scope.

Lemma entry_split {B} (l : list B) ax x : nth_error l ax = Some x ->
  l = insert_at (remove_at l ax) ax x /\ (ax <= List.length (remove_at l ax))%nat.
Proof.
  revert ax. induction l as [|y l IH]; intros [|ax] E; cbn in E; [discriminate|discriminate| |].
  - injection E as <-. unfold insert_at, remove_at. cbn. split; [reflexivity|lia].
  - destruct (IH ax E) as [H L]. unfold insert_at, remove_at in *. cbn [firstn skipn app List.length] in *. split; [congruence|lia].
Qed.
Lemma inb_entry s kx ax n i : (ax <= List.length s)%nat -> inb s kx -> 0 <= i < n -> inb (with_entry s ax n) (with_entry kx ax i).
Proof.
  unfold with_entry. revert s kx. induction ax as [|ax IH]; intros s kx L H I; cbn [firstn skipn app]; [constructor; assumption|].
  inversion H; subst; cbn [List.length] in L; [lia|]. cbn [firstn skipn app]. constructor; [assumption|]. apply IH; [lia|assumption|assumption].
Qed.
Lemma inb_entry_inv s ix ax n : (ax <= List.length s)%nat -> inb (with_entry s ax n) ix ->
  exists kx i, ix = with_entry kx ax i /\ inb s kx /\ 0 <= i < n.
Proof.
  unfold with_entry. revert s ix. induction ax as [|ax IH]; intros s ix L H; cbn [firstn skipn app] in H.
  - inversion H; subst. eexists _, _. cbn [firstn skipn app]. eauto.
  - destruct s as [|m s]; cbn [List.length] in L; [lia|]. cbn [firstn skipn app] in H. inversion H as [|? j ? jx ? H1]; subst.
    destruct (IH s jx ltac:(lia) H1) as (kx & i & E & K & I). exists (j :: kx), i. cbn [firstn skipn app]. split; [congruence|].
    split; [constructor; assumption|exact I].
Qed.
Lemma Forall_entry (P : Z -> Prop) s ax n : Forall P (with_entry s ax n) -> Forall P s /\ P n.
Proof.
  unfold with_entry. intros H. apply Forall_app in H as [H1 H2]. inversion H2; subst. split; [|assumption].
  rewrite <- (firstn_skipn ax s). apply Forall_app. auto.
Qed.
Lemma Forall_entry' (P : Z -> Prop) s ax n : Forall P s -> P n -> Forall P (with_entry s ax n).
Proof.
  unfold with_entry. intros H N. rewrite <- (firstn_skipn ax s) in H. apply Forall_app in H as [H1 H2]. apply Forall_app. split; [exact H1|constructor; assumption].
Qed.
Lemma size_entry s ax : size (with_entry s ax 1) = size s.
Proof.
  unfold with_entry. revert s. induction ax as [|ax IH]; intros s; cbn [firstn skipn app]; [rewrite size_cons; lia|].
  destruct s as [|m s]; [reflexivity|]. cbn [firstn skipn app]. rewrite !size_cons, IH. reflexivity.
Qed.
Lemma ravel_entry s kx ax : (ax <= List.length s)%nat -> List.length s = List.length kx -> ravel (with_entry s ax 1) (with_entry kx ax 0) = ravel s kx.
Proof.
  unfold with_entry. revert s kx. induction ax as [|ax IH]; intros s kx L E; cbn [firstn skipn app].
  - cbn [ravel]. cbn. destruct (ravel s kx); [f_equal; lia|reflexivity].
  - destruct s as [|m s], kx as [|j kx]; cbn [List.length] in *; try lia. cbn [firstn skipn app ravel].
    rewrite IH by lia. fold (with_entry s ax 1). rewrite size_entry. reflexivity.
Qed.

Lemma fold_ok {A B} (f : list A -> B) ax n (a : nd A) : wf_nd a -> nth_error (nd_shape a) ax = Some n ->
  exists b, nd_fold f ax a = Some b /\ wf_nd b /\ folded f ax a b.
Proof.
  intros [P L] E. destruct (entry_split _ _ _ E) as [S LE]. set (s := remove_at (nd_shape a) ax) in *.
  change (insert_at s ax n) with (with_entry s ax n) in S.
  assert (P' := P). rewrite S in P'. apply Forall_entry in P' as [Ps Pn]. cbv beta in Pn.
  assert (T : forall kx, inb s kx -> exists vs, traverse (fun i => nd_get a (insert_at kx ax i)) (zrange n) = Some vs).
  { intros kx K. apply traverse_total. intros i I. apply in_zrange in I. apply nd_get_total; [split; assumption|].
    rewrite S. apply inb_entry; assumption || lia. }
  unfold nd_fold. rewrite E. fold s.
  destruct (nd_build_total s (fun kx => option_map f (traverse (fun i => nd_get a (insert_at kx ax i)) (zrange n))) Ps) as [b Eb].
  { intros kx K. destruct (T kx K) as [vs ->]. eexists; reflexivity. }
  exists b. split; [exact Eb|]. destruct (nd_build_spec _ _ _ Ps Eb) as (Sb & Wb & G). split; [exact Wb|].
  exists s, n. split; [exact S|]. split; [exact LE|]. split; [exact Sb|]. intros kx K. destruct (G kx K) as (x & Ex & Gx).
  destruct (T kx K) as [vs Ev]. rewrite Ev in Ex. cbn in Ex. injection Ex as <-. exists vs. split; [|exact Gx].
  destruct (traverse_spec _ _ _ Ev) as [Lv Nv]. rewrite zlen_zrange, Z.max_r in Lv by assumption. split; [exact Lv|].
  intros i I. destruct (Nv i i) as (y & Y1 & Y2); [rewrite znth_zrange; destruct (_ && _) eqn:Q; [reflexivity|lia]|]. unfold insert_at in Y1. unfold with_entry. congruence.
Qed.
Lemma fold_kept_ok {A B} (f : list A -> B) ax (a : nd A) b : wf_nd b -> folded f ax a b ->
  let b' := mkNd (insert_at (nd_shape b) ax 1) (nd_flat b) in wf_nd b' /\ folded_kept f ax a b'.
Proof.
  intros [P L] (s & n & S & LE & Sb & G) b'. subst s. set (s := nd_shape b) in *. change (insert_at s ax 1) with (with_entry s ax 1) in b'. split.
  - split; cbn [nd_shape nd_flat b']; [apply Forall_entry'; [exact P|lia]|]. rewrite size_entry. exact L.
  - exists s, n. split; [exact S|]. split; [exact LE|]. split; [reflexivity|]. intros kx K. destruct (G kx K) as (vs & V & E). exists vs. split; [exact V|].
    rewrite <- E. unfold nd_get, b'. cbn [nd_shape nd_flat]. rewrite ravel_entry; [reflexivity|exact LE|clear - K; induction K; cbn; congruence].
Qed.

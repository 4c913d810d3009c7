(** Lemmas behind AggProps.v: numpy functions applied to patches. *)
From Verif Require Import Base BaseFacts CoordModel CoordSpec NdModel NdSpec NdProofs FrameModel FrameProofs5 ChunkModel
  CmModel CmSpec CmProofs CmProofs2 CmProofs3 CmProofs19 CmProofs20 MergeModel MergeProofs7 ConcatSpec ConcatProofs2 AggModel AggSpec AggProofs AggProofs2 AggProofs4.
From Coq Require Import Strings.String ZifyBool Lia.
Local Open Scope Z_scope.
Local Open Scope list_scope.

Lemma normal_meant axis n k : (0 < n)%nat -> In k (normal_axes axis n) <-> meant axis n k.
Proof.
  intros P. unfold normal_axes, meant. destruct axis as [l|]; [|rewrite in_seq; lia].
  rewrite <- in_rev, nodup_In, <- in_rev, in_map_iff. split.
  - intros (a & <- & I). pose proof (Z.mod_pos_bound a (Z.of_nat n) ltac:(lia)). split; [lia|]. exists a. split; [exact I|lia].
  - intros (L & a & I & E). exists a. split; [rewrite <- E; lia|exact I].
Qed.
Lemma mem_same axes axes' : (forall k, In k axes <-> In k axes') -> forall k, existsb (Nat.eqb k) axes = existsb (Nat.eqb k) axes'.
Proof. intros H k. apply Bool.eq_iff_eq_true. rewrite !axes_mem. apply H. Qed.
Lemma relabelled_ext {A} axes axes' (r : nd A) p out : (forall k, In k axes <-> In k axes') -> relabelled axes r p out -> relabelled axes' r p out.
Proof.
  intros H R. assert (M : forall d, marked axes (cm_dims (p_cm p)) d <-> marked axes' (cm_dims (p_cm p)) d) by (intros d; unfold marked; split; intros (k & I & E); exists k; split; [apply H, I|exact E|apply H, I|exact E]).
  destruct R as [R1 R2 R3 R4 R5 R6 R7 R8]. split; auto.
  - eapply Forall2_impl; [|exact R3]. cbv beta. intros d n I X. apply I, M, X.
  - intros ix I. rewrite (R4 ix I). f_equal. f_equal. apply map_ext. apply mem_same, H.
  - intros d c X. apply R5, M, X.
  - intros n m E X. apply (R6 n m E). intros d J Y. apply X; [exact J|apply M, Y].
  - intros n d X J Y. apply (R7 n d); [rewrite M; exact X|exact J|apply M, Y].
Qed.

Lemma np_reduced {A} (p : patch A) (r : nd A) axis axes : wf_patch p -> plain_names (p_cm p) ->
  (forall k, In k axes <-> meant axis (List.length (cm_dims (p_cm p))) k) -> axes <> [] ->
  wf_nd r -> nd_shape r = without axes (nd_shape (p_data p)) ->
  exists out, reassemble r (Some axis) p = Ok out /\ relabelled axes r p out.
Proof.
  intros W PN H NE Wr Sr. pose proof (wp_some _ W) as ND. pose proof (shape_len p W) as L.
  assert (P : (0 < List.length (cm_dims (p_cm p)))%nat) by (destruct (cm_dims (p_cm p)); [congruence|cbn; lia]).
  assert (Q : forall k, In k (normal_axes axis (List.length (cm_dims (p_cm p)))) <-> In k axes) by (intros k; rewrite H; apply normal_meant, P).
  assert (Sr' : nd_shape r = unmarked (marks (normal_axes axis (List.length (cm_dims (p_cm p)))) (List.length (cm_dims (p_cm p)))) (nd_shape (p_data p))).
  { rewrite Sr. unfold without, marks. rewrite L. f_equal. apply map_ext. apply mem_same. intros k. symmetry. apply Q. }
  assert (LT : forall ms (s : list Z), List.length ms = List.length s -> In true ms -> (List.length (unmarked ms s) < List.length s)%nat).
  { assert (LE : forall ms s, (List.length (@unmarked Z ms s) <= List.length s)%nat) by (induction ms as [|[] ms IH]; intros [|x s]; cbn [unmarked List.length]; try lia; specialize (IH s); lia).
    induction ms as [|b ms IH]; intros [|x s] E I; cbn [List.length] in E; try (destruct I; fail); try lia.
    destruct b; cbn [unmarked List.length]; [pose proof (LE ms s); lia|]. destruct I as [I|I]; [discriminate|]. specialize (IH s ltac:(lia) I). lia. }
  destruct (put_back p r axis W PN Wr Sr') as (out & E & R).
  - intros X. destruct axes as [|k axes0]; [congruence|]. assert (Ik : In k (k :: axes0)) by (left; reflexivity). set (axes := k :: axes0) in *. pose proof (proj1 (H k) Ik) as [Lk _].
    assert (List.length (nd_shape r) < List.length (nd_shape (p_data p)))%nat; [|rewrite X in *; lia]. rewrite Sr. unfold without. apply LT; [rewrite map_length, seq_length; reflexivity|].
    apply in_map_iff. exists k. split; [apply axes_mem, Ik|apply in_seq; lia].
  - exists out. split; [exact E|]. eapply relabelled_ext; [|exact R]. exact Q.
Qed.

Lemma np_same {A} (p : patch A) (r : nd A) axis : wf_patch p -> nd_shape r = nd_shape (p_data p) ->
  reassemble r axis p = Ok (mkPatch (p_cm p) r).
Proof.
  intros W S. unfold reassemble. rewrite (proj2 (CmProofs.zlist_eqb_eq _ _) S).
  apply (new_patch_exact (p_cm p) r); [apply (wf_con _ (wp_cm _ W))|apply (wp_some _ W)|rewrite S; apply (wp_shape _ W)].
Qed.
Lemma np_noaxis {A} (p : patch A) (r : nd A) : nd_shape r <> nd_shape (p_data p) -> reassemble r None p = Err ParameterError.
Proof. intros N. unfold reassemble. destruct (zlist_eqb _ _) eqn:E; [apply CmProofs.zlist_eqb_eq in E; contradiction|reflexivity]. Qed.

Lemma unmarked_none {B} q : forall (s : list B) o, (q < o)%nat -> unmarked (map (fun j => existsb (Nat.eqb j) [q]) (seq o (List.length s))) s = s.
Proof.
  induction s as [|x s IH]; intros o L; [reflexivity|]. cbn [List.length seq map]. destruct (existsb (Nat.eqb o) [q]) eqn:E; [cbn in E; lia|]. cbn [unmarked]. f_equal. apply IH. lia.
Qed.
Lemma unmarked_one {B} k : forall (s : list B) o, (k < List.length s)%nat ->
  unmarked (map (fun j => existsb (Nat.eqb j) [(o + k)%nat]) (seq o (List.length s))) s = firstn k s ++ skipn (S k) s.
Proof.
  induction k as [|k IH]; intros [|x s] o L; cbn [List.length] in L; try lia; cbn [List.length seq map].
  - destruct (existsb (Nat.eqb o) [(o + 0)%nat]) eqn:E; [|cbn in E; lia]. cbn [unmarked firstn skipn app]. apply unmarked_none. lia.
  - destruct (existsb (Nat.eqb o) [(o + S k)%nat]) eqn:E; [cbn in E; lia|]. cbn [unmarked firstn skipn app]. f_equal.
    replace (o + S k)%nat with (S o + k)%nat by lia. apply IH. lia.
Qed.
Lemma without_entry s k n : (k <= List.length s)%nat -> without [k] (with_entry s k n) = s.
Proof.
  intros L. unfold without. assert (LL : List.length (with_entry s k n) = S (List.length s)) by (unfold with_entry; rewrite app_length, firstn_length; cbn [List.length]; rewrite skipn_length; lia).
  etransitivity; [apply (unmarked_one k (with_entry s k n) O); lia|]. unfold with_entry.
  clear LL. revert k L. induction s as [|x s IH]; intros [|k] L; cbn [List.length] in L; try lia; try reflexivity. cbn [firstn skipn app]. f_equal. apply IH. lia.
Qed.

Lemma reduce_at {A} (f : list A -> A) (p : patch A) k d : wf_patch p -> plain_names (p_cm p) -> nth_error (cm_dims (p_cm p)) k = Some d ->
  exists r out, nd_fold f k (p_data p) = Some r /\ reassemble r (Some (Some [Z.of_nat k])) p = Ok out /\ folded f k (p_data p) r /\ relabelled [k] r p out.
Proof.
  intros W PN E. destruct (shape_at (cm_dims (p_cm p)) p k d W eq_refl E) as (c & Ec & En).
  destruct (fold_ok f k _ (p_data p) (wp_nd _ W) En) as (r & ER & Wr & F). exists r.
  assert (Lk : (k < List.length (cm_dims (p_cm p)))%nat) by (apply nth_error_Some; congruence).
  destruct (np_reduced p r (Some [Z.of_nat k]) [k] W PN) as (out & EO & R); [|discriminate|exact Wr| |exists out; auto].
  - intros j. unfold meant. cbn [In]. split.
    + intros [<-|[]]. split; [exact Lk|]. exists (Z.of_nat k). split; [left; reflexivity|]. rewrite Z.mod_small by lia. reflexivity.
    + intros (_ & a & [<-|[]] & Q). rewrite Z.mod_small in Q by lia. left. lia.
  - destruct F as (s & n & S & LE & Sb & _). rewrite S, Sb. symmetry. apply without_entry, LE.
Qed.
Lemma ufunc_ok {A} (f : list A -> A) (p : patch A) d : wf_patch p -> plain_names (p_cm p) -> In d (cm_dims (p_cm p)) ->
  exists k r out, nth_error (cm_dims (p_cm p)) k = Some d /\ ufunc_reduce f (DName d) p = Ok out /\ folded f k (p_data p) r /\ relabelled [k] r p out.
Proof.
  intros W PN J. destruct (ConcatProofs2.index_of_In d _ J) as (k & E1 & E2). destruct (reduce_at f p k d W PN E2) as (r & out & ER & EO & F & R).
  exists k, r, out. split; [exact E2|]. split; [|auto]. unfold ufunc_reduce, swap_dim. rewrite E1. cbn [bind]. rewrite Nat2Z.id, ER. exact EO.
Qed.
Lemma ufunc_first {A} (f : list A -> A) (p : patch A) d : wf_patch p -> nth_error (cm_dims (p_cm p)) 0 = Some d -> ufunc_reduce f DNone p = ufunc_reduce f (DName d) p.
Proof.
  intros W E. unfold ufunc_reduce, swap_dim. assert (index_of d (cm_dims (p_cm p)) = Some O) as ->; [|reflexivity].
  destruct (cm_dims (p_cm p)) as [|e D]; [discriminate|]. injection E as ->. cbn. rewrite String.eqb_refl. reflexivity.
Qed.
Lemma ufunc_unknown {A} (f : list A -> A) (p : patch A) d : ~ In d (cm_dims (p_cm p)) -> ufunc_reduce f (DName d) p = Err ParameterError.
Proof. intros N. unfold ufunc_reduce, swap_dim. rewrite (proj2 (index_of_None _ _) N). reflexivity. Qed.
Lemma ufunc_names {A} (f : list A -> A) (p : patch A) l : (forall d, In d l -> In d (cm_dims (p_cm p))) -> ufunc_reduce f (DNames l) p = Err TypeError.
Proof.
  intros H. unfold ufunc_reduce, swap_dim. assert (exists ks, map_result (fun x => match index_of x (cm_dims (p_cm p)) with Some k => Ok (Z.of_nat k) | None => Err ParameterError end) l = Ok ks) as [ks ->]; [|reflexivity].
  induction l as [|d l IH]; [eexists; reflexivity|]. destruct (ConcatProofs2.index_of_In d _ (H d (or_introl eq_refl))) as (k & E & _).
  destruct IH as [ks IH]; [intros; apply H; right; assumption|]. cbn [map_result]. rewrite E. cbn [bind]. rewrite IH. eexists; reflexivity.
Qed.

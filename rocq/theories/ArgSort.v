(** A concrete argsort, showing that [valid_argsort] is inhabited. *)
From Verif Require Import Base BaseFacts CoordModel CoordSpec.
From Coq Require Import ZifyBool Sorting.Permutation Sorting.Sorted.

Fixpoint insert_pair (p : Z * Z) (l : list (Z * Z)) : list (Z * Z) :=
  match l with
  | [] => [p]
  | q :: t => if fst p <=? fst q then p :: l else q :: insert_pair p t
  end.
Definition stable_argsort (l : list Z) : list Z :=
  map snd (fold_right insert_pair [] (combine l (zrange (zlen l)))).

Lemma insert_pair_perm p l : Permutation (insert_pair p l) (p :: l).
Proof.
  induction l as [|q l IH]; cbn; auto. destruct (fst p <=? fst q); auto.
  rewrite IH; apply perm_swap.
Qed.
Lemma sort_pairs_perm l : Permutation (fold_right insert_pair [] l) l.
Proof. induction l as [|p l IH]; cbn; auto. rewrite insert_pair_perm; auto. Qed.
Lemma insert_pair_sorted p l : StronglySorted Z.le (map fst l) ->
  StronglySorted Z.le (map fst (insert_pair p l)).
Proof.
  induction l as [|q l IH]; cbn [insert_pair map]; intros H; [repeat constructor|].
  inversion H as [|? ? H1 H2]; subst. destruct (Z.leb_spec (fst p) (fst q)); cbn [map].
  - constructor; auto. constructor; auto. rewrite Forall_forall in *; intros x Hx.
    specialize (H2 x Hx); lia.
  - constructor; auto. rewrite Forall_forall in *. intros x Hx.
    apply in_map_iff in Hx as (z & <- & Hz).
    apply (Permutation_in _ (insert_pair_perm p l)) in Hz as [<-|Hz]; [lia|].
    apply H2, in_map, Hz.
Qed.
Lemma sort_pairs_sorted l : StronglySorted Z.le (map fst (fold_right insert_pair [] l)).
Proof. induction l; cbn; [constructor|now apply insert_pair_sorted]. Qed.

Lemma combine_znth (l : list Z) : forall (m : list Z) p, In p (combine l m) -> length l = length m ->
  exists i, znth l i = Some (fst p) /\ znth m i = Some (snd p).
Proof.
  induction l as [|x l IH]; intros [|y m] p; cbn; try tauto; try discriminate.
  intros [<-|H] L.
  - exists 0; auto.
  - destruct (IH m p H ltac:(lia)) as (i & H1 & H2). exists (i + 1).
    apply znth_some in H1 as B. rewrite !znth_cons. destruct (Z.eqb_spec (i + 1) 0); [lia|].
    now replace (i + 1 - 1) with i by lia.
Qed.

Theorem stable_argsort_valid : valid_argsort stable_argsort.
Proof.
  intros l. set (ps := fold_right insert_pair [] (combine l (zrange (zlen l)))).
  assert (L : length l = length (zrange (zlen l))).
  { pose proof (zlen_zrange (zlen l)); unfold zlen in *; lia. }
  split.
  - unfold stable_argsort. fold ps. rewrite (Permutation_map snd (sort_pairs_perm _ : Permutation ps _)).
    assert (E : forall (a b : list Z), length a = length b -> map snd (combine a b) = b).
    { clear; induction a as [|x a IH]; intros [|y b]; cbn; try discriminate; auto.
      intros; f_equal; apply IH; lia. }
    now rewrite E.
  - exists (map fst ps). split; [|apply sort_pairs_sorted].
    unfold stable_argsort. fold ps.
    assert (H : forall p, In p ps -> znth l (snd p) = Some (fst p)).
    { intros p Hp. apply (Permutation_in _ (sort_pairs_perm _)) in Hp.
      destruct (combine_znth _ _ _ Hp L) as (i & H1 & H2).
      rewrite znth_zrange in H2. destruct ((0 <=? i) && (i <? zlen l)); congruence. }
    induction ps as [|p t IH]; cbn [map gather]; auto.
    rewrite H by (cbn; auto). rewrite IH by (intros; apply H; cbn; auto). reflexivity.
Qed.

(** Proofs for XML read into dictionaries (C101). *)
From Verif Require Import Base BaseFacts FrameModel XmlModel XmlSpec.
From Coq Require Import Strings.String Permutation Lia.
Local Open Scope list_scope.

Fixpoint size (e : elem) : nat := match e with El _ _ k => S (list_sum (map size k)) end.
Lemma size_kid e k : In k (kids_of e) -> (size k < size e)%nat.
Proof.
  destruct e as [t x ks]. cbn [kids_of size]. induction ks as [|a r IH]; [contradiction|]. intros [->|I]; cbn [map list_sum fold_right]; [unfold list_sum; lia|]. specialize (IH I). unfold list_sum in *. lia.
Qed.
Lemma named_app t a b : named t (a ++ b) = named t a ++ named t b.
Proof. unfold named. induction a as [|x r IH]; [reflexivity|]. cbn. rewrite IH. destruct (String.eqb _ _); reflexivity. Qed.
Lemma in_named t l e : In e (named t l) <-> In e l /\ tag_of e = t.
Proof. unfold named. rewrite filter_In, String.eqb_eq. reflexivity. Qed.
Definition not_list (v : xval) : Prop := match v with XList _ => False | _ => True end.
Lemma to_dict_not_list e : not_list (to_dict e).
Proof. destruct e as [t x [|k r]]; exact I. Qed.
Lemma to_dict_node t x k : k <> [] -> to_dict (El t x k) = XDict (fold_left (fun d k => add_child d (tag_of k) (to_dict k)) k []).
Proof. destruct k; [contradiction|reflexivity]. Qed.

Lemma assoc_add d t v n : assoc n (add_child d t v) =
  if String.eqb t n then Some (match assoc t d with None => v | Some (XList l) => XList (l ++ [v]) | Some x => XList [x; v] end) else assoc n d.
Proof.
  induction d as [|[k x] r IH]; cbn [add_child assoc].
  - rewrite String.eqb_sym. reflexivity.
  - rewrite (String.eqb_sym t k). destruct (String.eqb_spec k t) as [->|N]; cbn [assoc].
    + rewrite String.eqb_sym. destruct (String.eqb_spec t n); [|reflexivity]. destruct x; reflexivity.
    + rewrite IH. destruct (String.eqb_spec n k) as [->|M]; [|reflexivity]. destruct (String.eqb_spec t k) as [->|]; [contradiction|reflexivity].
Qed.
Lemma keys_add d t v : map fst (add_child d t v) = if existsb (fun k => String.eqb k t) (map fst d) then map fst d else map fst d ++ [t].
Proof.
  induction d as [|[k x] r IH]; [reflexivity|]. cbn [add_child map fst existsb]. destruct (String.eqb_spec k t) as [->|N]; [reflexivity|]. cbn [orb map fst]. rewrite IH. destruct (existsb _ _); reflexivity.
Qed.
Definition gathered (vs : list xval) : option xval := match vs with [] => None | [v] => Some v | _ => Some (XList vs) end.
Lemma gathered_under vs : under vs (gathered vs).
Proof. destruct vs as [|v [|w t]]; constructor. Qed.
Definition build (ks : list elem) := fold_left (fun d k => add_child d (tag_of k) (to_dict k)) ks [].
Lemma build_snoc ks k : build (ks ++ [k]) = add_child (build ks) (tag_of k) (to_dict k).
Proof. unfold build. rewrite fold_left_app. reflexivity. Qed.
Lemma build_assoc ks n : assoc n (build ks) = gathered (map to_dict (named n ks)).
Proof.
  induction ks as [|k ks IH] using rev_ind; [reflexivity|]. rewrite build_snoc, assoc_add, named_app, map_app. cbn [named filter]. destruct (String.eqb_spec (tag_of k) n) as [E|N]; [|cbn; rewrite app_nil_r; exact IH].
  rewrite E, IH. cbn [map]. destruct (map to_dict (named n ks)) as [|v [|w t]] eqn:M; cbn [gathered app]; [reflexivity| |reflexivity].
  assert (NL : not_list v). { assert (I : In v (map to_dict (named n ks))) by (rewrite M; left; reflexivity). apply in_map_iff in I as (e & <- & _). apply to_dict_not_list. } destruct v; [reflexivity|contradiction|reflexivity].
Qed.
Lemma first_seen_In l x : In x (first_seen l) <-> In x l.
Proof.
  induction l as [|a r IH]; [reflexivity|]. cbn. rewrite filter_In, IH. split.
  - intros [H|[H _]]; auto.
  - intros [H|H]; [left; exact H|]. destruct (String.eqb_spec a x) as [->|N]; [left; reflexivity|]. right. split; [exact H|]. reflexivity.
Qed.
Lemma first_seen_NoDup l : NoDup (first_seen l).
Proof. induction l as [|a r IH]; cbn; constructor; [|apply NoDup_filter, IH]. rewrite filter_In, String.eqb_refl. intros [_ H]. discriminate. Qed.
Lemma first_seen_snoc l t : first_seen (l ++ [t]) = if existsb (fun k => String.eqb k t) l then first_seen l else first_seen l ++ [t].
Proof.
  induction l as [|a r IH]; [reflexivity|]. cbn [app first_seen existsb]. rewrite IH. destruct (String.eqb_spec a t) as [->|N]; cbn [orb].
  - destruct (existsb _ r); [reflexivity|]. rewrite filter_app. cbn. rewrite String.eqb_refl. cbn. rewrite app_nil_r. reflexivity.
  - destruct (existsb _ r); [reflexivity|]. rewrite filter_app. cbn. destruct (String.eqb_spec a t); [contradiction|]. reflexivity.
Qed.
Lemma existsb_in t l : existsb (fun k => String.eqb k t) l = true <-> In t l.
Proof. rewrite existsb_exists. split; [intros (x & I & E); apply String.eqb_eq in E; subst; exact I|intros I; exists t; split; [exact I|apply String.eqb_refl]]. Qed.
Lemma build_keys ks : map fst (build ks) = first_seen (map tag_of ks).
Proof.
  induction ks as [|k ks IH] using rev_ind; [reflexivity|]. rewrite build_snoc, keys_add, map_app. cbn [map]. rewrite first_seen_snoc, IH.
  assert (E : existsb (fun k0 => String.eqb k0 (tag_of k)) (first_seen (map tag_of ks)) = existsb (fun k0 => String.eqb k0 (tag_of k)) (map tag_of ks)). { apply Bool.eq_iff_eq_true. rewrite !existsb_in. apply first_seen_In. }
  rewrite E. reflexivity.
Qed.
Theorem xml_node t x k : k <> [] -> exists d, to_dict (El t x k) = XDict d /\ map fst d = first_seen (map tag_of k) /\ NoDup (map fst d) /\ forall n, under (map to_dict (named n k)) (assoc n d).
Proof.
  intros N. exists (build k). split; [apply to_dict_node, N|]. split; [apply build_keys|]. split; [rewrite build_keys; apply first_seen_NoDup|]. intros n. rewrite build_assoc. apply gathered_under.
Qed.

(** No text is lost. *)
Lemma texts_add d t v : Permutation (flat_map (fun p => texts (snd p)) (add_child d t v)) (flat_map (fun p => texts (snd p)) d ++ texts v).
Proof.
  induction d as [|[k x] r IH]; cbn [add_child flat_map snd app]; [rewrite app_nil_r; reflexivity|]. destruct (String.eqb k t); cbn [flat_map snd].
  - assert (E : texts (match x with XList l => XList (l ++ [v]) | _ => XList [x; v] end) = texts x ++ texts v). { destruct x; cbn [texts flat_map]; rewrite ?app_nil_r; try reflexivity. rewrite flat_map_app. cbn. rewrite app_nil_r. reflexivity. }
    rewrite E, <- !app_assoc. apply Permutation_app_head, Permutation_app_comm.
  - rewrite <- app_assoc. apply Permutation_app_head, IH.
Qed.
Theorem xml_texts e : Permutation (texts (to_dict e)) (leaves e).
Proof.
  assert (G : forall n e, (size e <= n)%nat -> Permutation (texts (to_dict e)) (leaves e)); [|exact (G _ _ (le_n _))]. clear e. induction n as [|n IH]; intros [t x k] L; [cbn in L; lia|].
  destruct k as [|a r] eqn:K; [reflexivity|]. rewrite to_dict_node by discriminate. cbn [texts]. change (leaves (El t x (a :: r))) with (flat_map leaves (a :: r)). fold (build (a :: r)).
  assert (H : forall y, In y (a :: r) -> Permutation (texts (to_dict y)) (leaves y)). { intros y I. apply IH. pose proof (size_kid (El t x (a :: r)) y I). lia. }
  clear -H. revert H. generalize (a :: r). intros l. induction l as [|y l IHl] using rev_ind; intros H; [reflexivity|]. rewrite build_snoc, flat_map_app. rewrite texts_add. apply Permutation_app.
  - apply IHl. intros z Z. apply H, in_or_app. left. exact Z.
  - cbn. rewrite app_nil_r. apply H, in_or_app. right. left. reflexivity.
Qed.

(** Nothing but what [alike] leaves out is lost. *)
Lemma Forall2_unmap {A B} (f : A -> B) (R : B -> B -> Prop) (P : A -> A -> Prop) l l' : Forall2 R (map f l) (map f l') -> (forall x y, In x l -> In y l' -> R (f x) (f y) -> P x y) -> Forall2 P l l'.
Proof.
  revert l'. induction l as [|x t IH]; intros [|y t'] F H; cbn in F; inversion F; subst; constructor.
  - apply H; [left; reflexivity|left; reflexivity|assumption].
  - apply IH; [assumption|]. intros u v U V. apply H; right; assumption.
Qed.
Lemma Forall2_remap {A B} (f : A -> B) (R : B -> B -> Prop) (P : A -> A -> Prop) l l' : Forall2 P l l' -> (forall x y, In x l -> In y l' -> P x y -> R (f x) (f y)) -> Forall2 R (map f l) (map f l').
Proof.
  induction 1 as [|x y t t' A0 F IH]; intros H; constructor; [apply H; [left; reflexivity|left; reflexivity|exact A0]|]. apply IH. intros u v U V. apply H; right; assumption.
Qed.
Lemma not_list_all n k : Forall not_list (map to_dict (named n k)).
Proof. apply Forall_forall. intros v I. apply in_map_iff in I as (e & <- & _). apply to_dict_not_list. Qed.
Definition same_opt (a b : option xval) : Prop := match a, b with Some v, Some w => same_val v w | None, None => True | _, _ => False end.
Lemma gathered_same vs ws : Forall not_list vs -> Forall not_list ws -> same_opt (gathered vs) (gathered ws) -> Forall2 same_val vs ws.
Proof.
  intros A B H. destruct vs as [|v [|v' t]], ws as [|w [|w' u]]; cbn in H; try contradiction; try (constructor; [assumption|constructor]); [constructor| | |].
  - inversion H; subst. inversion A; subst. contradiction.
  - inversion H; subst. inversion B; subst. contradiction.
  - inversion H; subst. assumption.
Qed.
Lemma same_gathered vs ws : Forall2 same_val vs ws -> same_opt (gathered vs) (gathered ws).
Proof. intros F. inversion F as [|v w t u A B]; subst; [exact I|]. inversion B; subst; cbn; [exact A|]. constructor. exact F. Qed.
Lemma dict_same d d' : same_val (XDict d) (XDict d') <-> forall k, same_opt (assoc k d) (assoc k d').
Proof.
  split.
  - intros H k. inversion H as [| |? ? H1 H2]; subst. destruct (assoc k d) as [v|] eqn:E.
    + destruct (H1 k v E) as (v' & -> & S1). exact S1.
    + rewrite (H2 k E). exact I.
  - intros H. constructor.
    + intros k v E. specialize (H k). rewrite E in H. destruct (assoc k d') as [v'|]; [|contradiction]. exists v'. split; [reflexivity|exact H].
    + intros k E. specialize (H k). rewrite E in H. destruct (assoc k d'); [contradiction|reflexivity].
Qed.
Theorem xml_same a b : same_val (to_dict a) (to_dict b) <-> alike a b.
Proof.
  assert (G : forall n a b, (size a <= n)%nat -> same_val (to_dict a) (to_dict b) <-> alike a b); [|exact (G _ _ _ (le_n _))]. clear a b. induction n as [|n IH]; intros [t x k] [t' x' k'] L; [cbn in L; lia|].
  assert (K : forall y z, In y k -> same_val (to_dict y) (to_dict z) <-> alike y z). { intros y z I. apply IH. pose proof (size_kid (El t x k) y I). lia. }
  destruct k as [|c r] eqn:Ek; destruct k' as [|c' r'] eqn:Ek'; rewrite <- ?Ek, <- ?Ek' in *.
  - subst. split; intros H; [cbn in H; inversion H; subst; constructor|]. inversion H; subst; [cbn; constructor|congruence].
  - subst. split; intros H; [cbn in H; inversion H|inversion H; subst; congruence].
  - subst. split; intros H; [cbn in H; inversion H|inversion H; subst; congruence].
  - rewrite !to_dict_node by congruence. fold (build k) (build k'). rewrite dict_same. split.
    + intros H. constructor; [congruence|congruence|]. intros m. specialize (H m). rewrite !build_assoc in H. apply gathered_same in H; [|apply not_list_all|apply not_list_all]. eapply Forall2_unmap; [exact H|].
      intros y z I _ S1. apply K; [|exact S1]. apply in_named in I. apply I.
    + intros H m. rewrite !build_assoc. apply same_gathered. inversion H as [|? ? ? ? ? ? N N' F]; subst; [discriminate|]. eapply Forall2_remap; [apply F|]. intros y z I _ S1. apply K; [|exact S1]. apply in_named in I. apply I.
Qed.

(** The history string: how arguments are passed does not matter. *)
From Verif Require Import Base BaseFacts CoordModel FrameModel FrameProofs5 ChunkModel CmModel CmProofs CmProofs5 AttrsModel RegistryProofs3 HistoryModel.
From Coq Require Import Strings.String Permutation Sorted.
Local Open Scope Z_scope.
Local Open Scope list_scope.

Definition le_str (a b : string) : Prop := String.leb a b = true.
Lemma insert_sorted x l : Sorted le_str l -> Sorted le_str (insert_str x l).
Proof.
  induction l as [|y l IH]; intros S; cbn; [repeat constructor|]. destruct (String.leb x y) eqn:E; [constructor; auto; constructor; exact E|].
  inversion S as [|? ? S1 H1]; subst. constructor; [now apply IH|].
  assert (Y : le_str y x) by (destruct (String.leb_total x y); [congruence|assumption]).
  destruct l as [|z l]; cbn; [constructor; exact Y|]. destruct (String.leb x z); constructor; [exact Y|now inversion H1].
Qed.
Lemma sort_sorted l : Sorted le_str (sort_strs l).
Proof. induction l as [|x l IH]; cbn; [constructor|]. now apply insert_sorted. Qed.
Lemma le_str_trans : Relations_1.Transitive le_str.
Proof. intros a b c. apply leb_trans. Qed.
Lemma sorted_unique a : forall b, StronglySorted le_str a -> StronglySorted le_str b -> Permutation a b -> a = b.
Proof.
  induction a as [|x a IH]; intros b Sa Sb P.
  - apply Permutation_nil in P. now subst.
  - destruct b as [|y b]; [apply Permutation_sym, Permutation_nil in P; discriminate|].
    inversion Sa as [|? ? Sa' Fa]; subst. inversion Sb as [|? ? Sb' Fb]; subst. rewrite Forall_forall in Fa, Fb.
    assert (x = y).
    { assert (I1 : In x (y :: b)) by (eapply Permutation_in; [exact P|now left]).
      assert (I2 : In y (x :: a)) by (eapply Permutation_in; [apply Permutation_sym, P|now left]).
      destruct I1 as [->|I1]; auto. destruct I2 as [->|I2]; auto. apply String.leb_antisym; [now apply Fa|now apply Fb]. }
    subst y. f_equal. apply IH; auto. eapply Permutation_cons_inv; eauto.
Qed.
Lemma sort_strs_eq a b : Permutation a b -> sort_strs a = sort_strs b.
Proof.
  intros P. apply sorted_unique.
  - apply Sorted_StronglySorted; [apply le_str_trans|apply sort_sorted].
  - apply Sorted_StronglySorted; [apply le_str_trans|apply sort_sorted].
  - rewrite !sort_strs_perm. exact P.
Qed.

(** The same bound arguments, in any order, give the same string. *)
Definition same_binding (x y : result (list (string * pyval) * list (string * pyval))) : Prop :=
  match x, y with
  | Ok (a, c), Ok (b, d) => Permutation a b /\ Permutation c d
  | Err e, Err e' => e = e'
  | _, _ => False
  end.
Lemma same_refl x : same_binding x x.
Proof. destruct x as [[a c]|e]; cbn; auto. Qed.
Lemma perm_mem k (a b : list (string * pyval)) : Permutation a b -> mem k (map fst a) = mem k (map fst b).
Proof.
  intros P. assert (Q : Permutation (map fst a) (map fst b)) by now apply Permutation_map.
  destruct (mem k (map fst b)) eqn:E.
  - apply mem_In'. apply mem_In' in E. eapply Permutation_in; [apply Permutation_sym, Q|exact E].
  - apply Bool.not_true_iff_false. intros H. apply mem_In' in H. apply Bool.not_true_iff_false in E. apply E, mem_In'.
    eapply Permutation_in; [exact Q|exact H].
Qed.
Lemma perm_filter {A} (f : A -> bool) a b : Permutation a b -> Permutation (filter f a) (filter f b).
Proof.
  induction 1 as [|x a b P IH|x y a|a b c P1 IH1 P2 IH2]; cbn; auto.
  - destruct (f x); auto.
  - destruct (f x), (f y); auto. apply perm_swap.
  - etransitivity; eauto.
Qed.
Lemma string_of_binding name g pos pos' kw kw' : same_binding (getcallargs g pos kw) (getcallargs g pos' kw') ->
  call_string name g pos kw = call_string name g pos' kw'.
Proof.
  unfold same_binding, call_string. destruct (getcallargs g pos kw) as [[a c]|e], (getcallargs g pos' kw') as [[b d]|e']; cbn [bind]; try contradiction.
  - intros (P & Q). rewrite (perm_mem _ _ _ P). destruct (_ || _); [reflexivity|]. do 5 f_equal. apply sort_strs_eq.
    apply Permutation_app; apply Permutation_flat_map; auto. now apply perm_filter.
  - now intros ->.
Qed.

Lemma perm_assoc {A} k (a b : list (string * A)) : NoDup (map fst a) -> Permutation a b -> assoc k a = assoc k b.
Proof.
  intros ND P. assert (ND' : NoDup (map fst b)) by (eapply Permutation_NoDup; [apply Permutation_map, P|exact ND]).
  destruct (assoc k b) as [v|] eqn:E.
  - apply in_assoc; auto. eapply Permutation_in; [apply Permutation_sym, P|]. now apply assoc_in.
  - apply assoc_None. apply assoc_None in E. intros H. apply E. eapply Permutation_in; [apply Permutation_map, P|exact H].
Qed.
Lemma existsb_perm {A} (f : A -> bool) a b : Permutation a b -> existsb f a = existsb f b.
Proof.
  induction 1 as [|x a b P IH|x y a|a b c P1 IH1 P2 IH2]; cbn; auto.
  - now rewrite IH.
  - destruct (f x), (f y); reflexivity.
  - congruence.
Qed.
Lemma bind_ext kw kw' l : (forall e, In e l -> assoc (fst e) kw = assoc (fst e) kw') -> map_result (bind_one kw) l = map_result (bind_one kw') l.
Proof.
  induction l as [|e l IH]; intros H; [reflexivity|]. cbn [map_result]. unfold bind_one at 1 3. rewrite H by now left.
  rewrite IH; [reflexivity|]. intros x X. apply H. now right.
Qed.

(** Keywords in another order. *)
Theorem entry_keywords name g pos kw kw' : NoDup (map fst kw) -> Permutation kw kw' ->
  call_string name g pos kw = call_string name g pos kw'.
Proof.
  intros ND P. apply string_of_binding. unfold getcallargs. cbv zeta.
  rewrite (existsb_perm _ (map fst kw) (map fst kw')) by now apply Permutation_map.
  assert (E : forall l, existsb (fun k => mem k (map fst kw)) l = existsb (fun k => mem k (map fst kw')) l).
  { induction l as [|x l IH]; cbn; [reflexivity|]. rewrite (perm_mem _ _ _ P), IH. reflexivity. }
  rewrite E. clear E. destruct (existsb _ (firstn _ _)); [apply same_refl|]. destruct (Nat.ltb _ _ && _); [reflexivity|].
  destruct (existsb _ (map fst kw') && _); [apply same_refl|].
  rewrite (bind_ext kw kw') by (intros e _; now apply perm_assoc). destruct (map_result _ _); cbn [bind]; [|apply same_refl].
  split; [reflexivity|]. now apply perm_filter.
Qed.

Lemma nodup_parts {A} (a b : list A) : NoDup (a ++ b) -> NoDup a /\ NoDup b.
Proof.
  induction a as [|x a IH]; cbn; intros H; [split; [constructor|exact H]|]. inversion H as [|? ? N H']; subst. destruct (IH H') as (Ha & Hb).
  split; auto. constructor; auto. intros I. apply N, in_app_iff. now left.
Qed.
Lemma skipn_nth {A} n (l : list A) x : nth_error l n = Some x -> skipn n l = x :: skipn (S n) l.
Proof.
  revert l. induction n as [|n IH]; intros [|y l]; cbn; try discriminate; [intros [= ->]; reflexivity|]. apply IH.
Qed.
Lemma firstn_nth {A} n (l : list A) x : nth_error l n = Some x -> firstn (S n) l = firstn n l ++ [x].
Proof.
  revert l. induction n as [|n IH]; intros [|y l]; cbn [nth_error]; try discriminate; [intros [= ->]; reflexivity|].
  intros H. change (y :: firstn (S n) l = y :: (firstn n l ++ [x])). f_equal. now apply IH.
Qed.
Lemma combine_nth_app {A C} (l : list A) (p : list C) v x : nth_error l (List.length p) = Some x -> combine l (p ++ [v]) = combine l p ++ [(x, v)].
Proof.
  revert p. induction l as [|y l IH]; intros [|z p]; cbn; try discriminate.
  - intros [= ->]. now destruct l.
  - intros H. f_equal. now apply IH.
Qed.

(** An argument by position or by name. *)
Theorem entry_positional name g pos kw x d v : nth_error (g_pos g) (List.length pos) = Some (x, d) ->
  NoDup (map fst (g_pos g) ++ map fst (g_only g)) -> ~ In x (map fst kw) ->
  call_string name g (pos ++ [v]) kw = call_string name g pos ((x, v) :: kw).
Proof.
  intros Nx ND Nk. apply string_of_binding. unfold getcallargs. cbv zeta.
  assert (Nx' : nth_error (map fst (g_pos g)) (List.length pos) = Some x) by now rewrite nth_error_map, Nx.
  rewrite app_length. cbn [List.length]. rewrite Nat.add_1_r.
  assert (Ix : In x (map fst (g_pos g))) by (eapply nth_error_In; eauto).
  assert (NDp : NoDup (map fst (g_pos g))) by (apply (nodup_parts _ _ ND)).
  assert (No : ~ In x (map fst (g_only g))).
  { intros H. clear -ND Ix H. induction (map fst (g_pos g)) as [|y l IH]; [contradiction|]. cbn in ND. inversion ND; subst.
    destruct Ix as [->|Ix]; [apply H2, in_app_iff; now right|now apply IH]. }
  assert (Fx : ~ In x (firstn (List.length pos) (map fst (g_pos g)))).
  { intros H. rewrite <- (firstn_skipn (List.length pos) (map fst (g_pos g))) in NDp. rewrite (skipn_nth _ _ _ Nx') in NDp.
    apply NoDup_remove_2 in NDp. apply NDp, in_app_iff. now left. }
  assert (Sx : ~ In x (skipn (S (List.length pos)) (map fst (g_pos g)))).
  { intros H. rewrite <- (firstn_skipn (List.length pos) (map fst (g_pos g))) in NDp. rewrite (skipn_nth _ _ _ Nx') in NDp.
    apply NoDup_remove_2 in NDp. apply NDp, in_app_iff. now right. }
  rewrite (firstn_nth _ _ _ Nx'). rewrite existsb_app. cbn [existsb map fst].
  assert (M : mem x (map fst kw) = false) by (apply Bool.not_true_iff_false; intros H; apply mem_In' in H; contradiction).
  rewrite M, !Bool.orb_false_r.
  assert (E : existsb (fun k => mem k (x :: map fst kw)) (firstn (List.length pos) (map fst (g_pos g))) =
              existsb (fun k => mem k (map fst kw)) (firstn (List.length pos) (map fst (g_pos g)))).
  { revert Fx. generalize (firstn (List.length pos) (map fst (g_pos g))) as l. induction l as [|y l IH]; intros F; [reflexivity|]. cbn [existsb].
    rewrite IH by (intros H; apply F; now right). f_equal. unfold mem at 1. cbn [existsb]. destruct (String.eqb_spec y x) as [->|]; [elim F; now left|reflexivity]. }
  rewrite E. clear E. destruct (existsb _ (firstn _ _)); [apply same_refl|].
  assert (L : (List.length pos < List.length (map fst (g_pos g)))%nat) by (apply nth_error_Some; congruence).
  assert (L1 : Nat.ltb (List.length (map fst (g_pos g))) (S (List.length pos)) = false) by (apply Nat.ltb_ge; lia).
  assert (L2 : Nat.ltb (List.length (map fst (g_pos g))) (List.length pos) = false) by (apply Nat.ltb_ge; lia).
  rewrite L1, L2. cbn [andb].
  assert (Ox : mem x (map fst (g_pos g) ++ map fst (g_only g)) = true) by (apply mem_In', in_app_iff; now left).
  rewrite Ox. cbn [negb orb filter fst]. rewrite Ox. cbn [negb]. destruct (existsb _ (map fst kw) && _); [apply same_refl|].
  rewrite (skipn_nth _ _ _ Nx). cbn [app map_result]. unfold bind_one at 2. cbn [assoc fst snd]. rewrite String.eqb_refl. cbn [bind].
  rewrite (bind_ext ((x, v) :: kw) kw).
  2:{ intros e He. cbn [assoc]. destruct (String.eqb_spec (fst e) x) as [Ex|]; [|reflexivity]. exfalso.
      assert (I : In (fst e) (map fst (skipn (S (List.length pos)) (g_pos g) ++ g_only g))) by now apply in_map.
      rewrite map_app, in_app_iff, <- skipn_map in I. rewrite Ex in I. destruct I; contradiction. }
  destruct (map_result (bind_one kw) _) as [rest|]; cbn [bind]; [|apply same_refl]. split; [|reflexivity].
  rewrite (combine_nth_app _ _ _ _ Nx'). rewrite !skipn_all2 by (rewrite ?app_length; cbn; lia).
  rewrite <- !app_assoc. apply Permutation_app_head. cbn [app]. rewrite Permutation_middle. reflexivity.
Qed.

(** A default given explicitly. *)
Theorem entry_default name g pos kw x d : In (x, Some d) (skipn (List.length pos) (g_pos g) ++ g_only g) ->
  NoDup (map fst (g_pos g) ++ map fst (g_only g)) -> ~ In x (map fst kw) ->
  call_string name g pos ((x, d) :: kw) = call_string name g pos kw.
Proof.
  intros Ix ND Nk. apply string_of_binding. unfold getcallargs. cbv zeta. set (n := List.length pos) in *.
  assert (Fx : ~ In x (firstn n (map fst (g_pos g)))).
  { intros H. rewrite <- (firstn_skipn n (map fst (g_pos g))) in ND. rewrite <- app_assoc in ND.
    assert (I : In x (skipn n (map fst (g_pos g)) ++ map fst (g_only g))).
    { rewrite skipn_map, <- map_app. apply in_map_iff. now exists (x, Some d). }
    clear -ND H I. induction (firstn n (map fst (g_pos g))) as [|y l IH]; [contradiction|]. cbn in ND. inversion ND; subst.
    destruct H as [->|H]; [apply H2, in_app_iff; now right|now apply IH]. }
  assert (E : existsb (fun k => mem k (map fst ((x, d) :: kw))) (firstn n (map fst (g_pos g))) =
              existsb (fun k => mem k (map fst kw)) (firstn n (map fst (g_pos g)))).
  { revert Fx. generalize (firstn n (map fst (g_pos g))) as l. induction l as [|y l IH]; intros F; [reflexivity|]. cbn [existsb].
    rewrite IH by (intros H; apply F; now right). f_equal. unfold mem at 1. cbn [existsb map fst]. destruct (String.eqb_spec y x) as [->|]; [elim F; now left|reflexivity]. }
  rewrite E. clear E. destruct (existsb _ (firstn _ _)); [apply same_refl|]. destruct (Nat.ltb _ _ && _); [apply same_refl|]. cbn [map fst existsb].
  assert (Ox : mem x (map fst (g_pos g) ++ map fst (g_only g)) = true).
  { apply mem_In'. rewrite <- map_app. apply in_app_iff in Ix. apply in_map_iff. exists (x, Some d). split; [reflexivity|]. apply in_app_iff.
    destruct Ix as [Ix|Ix]; [left|now right]. rewrite <- (firstn_skipn n (g_pos g)). apply in_app_iff. now right. }
  rewrite Ox. cbn [negb orb filter fst]. rewrite Ox. cbn [negb]. destruct (existsb _ (map fst kw) && _); [apply same_refl|].
  assert (Nd : NoDup (map fst (skipn n (g_pos g) ++ g_only g))).
  { rewrite map_app, <- skipn_map. rewrite <- (firstn_skipn n (map fst (g_pos g))) in ND. rewrite <- app_assoc in ND. exact (proj2 (nodup_parts _ _ ND)). }
  assert (Eb : map_result (bind_one ((x, d) :: kw)) (skipn n (g_pos g) ++ g_only g) = map_result (bind_one kw) (skipn n (g_pos g) ++ g_only g)).
  { assert (Z0 : assoc x kw = None) by now apply assoc_None. clear -Ix Nd Z0.
    induction (skipn n (g_pos g) ++ g_only g) as [|(y & dy) l IH]; [contradiction|]. cbn [map_result]. cbn [map fst] in Nd. inversion Nd; subst.
    destruct (String.eqb_spec y x) as [->|Ny].
    - assert (Dy : dy = Some d).
      { destruct Ix as [Ix|Ix]; [now injection Ix|]. exfalso. apply H1. apply in_map_iff. now exists (x, Some d). }
      subst dy. unfold bind_one at 1 3. cbn [assoc fst snd]. rewrite String.eqb_refl, Z0. cbn [bind].
      rewrite (bind_ext ((x, d) :: kw) kw); [reflexivity|]. intros e He. cbn [assoc]. destruct (String.eqb_spec (fst e) x) as [Ex|]; [|reflexivity].
      exfalso. apply H1. rewrite <- Ex. now apply in_map.
    - unfold bind_one at 1 3. cbn [assoc fst snd]. destruct (String.eqb_spec y x); [contradiction|]. rewrite IH; auto.
      destruct Ix as [Ix|Ix]; [injection Ix; intros; subst; contradiction|exact Ix]. }
  rewrite Eb. apply same_refl.
Qed.

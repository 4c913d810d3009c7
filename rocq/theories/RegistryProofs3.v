From Verif Require Import Base BaseFacts FrameModel FrameProofs5 CmModel CmProofs CmProofs5 RegistryModel RegistrySpec RegistryProofs RegistryProofs2.
From Coq Require Import Strings.String Strings.Ascii Permutation Sorted NArith.
Local Open Scope Z_scope.
Local Open Scope list_scope.

(** ** Strings in descending order *)
Lemma leb_cons c s c' s' : String.leb (String c s) (String c' s') = true <->
  (N_of_ascii c < N_of_ascii c')%N \/ (c = c' /\ String.leb s s' = true).
Proof.
  unfold String.leb. cbn [String.compare]. unfold Ascii.compare.
  destruct (N.compare_spec (N_of_ascii c) (N_of_ascii c')) as [E|E|E].
  - assert (c = c') by (rewrite <- (ascii_N_embedding c), E; apply ascii_N_embedding). subst. split; [auto|].
    intros [H|[_ H]]; auto. lia.
  - split; auto.
  - split; [discriminate|]. intros [H|[-> H]]; lia.
Qed.
Lemma leb_trans a : forall b c, String.leb a b = true -> String.leb b c = true -> String.leb a c = true.
Proof.
  induction a as [|x a IH]; intros b c H1 H2; [destruct c; reflexivity|].
  destruct b as [|y b]; [discriminate|]. destruct c as [|z c]; [discriminate|].
  apply leb_cons in H1, H2. apply leb_cons. destruct H1 as [H1|[-> H1]], H2 as [H2|[-> H2]]; auto.
  - left. lia.
  - right. split; auto. eauto.
Qed.
Lemma leb_refl a : String.leb a a = true.
Proof. destruct (String.leb_total a a); auto. Qed.

Definition desc (p q : string * Z) : Prop := String.leb (fst q) (fst p) = true.
Lemma insert_desc_perm p l : Permutation (insert_desc p l) (p :: l).
Proof.
  induction l as [|q t IH]; cbn; [reflexivity|]. destruct (String.leb _ _); [reflexivity|]. rewrite IH. apply perm_swap.
Qed.
Lemma sort_desc_perm d : Permutation (fold_right insert_desc [] d) d.
Proof. induction d as [|p d IH]; cbn; [reflexivity|]. rewrite insert_desc_perm. now constructor. Qed.
Lemma insert_desc_sorted p l : StronglySorted desc l -> StronglySorted desc (insert_desc p l).
Proof.
  induction 1 as [|q t S IH F]; cbn; [repeat constructor|]. destruct (String.leb (fst q) (fst p)) eqn:E.
  - constructor; [constructor; auto|]. constructor; [exact E|]. rewrite Forall_forall in *. intros r Hr.
    unfold desc in *. eapply leb_trans; [now apply F|exact E].
  - constructor; auto. rewrite Forall_forall in *. intros r Hr. apply (Permutation_in _ (insert_desc_perm p t)) in Hr.
    destruct Hr as [<-|Hr]; auto. unfold desc. destruct (String.leb_total (fst p) (fst q)); congruence.
Qed.
Lemma sort_desc_sorted d : StronglySorted desc (fold_right insert_desc [] d).
Proof. induction d; cbn; [constructor|]. now apply insert_desc_sorted. Qed.

(** ** The versions of one format *)
Definition newer (w : world) (x y : Z) : Prop := w_ver w x <> w_ver w y /\ String.leb (w_ver w y) (w_ver w x) = true.

Lemma newest_first_spec w m R f : tables w m R -> let l := newest_first (get_list f (m_vers m)) in
  NoDup l /\ (forall x, In x l <-> In x R /\ format_of w x = f) /\ StronglySorted (newer w) l.
Proof.
  intros T l. pose proof (t_inner _ _ _ T f) as N. set (d := get_list f (m_vers m)) in *.
  assert (IN : forall v x, In (v, x) d <-> In x R /\ key w x = (f, v)).
  { intros v x. rewrite <- (t_vers _ _ _ T f v x). fold d. split; [now apply in_assoc|apply assoc_in]. }
  unfold l, newest_first. set (s := fold_right insert_desc [] d).
  assert (P : Permutation s d) by apply sort_desc_perm.
  assert (SS : StronglySorted desc s) by apply sort_desc_sorted.
  assert (NS : NoDup (map fst s)) by (eapply Permutation_NoDup; [|exact N]; apply Permutation_map; now symmetry).
  assert (IS : forall v x, In (v, x) s -> In x R /\ key w x = (f, v)).
  { intros v x H. apply IN. eapply Permutation_in; eauto. }
  assert (IX : forall x, In x (map snd s) <-> In x R /\ format_of w x = f).
  { intros x. split.
    - intros H. apply in_map_iff in H as ([v y] & E & H). cbn in E. subst y. apply IS in H as [H K]. split; auto. unfold key in K. congruence.
    - intros [H E]. apply in_map_iff. exists (w_ver w x, x). split; auto. eapply Permutation_in; [symmetry; exact P|].
      apply IN. split; auto. unfold key. now rewrite E. }
  split; [|split; auto].
  - clearbody s. clear SS IX P. induction s as [|[v x] s IH]; [constructor|]. cbn in *. inversion NS as [|? ? NI NS']; subst.
    constructor; [|apply IH; auto]. intros H. apply in_map_iff in H as ([v' y] & E & H). cbn in E. subst y.
    destruct (IS v x) as [_ K1]; auto. destruct (IS v' x) as [_ K2]; auto. apply NI.
    assert (v = v') by congruence. subst. change v' with (fst (v', x)). now apply in_map.
  - clearbody s. clear IX P. induction s as [|[v x] s IH]; [constructor|]. cbn [map snd]. inversion NS as [|? ? NI NS']; subst.
    inversion SS as [|? ? SS' F]; subst. constructor; [apply IH; auto; intros; apply IS; right; auto|].
    apply Forall_forall. intros y Hy. apply in_map_iff in Hy as ([v' y'] & E & H). cbn in E. subst y'.
    destruct (IS v x) as [_ K1]; [left; auto|]. destruct (IS v' y) as [_ K2]; [right; auto|].
    assert (w_ver w x = v) by (unfold key in K1; congruence). assert (w_ver w y = v') by (unfold key in K2; congruence).
    unfold newer. split.
    + intros E. apply NI. cbn. assert (v = v') by congruence. subst v. rewrite H2. change v' with (fst (v', y)). now apply in_map.
    + rewrite Forall_forall in F. specialize (F _ H). unfold desc in F. cbn in F. congruence.
Qed.

(** ** The prioritised list *)
Lemma firstn_skipn_perm {A} (ls : list (list A)) n :
  Permutation (List.concat (map (firstn n) ls) ++ List.concat (map (skipn n) ls)) (List.concat ls).
Proof.
  induction ls as [|l ls IH]; cbn; [constructor|]. rewrite <- IH. rewrite <- (firstn_skipn n l) at 3. rewrite <- !app_assoc.
  apply Permutation_app_head. rewrite !app_assoc. apply Permutation_app_tail. apply Permutation_app_comm.
Qed.
Lemma NoDup_concat_by {A} (g : A -> string) (fs : list string) (L : string -> list A) :
  NoDup fs -> (forall f, In f fs -> NoDup (L f)) -> (forall f x, In f fs -> In x (L f) -> g x = f) ->
  NoDup (List.concat (map L fs)).
Proof.
  induction fs as [|f fs IH]; intros N D G; cbn; [constructor|]. inversion N as [|? ? NI N']; subst.
  apply NoDup_app_intro; [apply D; left; auto|apply IH; auto; intros; [apply D|apply G]; auto; right; auto|].
  intros x Hx C. apply in_concat in C as (l & Hl & C). apply in_map_iff in Hl as (f' & <- & Hf').
  apply NI. rewrite <- (G f x); [|left; auto|auto]. rewrite (G f' x); auto. right; auto.
Qed.

Lemma in_concat_map {A B} (F : A -> list B) l y : In y (List.concat (map F l)) <-> exists x, In x l /\ In y (F x).
Proof.
  rewrite in_concat. split.
  - intros (z & Hz & Hy). apply in_map_iff in Hz as (x & <- & Hx). eauto.
  - intros (x & Hx & Hy). exists (F x). split; auto. now apply in_map.
Qed.

Lemma maybe_ranked w m R k : tables w m R -> NoDup k ->
  let lists := map (fun f => newest_first (get_list f (m_vers m))) k in
  let maybe := List.concat (map (firstn 1) lists) ++ List.concat (map (skipn 1) lists) in
  NoDup maybe /\ (forall x, In x maybe <-> In x R /\ In (format_of w x) k) /\
  forall keep, ranked w R (filter keep maybe).
Proof.
  intros T N lists maybe.
  pose proof (fun f => newest_first_spec w m R f T) as NF. cbv zeta in NF.
  assert (P : Permutation maybe (List.concat lists)) by apply firstn_skipn_perm.
  assert (IC : forall x, In x (List.concat lists) <-> In x R /\ In (format_of w x) k).
  { intros x. unfold lists. rewrite in_concat_map. split.
    - intros (f & Hf & Hx). destruct (NF f) as (_ & I & _). apply I in Hx as [Hx <-]. auto.
    - intros [Hx Hf]. exists (format_of w x). split; auto. destruct (NF (format_of w x)) as (_ & I & _). apply I. auto. }
  split; [|split].
  - eapply Permutation_NoDup; [symmetry; exact P|]. apply (NoDup_concat_by (format_of w)); auto.
    + intros f _. apply NF.
    + intros f x _ Hx. destruct (NF f) as (_ & I & _). now apply I in Hx.
  - intros x. rewrite <- IC. split; apply Permutation_in; [auto|now symmetry].
  - intros keep. unfold maybe. rewrite filter_app.
    assert (HEAD : forall f x, In x (firstn 1 (newest_first (get_list f (m_vers m)))) ->
              format_of w x = f /\ forall y, In y R -> format_of w y = f -> String.leb (w_ver w y) (w_ver w x) = true).
    { intros f x Hx. destruct (NF f) as (_ & I & S). destruct (newest_first (get_list f (m_vers m))) as [|x0 t] eqn:E; [destruct Hx|].
      destruct Hx as [<-|[]]. split; [apply I; left; auto|]. intros y Hy Fy.
      assert (In y (x0 :: t)) as [<-|H] by (apply I; auto); [apply leb_refl|].
      inversion S as [|? ? _ F]; subst. rewrite Forall_forall in F. apply (F y H). }
    assert (TAIL : forall f y, In y (skipn 1 (newest_first (get_list f (m_vers m)))) ->
              exists x, In x R /\ format_of w x = format_of w y /\ w_ver w x <> w_ver w y /\ String.leb (w_ver w y) (w_ver w x) = true).
    { intros f y Hy. destruct (NF f) as (_ & I & S). destruct (newest_first (get_list f (m_vers m))) as [|x0 t] eqn:E; [destruct Hy|].
      cbn in Hy. assert (X : In x0 (x0 :: t)) by (left; auto). apply I in X as [X1 X2].
      assert (Y : In y (x0 :: t)) by (right; auto). apply I in Y as [Y1 Y2].
      inversion S as [|? ? _ F]; subst. rewrite Forall_forall in F. destruct (F y Hy) as [N1 N2]. exists x0. split; [auto|split; [congruence|auto]]. }
    exists (filter keep (List.concat (map (firstn 1) lists))), (filter keep (List.concat (map (skipn 1) lists))).
    split; [auto|]. unfold lists. rewrite !map_map. split; [|split].
    + clear P IC maybe lists TAIL. induction k as [|f k IH]; cbn [map List.concat]; [constructor|]. inversion N as [|? ? NI N']; subst.
      rewrite filter_app, map_app.
      assert (H1 : forall x, In x (map (format_of w) (filter keep (firstn 1 (newest_first (get_list f (m_vers m)))))) -> x = f).
      { intros x Hx. apply in_map_iff in Hx as (y & <- & Hy). apply filter_In in Hy as [Hy _]. now apply HEAD. }
      apply NoDup_app_intro; auto.
      * destruct (newest_first (get_list f (m_vers m))) as [|x0 t]; cbn; [constructor|]. destruct (keep x0); cbn; repeat constructor; auto.
      * intros x Hx C. apply H1 in Hx. subst x. apply NI. apply in_map_iff in C as (y & E & Hy). apply filter_In in Hy as [Hy _].
        apply in_concat_map in Hy as (f' & Hf' & Hy). apply HEAD in Hy as [Hy _]. congruence.
    + intros x y Hx Hy E. apply filter_In in Hx as [Hx _]. apply in_concat_map in Hx as (f & Hf & Hx). destruct (HEAD f x Hx) as [E1 HH].
      apply HH; [|congruence].
      assert (In y maybe).
      { unfold maybe, lists. rewrite !map_map. rewrite <- filter_app in Hy. now apply filter_In in Hy. }
      apply (Permutation_in _ P) in H. now apply IC in H.
    + intros y Hy. apply filter_In in Hy as [Hy _]. apply in_concat_map in Hy as (f & _ & Hy). now apply (TAIL f).
Qed.

From Verif Require Import Base BaseFacts FrameModel FrameProofs5 CmModel CmProofs CmProofs5 RegistryModel RegistrySpec RegistryProofs.
From Coq Require Import Strings.String Permutation Sorted.
Local Open Scope Z_scope.
Local Open Scope list_scope.

Lemma tables_ext w m m' R : (forall f, get_list f (m_vers m') = get_list f (m_vers m)) -> NoDup (map fst (m_vers m')) ->
  (forall e, get_list e (m_exts m') = get_list e (m_exts m)) -> m_types m' = m_types m -> m_ids m' = m_ids m ->
  tables w m R -> tables w m' R.
Proof.
  intros A B C D E [T1 T2 T3 T4 T5 T6 T7 T8 T9]. split; auto.
  - intros. now rewrite A.
  - intros. rewrite A. auto.
  - intros. now rewrite E.
  - intros. now rewrite C.
  - intros. now rewrite D.
  - intros. now rewrite D.
  - now rewrite D.
Qed.

(** The order of the list tried when nothing else is known. *)
Definition ranked (w : world) (R l : list Z) : Prop := exists a b, l = a ++ b /\ NoDup (map (format_of w) a) /\
  (forall x y, In x a -> In y l -> format_of w x = format_of w y -> String.leb (w_ver w y) (w_ver w x) = true) /\
  (forall y, In y b -> exists x, In x R /\ format_of w x = format_of w y /\ w_ver w x <> w_ver w y /\
     String.leb (w_ver w y) (w_ver w x) = true).

Record inv (w : world) (m : mgr) (R : list Z) : Prop := mkInv
  { i_tables : tables w m R;
    i_known : forall k, m_known m = Some k -> NoDup k;
    i_by : forall t l, In (t, Some l) (m_bytype m) -> incl l R;
    i_prio : forall t l, In (t, l) (m_prio m) -> NoDup l /\ incl l R /\ ranked w R l;
    i_got : forall q x, In (q, Some x) (m_got m) -> In x R }.

Lemma ranked_mono w R R' l : incl R R' -> ranked w R l -> ranked w R' l.
Proof.
  intros H (a & b & E & N & A & B). exists a, b. repeat split; auto. intros y Hy. destruct (B y Hy) as (x & Hx & K). exists x. auto.
Qed.

Lemma inv_empty w : inv w empty_mgr [].
Proof. split; [apply empty_tables|..]; cbn; try discriminate; intros ? ? []. Qed.

Lemma register_fields w m x : m_failed (register w m x) = m_failed m /\ m_known (register w m x) = m_known m /\
  m_loads (register w m x) = m_loads m /\ m_bytype (register w m x) = m_bytype m /\
  m_prio (register w m x) = m_prio m /\ m_got (register w m x) = m_got m.
Proof. unfold register. destruct (existsb _ _); cbn; auto 10. Qed.

Lemma register_inv w m R x : inv w m R -> inv w (register w m x) (add_reader w R x).
Proof.
  intros [T K B P G]. destruct (register_fields w m x) as (_ & E1 & _ & E2 & E3 & E4).
  assert (S : incl R (add_reader w R x)) by (intros y Hy; exact (add_readers_sub w [x] R y Hy)).
  split; [now apply register_tables|..].
  - now rewrite E1.
  - rewrite E2. intros t l H y Hy. apply S. eapply B; eauto.
  - rewrite E3. intros t l H. destruct (P t l H) as (P1 & P2 & P3). split; auto. split.
    + intros y Hy. auto.
    + eapply ranked_mono; eauto.
  - rewrite E4. intros q y H. apply S. eauto.
Qed.
Lemma registers_inv w log m R : inv w m R -> inv w (fold_left (register w) log m) (add_readers w R log).
Proof. revert m R. induction log as [|x log IH]; intros m R H; cbn; auto. apply IH. now apply register_inv. Qed.

Lemma cached_in {A} t (l : list (option string * A)) a : cached t l = Some a -> In (t, a) l.
Proof.
  induction l as [|[t' b] l IH]; cbn; [discriminate|]. destruct (opt_eqb t t') eqn:E.
  - intros [= ->]. left. f_equal. destruct t, t'; cbn in E; try discriminate; auto. apply String.eqb_eq in E. now subst.
  - intros H. right. auto.
Qed.

Section Facts.
  Variable w : world.
  Variable eps : eps_t.
  Variable order : list string -> list string.
  Hypothesis order_ok : set_order order.

  Definition from_plugins (l : list Z) : Prop := forall x, In x l -> plugin eps x.

  Lemma known_inv m R k m' : inv w m R -> known eps m = (k, m') -> inv w m' R /\ NoDup k /\
    m_known m' = Some k /\ m_vers m' = m_vers m /\ m_exts m' = m_exts m /\ m_types m' = m_types m /\ m_failed m' = m_failed m /\
    m_loads m' = m_loads m /\ m_bytype m' = m_bytype m /\ m_prio m' = m_prio m.
  Proof.
    intros I. unfold known. destruct (m_known m) as [k0|] eqn:E.
    - intros [= <- <-]. split; auto. split; [eapply i_known; eauto|auto 10].
    - intros [= <- <-]. destruct I as [T K B P G]. split; [|split; [apply NoDup_nodup|cbn; auto 10]].
      split; cbn; auto; [|intros k' [= <-]; apply NoDup_nodup].
      apply (tables_ext w m); auto. apply (t_fmts _ _ _ T).
  Qed.

  Lemma load_one_inv m R form : inv w m R -> inv w (load_one w eps m form) (add_readers w R (entries_of eps form)).
  Proof.
    intros I. unfold load_one. set (m1 := fold_left (register w) (entries_of eps form) m).
    pose proof (registers_inv w (entries_of eps form) m R I) as I1. fold m1 in I1.
    destruct (mem form (map fst (m_vers m1))); auto. destruct I1 as [T K B P G]. split; auto.
    apply (tables_ext w m1); auto. apply (t_fmts _ _ _ T).
  Qed.
  Lemma load_many_inv forms m R : inv w m R ->
    inv w (fold_left (load_one w eps) forms m) (add_readers w R (List.concat (map (entries_of eps) forms))).
  Proof.
    revert m R. induction forms as [|f t IH]; intros m R I; cbn [fold_left map List.concat]; [exact I|]. rewrite add_readers_app. apply IH. now apply load_one_inv.
  Qed.
  Lemma entries_plugins form : from_plugins (entries_of eps form).
  Proof.
    intros x H. unfold entries_of in H. apply in_concat in H as (l & Hl & Hx). apply in_map_iff in Hl as (e & <- & He).
    apply filter_In in He as [He _]. exists e. auto.
  Qed.
  Lemma concat_plugins forms : from_plugins (List.concat (map (entries_of eps) forms)).
  Proof.
    intros x H. apply in_concat in H as (l & Hl & Hx). apply in_map_iff in Hl as (f & <- & _). now apply (entries_plugins f).
  Qed.

  Lemma load_body_inv m R fmt : inv w m R -> exists extra, from_plugins extra /\
    inv w (load_body w eps m fmt) (add_readers w R extra).
  Proof.
    intros I. unfold load_body. assert (Z0 : from_plugins []) by intros x [].
    destruct (match fmt with Some f => mem f (map fst (m_vers m)) | None => false end); [exists []; auto|].
    unfold unloaded. destruct (known eps m) as [k m1] eqn:E. destruct (known_inv m R k m1 I E) as [I1 _].
    destruct (sort_strs _) as [|u0 u] eqn:U; [exists []; auto|].
    eexists. split; [apply concat_plugins|]. apply load_many_inv; eauto.
  Qed.
  Lemma load_inv m R fmt : inv w m R -> exists extra, from_plugins extra /\ inv w (load w eps m fmt) (add_readers w R extra).
  Proof.
    intros I. unfold load. destruct (existsb _ _); [exists []; split; auto; intros x []|].
    destruct (load_body_inv m R fmt I) as (extra & P & I1). exists extra. split; auto.
    destruct I1 as [T K B PR G]. split; auto. apply (tables_ext w (load_body w eps m fmt)); auto. apply (t_fmts _ _ _ T).
  Qed.

  Lemma concat_types m R : tables w m R -> incl (List.concat (map snd (m_types m))) R.
  Proof.
    intros T x H. apply in_concat in H as (l & Hl & Hx). apply in_map_iff in Hl as ([s l'] & <- & Hs). cbn in Hx.
    pose proof (t_types _ _ _ T s) as E. unfold get_list in E. rewrite (in_assoc s l' (m_types m)) in E; auto; [|apply (t_tnd _ _ _ T)].
    rewrite E in Hx. now apply filter_In in Hx.
  Qed.
  Lemma concat_types_all m R x : tables w m R -> In x R -> In x (List.concat (map snd (m_types m))).
  Proof.
    intros T H. pose proof (t_types _ _ _ T (w_type w x)) as E. unfold get_list in E.
    assert (Hx : In x (filter (fun y => String.eqb (w_type w y) (w_type w x)) R)) by (apply filter_In; split; auto; apply String.eqb_refl).
    destruct (assoc (w_type w x) (m_types m)) as [l|] eqn:A; [|rewrite <- E in Hx; destruct Hx].
    apply in_concat. exists l. split; [|now rewrite E]. apply in_map_iff. exists (w_type w x, l). split; auto.
    now apply assoc_in.
  Qed.

  Lemma by_type_inv m R t l m' : inv w m R -> by_type m t = (l, m') -> inv w m' R /\ incl l R /\
    m_vers m' = m_vers m /\ m_exts m' = m_exts m /\ m_types m' = m_types m /\ m_loads m' = m_loads m /\ m_known m' = m_known m /\
    m_failed m' = m_failed m /\ m_prio m' = m_prio m.
  Proof.
    intros I. pose proof I as [T K B P G]. unfold by_type.
    assert (OT : incl (of_type m t) R).
    { unfold of_type. destruct t as [s|]; [|intros x []]. rewrite (t_types _ _ _ T s). intros x H. now apply filter_In in H. }
    destruct (cached t (m_bytype m)) as [[l0|]|] eqn:C.
    - intros [= <- <-]. split; auto. split; [|auto 10]. apply (B t). now apply cached_in.
    - intros [= <- <-]. auto 10.
    - destruct (match t with Some s => mem s (map fst (m_types m)) | None => false end).
      + intros [= <- <-]. split; [|cbn; auto 10]. split; cbn; auto.
        * apply (tables_ext w m); auto. apply (t_fmts _ _ _ T).
        * intros t0 l0 H. apply in_app_or in H as [H|[[=]|[]]]. eauto.
      + intros [= <- <-]. assert (IC : incl (List.concat (map snd (m_types m))) R) by (eapply concat_types; eauto).
        split; [|cbn; auto 10]. split; cbn; auto.
        * apply (tables_ext w m); auto. apply (t_fmts _ _ _ T).
        * intros t0 l0 H. apply in_app_or in H as [H|[[= <- <-]|[]]]; eauto.
  Qed.
End Facts.

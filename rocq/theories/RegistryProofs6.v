From Verif Require ChunkProofs3.
From Verif Require Import Base BaseFacts FrameModel FrameProofs FrameProofs5 CmModel CmProofs CmProofs5 RegistryModel RegistrySpec RegistryProofs RegistryProofs2 RegistryProofs3 RegistryProofs4 RegistryProofs5.
From Coq Require Import Strings.String Permutation Sorted.
Local Open Scope Z_scope.
Local Open Scope list_scope.

Definition fkeys (m : mgr) : list string := map fst (m_vers m).

Lemma register_keys w m x f : In f (fkeys (register w m x)) -> In f (fkeys m) \/ f = format_of w x.
Proof.
  unfold register, fkeys. destruct (existsb _ _); auto. cbn [m_vers]. rewrite in_keys_set. intros [->|H]; auto.
Qed.
Lemma register_keys_mono w m x f : In f (fkeys m) -> In f (fkeys (register w m x)).
Proof. unfold register, fkeys. destruct (existsb _ _); auto. cbn [m_vers]. rewrite in_keys_set. auto. Qed.
Lemma registers_keys w log : forall m f, In f (fkeys (fold_left (register w) log m)) -> In f (fkeys m) \/ exists x, In x log /\ f = format_of w x.
Proof.
  induction log as [|x log IH]; intros m f; cbn; auto. intros H. apply IH in H as [H|(y & Hy & E)]; [|right; eauto].
  apply register_keys in H as [H|H]; eauto.
Qed.
Lemma registers_keys_mono w log : forall m f, In f (fkeys m) -> In f (fkeys (fold_left (register w) log m)).
Proof. induction log as [|x log IH]; intros m f H; cbn; auto. apply IH. now apply register_keys_mono. Qed.
Lemma registers_fields w log : forall m, m_failed (fold_left (register w) log m) = m_failed m /\ m_known (fold_left (register w) log m) = m_known m /\
  m_loads (fold_left (register w) log m) = m_loads m /\ m_bytype (fold_left (register w) log m) = m_bytype m /\
  m_prio (fold_left (register w) log m) = m_prio m.
Proof.
  induction log as [|x log IH]; intros m; cbn; [auto|]. destruct (IH (register w m x)) as (A & B & C & D & E).
  destruct (register_fields w m x) as (A' & B' & C' & D' & E' & _). repeat split; congruence.
Qed.

(** ** The assertion at the end of load_plugins *)
Lemma load_one_mono w eps m form f : In f (fkeys m) \/ In f (m_failed m) ->
  In f (fkeys (load_one w eps m form)) \/ In f (m_failed (load_one w eps m form)).
Proof.
  intros H. unfold load_one. set (m1 := fold_left _ _ m).
  assert (H1 : In f (fkeys m1) \/ In f (m_failed m1)).
  { unfold m1. rewrite (proj1 (registers_fields w _ m)). destruct H; auto. left. now apply registers_keys_mono. }
  destruct (mem form (map fst (m_vers m1))); auto. cbn. destruct H1; auto. right. apply in_or_app; auto.
Qed.
Lemma load_one_marks w eps m form : In form (fkeys (load_one w eps m form)) \/ In form (m_failed (load_one w eps m form)).
Proof.
  unfold load_one. set (m1 := fold_left _ _ m). destruct (mem form (map fst (m_vers m1))) eqn:M; [left; now apply mem_In'|].
  right. cbn. apply in_or_app. right. left; auto.
Qed.
Lemma load_many_marks w eps forms : forall m f, In f forms \/ In f (fkeys m) \/ In f (m_failed m) ->
  In f (fkeys (fold_left (load_one w eps) forms m)) \/ In f (m_failed (fold_left (load_one w eps) forms m)).
Proof.
  induction forms as [|g t IH]; intros m f H; cbn; [destruct H as [[]|H]; auto|]. apply IH.
  destruct H as [[->|H]|H]; auto.
  - right. apply load_one_marks.
  - right. now apply load_one_mono.
Qed.
Lemma is_unloaded_spec m f : is_unloaded m f = true <-> ~ In f (fkeys m) /\ ~ In f (m_failed m).
Proof.
  unfold is_unloaded. rewrite Bool.andb_true_iff, !Bool.negb_true_iff, !mem_false. reflexivity.
Qed.
Lemma in_unloaded eps m f : In f (fst (unloaded eps m)) <-> In f (fst (known eps m)) /\ ~ In f (fkeys m) /\ ~ In f (m_failed m).
Proof.
  unfold unloaded. destruct (known eps m) as [k m1] eqn:K. cbn [fst].
  assert (E : fkeys m1 = fkeys m /\ m_failed m1 = m_failed m) by (unfold known in K; destruct (m_known m); injection K as _ <-; auto).
  destruct E as [E1 E2]. split.
  - intros H. apply (Permutation_in _ (sort_strs_perm _)) in H. apply filter_In in H as [H U]. apply is_unloaded_spec in U. rewrite E1, E2 in U. auto.
  - intros (H & U1 & U2). apply (Permutation_in _ (Permutation_sym (sort_strs_perm _))). apply filter_In. split; auto. apply is_unloaded_spec.
    rewrite E1, E2. auto.
Qed.
Lemma load_assertion w eps m fmt f :
  match fmt with Some g => f = g | None => In f (fst (unloaded eps m)) end ->
  fst (unloaded eps m) <> [] ->
  ~ In f (fst (unloaded eps (load_body w eps m fmt))).
Proof.
  intros H NE C. apply in_unloaded in C as (_ & C1 & C2). revert C1 C2. unfold load_body.
  destruct (match fmt with Some g => mem g (map fst (m_vers m)) | None => false end) eqn:M.
  { destruct fmt as [g|]; [|discriminate]. subst f. intros C1 _. apply C1. now apply mem_In'. }
  destruct (unloaded eps m) as [u m1]. cbn [fst] in *. destruct u as [|u0 u]; [contradiction|]. intros C1 C2.
  destruct (load_many_marks w eps (match fmt with Some g => [g] | None => u0 :: u end) m1 f); auto.
  left. destruct fmt; [subst; left; auto|auto].
Qed.

(** ** Managers that only ever serve requests *)
Section Plugins.
  Variable w : world.
  Variable eps : eps_t.
  Variable order : list string -> list string.
  Hypothesis order_ok : set_order order.
  Hypothesis coh : coherent w eps.
  Notation plugin := (plugin eps).
  Notation fmt := (format_of w).

  Record pinv (m : mgr) (R : list Z) : Prop := mkPinv
    { p_inv : inv w m R;
      p_sub : forall x, In x R -> plugin x;
      p_keys : forall f y, In f (fkeys m) -> plugin y -> fmt y = f -> In y R;
      p_failed : forall f y, In f (m_failed m) -> plugin y -> fmt y <> f;
      p_known : forall k, m_known m = Some k -> forall e, In e eps -> In (ep_format (fst e)) k;
      p_loads : forall F y, In (Some F) (m_loads m) -> plugin y -> fmt y = F -> In y R;
      p_all : forall y, In None (m_loads m) -> plugin y -> In y R;
      p_by : forall t l, In (t, l) (m_bytype m) ->
        match l with
        | Some l => (forall x, In x l <-> plugin x) /\ (forall s y, t = Some s -> plugin y -> w_type w y <> s)
        | None => exists s y, t = Some s /\ plugin y /\ w_type w y = s
        end;
      p_prio : forall t l, In (t, l) (m_prio m) -> forall x, In x l <-> plugin x /\ fits w eps t x }.

  Lemma pinv_empty : pinv empty_mgr [].
  Proof. split; [apply inv_empty|..]; cbn; try discriminate; try tauto. Qed.

  Lemma in_fkeys m R x : inv w m R -> In x R -> In (fmt x) (fkeys m).
  Proof.
    intros I H. pose proof (proj2 (t_vers _ _ _ (i_tables _ _ _ I) (fmt x) (w_ver w x) x) (conj H eq_refl)) as A.
    unfold fkeys. apply assoc_In. unfold get_list in A. destruct (assoc (fmt x) (m_vers m)); eauto. discriminate.
  Qed.
  Lemma in_entries form e x : In e eps -> str_prefix form (fst e) = true -> In x (snd e) -> In x (entries_of eps form).
  Proof.
    intros He P Hx. unfold entries_of. apply in_concat. exists (snd e). split; auto. apply in_map. apply filter_In. auto.
  Qed.
  Lemma in_entries_inv form x : In x (entries_of eps form) -> exists e, In e eps /\ str_prefix form (fst e) = true /\ In x (snd e).
  Proof.
    unfold entries_of. intros H. apply in_concat in H as (l & Hl & Hx). apply in_map_iff in Hl as (e & <- & He).
    apply filter_In in He as [He P]. eauto.
  Qed.
  Lemma added R log x : (forall y, In y R -> plugin y) -> (forall y, In y log -> plugin y) -> In x log -> In x (add_readers w R log).
  Proof.
    intros PR PL H. destruct (add_readers_key w log R x H) as (y & Hy & K). 
    assert (plugin y) by (apply add_readers_in in Hy as [?|?]; auto).
    destruct coh as (_ & C2 & _). rewrite <- (C2 y x); auto.
  Qed.
  Lemma prefix_refl_format s : str_prefix (ep_format s) s = true.
  Proof.
    induction s as [|c s IH]; [reflexivity|]. cbn [ep_format]. destruct (str_prefix "__" (String c s)); [reflexivity|].
    cbn [str_prefix]. rewrite Ascii.eqb_refl. exact IH.
  Qed.
  Lemma own_entries y : plugin y -> In y (entries_of eps (fmt y)).
  Proof.
    intros H. destruct coh as (C1 & _). destruct (C1 y H) as (e & He & Hy & E). apply (in_entries _ e); auto.
    rewrite <- E. apply prefix_refl_format.
  Qed.

  Lemma load_one_pinv m R form : pinv m R -> pinv (load_one w eps m form) (add_readers w R (entries_of eps form)).
  Proof.
    intros [I PS PK PF PN PL PA PB PP].
    pose proof (load_one_inv w eps m R form I) as I'. pose proof (entries_plugins eps form) as EP.
    set (R' := add_readers w R (entries_of eps form)) in *.
    assert (S : forall x, In x R -> In x R') by (intros; now apply add_readers_sub).
    assert (PS' : forall x, In x R' -> plugin x) by (intros x Hx; apply add_readers_in in Hx as [?|?]; auto).
    assert (AD : forall x, In x (entries_of eps form) -> In x R') by (intros; now apply added).
    set (m1 := fold_left (register w) (entries_of eps form) m).
    destruct (registers_fields w (entries_of eps form) m) as (E1 & E2 & E3 & E4 & E5). fold m1 in E1, E2, E3, E4, E5.
    assert (PK1 : forall f y, In f (fkeys m1) -> plugin y -> fmt y = f -> In y R').
    { intros f y Hf Hy Ef. apply registers_keys in Hf as [Hf|(x & Hx & ->)]; eauto.
      apply in_entries_inv in Hx as (e & He & P & Hx). destruct coh as (_ & _ & C3).
      apply AD. apply (in_entries _ e); auto. eapply C3; eauto. }
    assert (LO : load_one w eps m form = if mem form (fkeys m1) then m1 else add_failed form m1) by reflexivity.
    rewrite LO in *. clear LO.
    assert (F : mem form (fkeys m1) = false -> forall y, plugin y -> fmt y <> form).
    { intros M y Hy E. apply mem_false in M. apply M. rewrite <- E.
      apply (in_fkeys m1 R'); [unfold m1, R'; now apply registers_inv|]. apply AD. rewrite <- E. now apply own_entries. }
    assert (FF : forall (m2 : mgr), m_known m2 = m_known m -> m_loads m2 = m_loads m -> m_bytype m2 = m_bytype m -> m_prio m2 = m_prio m ->
              fkeys m2 = fkeys m1 -> (forall f y, In f (m_failed m2) -> plugin y -> fmt y <> f) -> inv w m2 R' -> pinv m2 R').
    { intros m2 A1 A2 A3 A4 A5 A6 A7. split; auto.
      - now rewrite A5.
      - now rewrite A1.
      - rewrite A2. intros F0 y H1 H2 H3. apply S. eapply PL; eauto.
      - rewrite A2. intros y H1 H2. apply S. eauto.
      - now rewrite A3.
      - now rewrite A4. }
    destruct (mem form (fkeys m1)); apply FF; auto.
    - now rewrite E1.
    - cbn. intros f y Hf Hy. rewrite E1 in Hf. apply in_app_or in Hf as [Hf|[<-|[]]]; auto.
  Qed.
  Lemma import_pinv m R e : In e eps -> pinv m R -> pinv (fold_left (register w) (snd e) m) (add_readers w R (snd e)).
  Proof.
    intros He [I PS PK PF PN PL PA PB PP].
    destruct (registers_fields w (snd e) m) as (E1 & E2 & E3 & E4 & E5).
    assert (EP : forall x, In x (snd e) -> plugin x) by (intros x Hx; exists e; auto).
    assert (S : forall x, In x R -> In x (add_readers w R (snd e))) by (intros; now apply add_readers_sub).
    split.
    - now apply registers_inv.
    - intros x Hx. apply add_readers_in in Hx as [?|?]; auto.
    - intros f y Hf Hy Ef. apply registers_keys in Hf as [Hf|(x & Hx & ->)]; eauto.
      apply added; auto. destruct coh as (_ & _ & C3). eapply C3; eauto.
    - now rewrite E1.
    - now rewrite E2.
    - rewrite E3. intros F0 y H1 H2 H3. apply S. eapply PL; eauto.
    - rewrite E3. intros y H1 H2. apply S. eauto.
    - now rewrite E4.
    - now rewrite E5.
  Qed.
  Lemma load_many_pinv forms : forall m R, pinv m R -> exists R', pinv (fold_left (load_one w eps) forms m) R' /\
    (forall x, In x R -> In x R') /\ (forall f y, In f forms -> plugin y -> fmt y = f -> In y R').
  Proof.
    induction forms as [|f t IH]; intros m R I; cbn [fold_left].
    { exists R. split; auto. split; auto. intros f y []. }
    pose proof (load_one_pinv m R f I) as I1. destruct (IH _ _ I1) as (R' & I2 & S & L). exists R'. split; auto. split.
    - intros x Hx. apply S. now apply add_readers_sub.
    - intros g y [<-|Hg] Hy E; [|eapply L; eauto]. apply S. apply added; auto.
      + apply (p_sub _ _ I).
      + apply entries_plugins.
      + rewrite <- E. now apply own_entries.
  Qed.
  Lemma known_pinv m R k m' : pinv m R -> known eps m = (k, m') -> pinv m' R /\ (forall e, In e eps -> In (ep_format (fst e)) k).
  Proof.
    intros [I PS PK PF PN PL PA PB PP] K. destruct (known_inv w eps m R k m' I K) as (I' & _ & EK & E1 & _ & _ & E2 & E3 & E4 & E5).
    assert (X : forall e, In e eps -> In (ep_format (fst e)) k).
    { unfold known in K. destruct (m_known m) as [k0|] eqn:E0.
      - injection K as <- <-. now apply PN.
      - injection K as <- _. intros e He. apply nodup_In. apply in_or_app. left. apply in_map_iff. eauto. }
    split; auto. split; auto.
    - unfold fkeys. now rewrite E1.
    - now rewrite E2.
    - intros k0 H. assert (k0 = k) as -> by congruence. auto.
    - now rewrite E3.
    - now rewrite E3.
    - now rewrite E4.
    - now rewrite E5.
  Qed.

  Lemma settled m R k : pinv m R -> (forall e, In e eps -> In (ep_format (fst e)) k) ->
    (forall f, In f k -> In f (fkeys m) \/ In f (m_failed m)) -> forall y, plugin y -> In y R.
  Proof.
    intros I K H y Hy. destruct coh as (C1 & _). destruct (C1 y Hy) as (e & He & _ & E). specialize (K e He). rewrite E in K.
    destruct (H _ K) as [X|X]; [eapply p_keys; eauto|]. exfalso. eapply p_failed; eauto.
  Qed.
  Lemma load_body_pinv m R f : pinv m R -> exists R', pinv (load_body w eps m f) R' /\ (forall x, In x R -> In x R') /\
    match f with Some F => forall y, plugin y -> fmt y = F -> In y R' | None => forall y, plugin y -> In y R' end.
  Proof.
    intros I. unfold load_body.
    destruct (match f with Some g => mem g (map fst (m_vers m)) | None => false end) eqn:M.
    { destruct f as [F|]; [|discriminate]. exists R. split; auto. split; auto. intros y Hy E. apply (p_keys _ _ I F); auto. now apply mem_In'. }
    unfold unloaded. destruct (known eps m) as [k m1] eqn:K. destruct (known_pinv m R k m1 I K) as [I1 KK].
    destruct (sort_strs (filter (is_unloaded m1) k)) as [|u0 u] eqn:U.
    - assert (ALL : forall y, plugin y -> In y R).
      { apply (settled m1 R k I1 KK). intros g Hg. destruct (is_unloaded m1 g) eqn:UG.
        - assert (X : In g (filter (is_unloaded m1) k)) by (apply filter_In; auto).
          apply (Permutation_in _ (Permutation_sym (sort_strs_perm _))) in X. rewrite U in X. destruct X.
        - destruct (in_dec string_dec g (fkeys m1)); auto. destruct (in_dec string_dec g (m_failed m1)); auto.
          assert (is_unloaded m1 g = true) by (apply is_unloaded_spec; auto). congruence. }
      exists R. split; auto. split; auto. destruct f; auto.
    - rewrite <- U in *. destruct f as [F|].
      + destruct (load_many_pinv [F] m1 R I1) as (R' & I2 & S & L). exists R'. split; auto. split; auto.
        intros y Hy E. apply (L F y); auto. left; auto.
      + destruct (load_many_pinv (sort_strs (filter (is_unloaded m1) k)) m1 R I1) as (R' & I2 & S & L). exists R'. split; auto. split; auto.
        apply (settled _ R' k I2 KK). intros g Hg. apply load_many_marks.
        destruct (is_unloaded m1 g) eqn:UG.
        * left. apply (Permutation_in _ (Permutation_sym (sort_strs_perm _))). apply filter_In. auto.
        * right. destruct (in_dec string_dec g (fkeys m1)); auto. destruct (in_dec string_dec g (m_failed m1)); auto.
          assert (is_unloaded m1 g = true) by (apply is_unloaded_spec; auto). congruence.
  Qed.
  Lemma opt_eqb_spec a b : opt_eqb a b = true <-> a = b.
  Proof.
    destruct a, b; cbn; try (split; congruence). rewrite String.eqb_eq. split; [now intros ->|now intros [= ->]].
  Qed.
  Lemma load_pinv m R f : pinv m R -> exists R', pinv (load w eps m f) R' /\ (forall x, In x R -> In x R') /\
    match f with Some F => forall y, plugin y -> fmt y = F -> In y R' | None => forall y, plugin y -> In y R' end.
  Proof.
    intros I. unfold load. destruct (existsb (opt_eqb f) (m_loads m)) eqn:E.
    - apply existsb_exists in E as (g & Hg & E). apply opt_eqb_spec in E. subst g. exists R. split; auto. split; auto.
      destruct f as [F|]; [intros y Hy Ef; eapply p_loads; eauto|intros y Hy; eapply p_all; eauto].
    - destruct (load_body_pinv m R f I) as (R' & I1 & S & L). exists R'. split; auto. destruct I1 as [J PS PK PF PN PL PA PB PP].
      split; auto.
      + destruct J as [T K B P Q]. split; auto. apply (tables_ext w (load_body w eps m f)); auto. apply (t_fmts _ _ _ T).
      + cbn. intros F y H. apply in_app_or in H as [H|[H|[]]]; [eapply PL; eauto|]. subst f. apply L.
      + cbn. intros y H. apply in_app_or in H as [H|[H|[]]]; [eapply PA; eauto|]. subst f. apply L.
  Qed.

  Lemma by_type_pinv m R t l m' : pinv m R -> (forall y, plugin y -> In y R) -> by_type m t = (l, m') ->
    pinv m' R /\ (forall x, In x l <-> plugin x /\ fits w eps t x) /\ m_vers m' = m_vers m /\ m_exts m' = m_exts m.
  Proof.
    intros I ALL E. pose proof I as [J PS PK PF PN PL PA PB PP].
    destruct (by_type_inv w m R t l m' J E) as (J' & _ & E1 & E2 & E3 & E4 & E5 & E6 & E7).
    assert (OT : forall s, get_list s (m_types m) = filter (fun x => String.eqb (w_type w x) s) R) by apply (t_types _ _ _ (i_tables _ _ _ J)).
    assert (X : (forall x, In x l <-> plugin x /\ fits w eps t x) /\ forall t0 l0, In (t0, l0) (m_bytype m') ->
        match l0 with
        | Some l => (forall x, In x l <-> plugin x) /\ (forall s y, t0 = Some s -> plugin y -> w_type w y <> s)
        | None => exists s y, t0 = Some s /\ plugin y /\ w_type w y = s
        end).
    { assert (LIVE : forall s y, plugin y -> w_type w y = s -> forall x, In x (get_list s (m_types m)) <-> plugin x /\ fits w eps (Some s) x).
      { intros s y Hy Ey x. rewrite OT, filter_In, String.eqb_eq. unfold fits. split.
        - intros [Hx Ex]. split; auto.
        - intros [Hx Fx]. split; auto. apply Fx. eauto. }
      assert (FROZEN : (forall s y, t = Some s -> plugin y -> w_type w y <> s) -> forall x, fits w eps t x).
      { intros H x. destruct t as [s|]; cbn; auto. intros (y & Hy & Ey). exfalso. eapply H; eauto. }
      unfold by_type in E. destruct (cached t (m_bytype m)) as [[l0|]|] eqn:C.
      - injection E as <- <-. split; auto. apply cached_in in C. apply PB in C as [C1 C2]. intros x. rewrite C1. split; [|tauto].
        intros H. split; auto.
      - injection E as <- <-. split; auto. apply cached_in in C. apply PB in C as (s & y & -> & Hy & Ey). cbn [of_type]. eapply LIVE; eauto.
      - destruct t as [s|].
        + destruct (mem s (map fst (m_types m))) eqn:M.
          * injection E as <- <-. apply mem_In' in M. apply (t_tkeys _ _ _ (i_tables _ _ _ J)) in M as (y & Hy & Ey).
            split; [cbn [of_type]; eapply LIVE; eauto|]. cbn. intros t0 l0 H. apply in_app_or in H as [H|[[= <- <-]|[]]]; [apply PB; auto|].
            exists s, y. auto.
          * injection E as <- <-. apply mem_false in M.
            assert (NT : forall s0 y, Some s = Some s0 -> plugin y -> w_type w y <> s0).
            { intros s0 y [= <-] Hy Ey. apply M. apply (t_tkeys _ _ _ (i_tables _ _ _ J)). exists y. auto. }
            assert (FR : forall x, In x (List.concat (map snd (m_types m))) <-> plugin x).
            { intros x. split; intros H; [apply PS; eapply concat_types; [apply J|auto]|eapply concat_types_all; [apply J|auto]]. }
            split; [intros x; rewrite FR; split; [auto|tauto]|].
            cbn. intros t0 l0 H. apply in_app_or in H as [H|[[= <- <-]|[]]]; [apply PB; auto|]. auto.
        + injection E as <- <-. 
          assert (FR : forall x, In x (List.concat (map snd (m_types m))) <-> plugin x).
          { intros x. split; intros H; [apply PS; eapply concat_types; [apply J|auto]|eapply concat_types_all; [apply J|auto]]. }
          split; [intros x; rewrite FR; cbn; tauto|].
          cbn. intros t0 l0 H. apply in_app_or in H as [H|[[= <- <-]|[]]]; [apply PB; auto|]. split; auto. discriminate. }
    destruct X as [X1 X2]. split; auto. split; auto.
    - now rewrite E6.
    - now rewrite E5.
    - now rewrite E7.
  Qed.

  Lemma prio_pinv m R t l m' : pinv m R -> prio w eps order m t = (l, m') ->
    exists R', pinv m' R' /\ forall x, In x l <-> plugin x /\ fits w eps t x.
  Proof.
    intros I. unfold prio. destruct (cached t (m_prio m)) as [l0|] eqn:C.
    { intros [= <- <-]. exists R. split; auto. apply (p_prio _ _ I). now apply cached_in. }
    destruct (load_pinv m R None I) as (R1 & I1 & _ & ALL). set (m1 := load w eps m None) in *.
    destruct (known eps m1) as [k m2] eqn:K. destruct (known_pinv m1 R1 k m2 I1 K) as [I2 KK].
    destruct (known_inv w eps m1 R1 k m2 (p_inv _ _ I1) K) as (_ & NK & _).
    set (m3 := set_vers (fold_left (fun d f => touch f d) (order k) (m_vers m2)) m2).
    assert (I3 : pinv m3 R1).
    { destruct I2 as [J PS PK PF PN PL PA PB PP]. split; auto. destruct J as [T2 K2 B2 P2 Q2]. split; auto.
      apply (tables_ext w m2); auto; cbn.
      - intros f. apply get_touches.
      - apply NoDup_touches. apply (t_fmts _ _ _ T2). }
    destruct (by_type m3 t) as [valid m4] eqn:B. destruct (by_type_pinv m3 R1 t valid m4 I3 ALL B) as (I4 & V & _).
    intros E. injection E as <- <-.
    assert (NO : NoDup (order k)) by (eapply Permutation_NoDup; [symmetry; apply order_ok|exact NK]).
    destruct (maybe_ranked w m2 R1 (order k) (i_tables _ _ _ (p_inv _ _ I2)) NO) as (M1 & M2 & M3).
    match goal with |- context [filter ?kp ?mb] => set (out := filter kp mb) end.
    assert (X : forall x, In x out <-> plugin x /\ fits w eps t x).
    { intros x. unfold out. rewrite filter_In, (has_reader_spec x valid), V. split; [tauto|]. intros [Hx Fx]. split; auto.
      apply M2. split; auto. destruct coh as (C1 & _). destruct (C1 x Hx) as (e & He & _ & Ee). rewrite <- Ee.
      eapply Permutation_in; [symmetry; apply order_ok|]. auto. }
    exists R1. split; auto. pose proof I4 as [J PS PK PF PN PL PA PB PP].
    assert (J' : inv w (add_prio t out m4) R1).
    { destruct J as [T4 K4 B4 P4 Q4]. split; auto.
      - apply (tables_ext w m4); auto. apply (t_fmts _ _ _ T4).
      - cbn. intros t0 l0 H. apply in_app_or in H as [H|[[= <- <-]|[]]]; [exact (P4 t0 l0 H)|].
        split; [now apply NoDup_filter|]. split; [|apply M3]. intros x Hx. apply filter_In in Hx as [Hx _]. now apply M2 in Hx. }
    split; auto. cbn. intros t0 l0 H. apply in_app_or in H as [H|[[= <- <-]|[]]]; auto. 
  Qed.

  Lemma ext_stage_pinv e t m R l m' : pinv m R -> ext_stage w eps e t m = (Ok l, m') ->
    exists R', pinv m' R' /\ forall x, In x l <-> plugin x /\ fits w eps t x /\ In e (w_exts w x).
  Proof.
    intros I. unfold ext_stage. destruct (load_pinv m R None I) as (R1 & I1 & _ & ALL). set (m1 := load w eps m None) in *.
    destruct (by_type m1 t) as [valid m2] eqn:B. destruct (by_type_pinv m1 R1 t valid m2 I1 ALL B) as (I2 & V & _ & EE).
    intros E. injection E as <- <-. exists R1. split.
    - pose proof I2 as [J PS PK PF PN PL PA PB PP]. split; auto. destruct J as [T2 K2 B2 P2 Q2]. split; auto.
      apply (tables_ext w m2); auto; cbn; [apply (t_fmts _ _ _ T2)|]. intros; apply get_list_touch.
    - intros x. rewrite filter_In, (has_reader_spec x valid), V, (in_ext w m2 R1 e x (p_inv _ _ I2)). split; [tauto|].
      intros (H1 & H2 & H3). auto.
  Qed.
  Lemma rest_stage_pinv e t m R l m' : pinv m R -> rest_stage w eps order e t m = (Ok l, m') ->
    exists R', pinv m' R' /\ forall x, In x l <-> plugin x /\ fits w eps t x /\ ~ In e (w_exts w x).
  Proof.
    intros I. unfold rest_stage. destruct (prio w eps order m t) as [q m1] eqn:P.
    destruct (prio_pinv m R t q m1 I P) as (R1 & I1 & X). intros E. injection E as <- <-.
    assert (ALL : forall y, plugin y -> In y R1 \/ ~ fits w eps t y).
    { intros y Hy. destruct (prio_grown w eps order order_ok m R t q m1 (p_inv _ _ I) P) as (R2 & G & _ & S & _).
      destruct (in_dec Z.eq_dec y q) as [Q|Q]; [|right; intros F; apply Q, X; auto]. left. apply S in Q.
      apply (inv_registered w m1 R2 y (proj1 G)) in Q. now apply (inv_registered w m1 R1 y (p_inv _ _ I1)) in Q. }
    exists R1. split; auto. intros x. rewrite filter_In, Bool.negb_true_iff. split.
    - intros [Hx Hn]. apply X in Hx as [Hx Fx]. split; auto. split; auto. intros C.
      assert (has_reader x (get_list e (m_exts m1)) = true); [|congruence]. apply has_reader_spec.
      apply (in_ext w m1 R1 e x (p_inv _ _ I1)). split; auto. destruct (ALL x Hx); auto. contradiction.
    - intros (Hx & Fx & Hn). split; [apply X; auto|]. apply Bool.not_true_is_false. intros C. apply has_reader_spec in C.
      apply (in_ext w m1 R1 e x (p_inv _ _ I1)) in C. tauto.
  Qed.
  Lemma format_stage_pinv f v m R r m' : pinv m R -> format_stage w eps f v m = (r, m') ->
    exists R', pinv m' R' /\ forall x, plugin x -> fmt x = upper f -> In x R'.
  Proof.
    intros I. unfold format_stage. destruct (load_pinv m R (Some f) I) as (R1 & I1 & _). set (m1 := load w eps m (Some f)) in *.
    destruct (load_pinv m1 R1 (Some (upper f)) I1) as (R2 & I2 & _ & L). set (m2 := load w eps m1 (Some (upper f))) in *.
    destruct (get_list (upper f) (m_vers m2)) as [|p d].
    - destruct (known eps m2) as [k m3] eqn:K. destruct (known_pinv m2 R2 k m3 I2 K) as (I3 & _). intros E. injection E as _ <-.
      exists R2. auto.
    - destruct (truthy v).
      + destruct (assoc _ _); intros E; injection E as _ <-; exists R2; auto.
      + intros E. injection E as _ <-. exists R2. auto.
  Qed.

  Definition psteady (s : stage) : Prop := forall m R r m', pinv m R -> s m = (r, m') -> exists R', pinv m' R'.
  Lemma yield_psteady f v e h t : Forall psteady (yield_fiberio w eps order f v e h t).
  Proof.
    unfold yield_fiberio. destruct (truthy v && negb (truthy f)).
    { constructor; [|constructor]. intros m R r m' I [= <- <-]. eauto. }
    destruct f as [f|].
    { constructor; [|constructor]. intros m R r m' I E. destruct (format_stage_pinv f v m R r m' I E) as (R' & G & _). eauto. }
    apply Forall_app. split.
    - destruct (match t with Some s => assoc s h | None => None end); constructor; [|constructor].
      intros m R r m' I [= <- <-]. eauto.
    - destruct e as [e|].
      + constructor; [|constructor; [|constructor]].
        * intros m R r m' I E. destruct r as [l|er]; [destruct (ext_stage_pinv e t m R l m' I E) as (R' & G & _); eauto|].
          unfold ext_stage in E. destruct (by_type _ _) in E. discriminate.
        * intros m R r m' I E. destruct r as [l|er]; [destruct (rest_stage_pinv e t m R l m' I E) as (R' & G & _); eauto|].
          unfold rest_stage in E. destruct (prio _ _ _ _ _) in E. discriminate.
      + constructor; [|constructor]. intros m R r m' I E. unfold prio_stage in E. destruct (prio w eps order m t) as [l m1] eqn:P.
        destruct (prio_pinv m R t l m1 I P) as (R' & G & _). injection E as <- <-. eauto.
  Qed.
  Lemma run_all_pinv ss : Forall psteady ss -> forall m R r m', pinv m R -> run_all ss m = (r, m') -> exists R', pinv m' R'.
  Proof.
    induction 1 as [|s ss Hs _ IH]; intros m R r m' I; cbn; [intros [= <- <-]; eauto|].
    destruct (s m) as [[l|er] m1] eqn:E; [|intros [= <- <-]; eauto].
    destruct (Hs m R (Ok l) m1 I E) as (R1 & G1). destruct (run_all ss m1) as [r2 m2] eqn:E2.
    destruct (IH m1 R1 r2 m2 G1 E2) as (R2 & G2). intros E3. exists R2. destruct r2; injection E3 as _ <-; auto.
  Qed.
  Lemma first_of_pinv ss : Forall psteady ss -> forall m R r m', pinv m R -> first_of ss m = (r, m') -> exists R', pinv m' R'.
  Proof.
    induction 1 as [|s ss Hs _ IH]; intros m R r m' I; cbn; [intros [= <- <-]; eauto|].
    destruct (s m) as [[[|x l]|er] m1] eqn:E; [|intros [= <- <-]; eauto|intros [= <- <-]; eauto].
    destruct (Hs m R _ m1 I E) as (R1 & G1). eauto.
  Qed.
  Lemma detect_pinv {A} (ans : Z -> option A) ss : Forall psteady ss -> forall m R r m', pinv m R -> detect ans ss m = (r, m') -> exists R', pinv m' R'.
  Proof.
    induction 1 as [|s ss Hs _ IH]; intros m R r m' I; cbn; [intros [= <- <-]; eauto|].
    destruct (s m) as [[l|er] m1] eqn:E; [|intros [= <- <-]; eauto].
    destruct (Hs m R _ m1 I E) as (R1 & G1). destruct (find_answer ans l); [intros [= <- <-]; eauto|eauto].
  Qed.

  Lemma get_pinv q m R r m' : pinv m R -> get_fiberio w eps order q m = (r, m') -> exists R', pinv m' R'.
  Proof.
    intros I E. destruct (get_grown w eps order order_ok q m R r m' (p_inv _ _ I) E) as (R2 & G2). revert E.
    unfold get_fiberio. destruct (find _ _); [intros [= <- <-]; eauto|].
    destruct q as [[f v] e]. destruct (first_of _ m) as [[x|er] m1] eqn:E.
    - intros [= <- <-]. destruct (first_of_pinv _ (yield_psteady f v e [] None) m R _ m1 I E) as (R1 & I1). exists R1.
      assert (S : forall y, In y R2 -> In y R1).
      { intros y Hy. apply (inv_registered w m1 R1 y (p_inv _ _ I1)). apply (inv_registered w _ R2 y (proj1 G2)) in Hy. exact Hy. }
      pose proof I1 as [J PS PK PF PN PL PA PB PP]. split; auto. destruct J as [T K B P Q]. split; auto.
      + apply (tables_ext w m1); auto. apply (t_fmts _ _ _ T).
      + intros q y H. apply S. exact (i_got _ _ _ (proj1 G2) q y H).
    - intros [= <- <-]. exact (first_of_pinv _ (yield_psteady f v e [] None) m R _ m1 I E).
  Qed.
  Lemma apply_pinv m R o : plugins_only eps o -> pinv m R -> exists R', pinv (apply_op w eps order m o) R'.
  Proof.
    intros RO I. destruct o as [x|f| |q|f v e h t|a f v e h t]; cbn [apply_op].
    - destruct RO as (e0 & He & <-). exists (add_readers w R (snd e0)). now apply import_pinv.
    - destruct (load_pinv m R f I) as (R' & I' & _). eauto.
    - destruct (known eps m) as [k m'] eqn:K. destruct (known_pinv m R k m' I K) as [I' _]. cbn. eauto.
    - destruct (get_fiberio w eps order q m) as [r m'] eqn:E. cbn [snd]. eapply get_pinv; eauto.
    - destruct (run_all _ m) as [r m'] eqn:E. cbn [snd]. exact (run_all_pinv _ (yield_psteady f v e h t) m R _ m' I E).
    - unfold get_format. destruct (detect _ _ m) as [r m'] eqn:E. cbn [snd]. exact (detect_pinv a _ (yield_psteady f v e h (Some t)) m R _ m' I E).
  Qed.
  Lemma after_pinv ops : Forall (plugins_only eps) ops -> exists R, pinv (after w eps order ops) R.
  Proof.
    unfold after. assert (X : forall ops m R, Forall (plugins_only eps) ops -> pinv m R -> exists R', pinv (fold_left (apply_op w eps order) ops m) R').
    { clear ops. induction ops as [|o ops IH]; intros m R H I; cbn [fold_left]; [eauto|]. inversion H; subst.
      destruct (apply_pinv m R o H2 I) as (R1 & I1). eauto. }
    intros H. exact (X ops empty_mgr [] H pinv_empty).
  Qed.

  (** A request without a format yields exactly the plugins for the input type. *)
  Lemma yield_complete m R e t l m' : pinv m R -> run_all (yield_fiberio w eps order None None e [] t) m = (Ok l, m') ->
    forall x, In x l <-> plugin x /\ fits w eps t x.
  Proof.
    intros I. unfold yield_fiberio. cbn [truthy negb andb].
    assert (HN : match t with Some s => assoc s (@nil (string * Z)) | None => None end = None) by (destruct t; reflexivity).
    rewrite HN. cbn [app]. clear HN. destruct e as [e|]; cbn [run_all].
    - destruct (ext_stage w eps e t m) as [[l1|er] m1] eqn:E1; [|discriminate].
      destruct (ext_stage_pinv e t m R l1 m1 I E1) as (R1 & I1 & X1).
      destruct (rest_stage w eps order e t m1) as [[l2|er] m2] eqn:E2; [|discriminate].
      destruct (rest_stage_pinv e t m1 R1 l2 m2 I1 E2) as (R2 & I2 & X2). intros E x.
      assert (EL : l = l1 ++ l2 ++ []) by congruence. rewrite EL, app_nil_r, in_app_iff, X1, X2.
      destruct (in_dec string_dec e (w_exts w x)); tauto.
    - unfold prio_stage. destruct (prio w eps order m t) as [l1 m1] eqn:P. destruct (prio_pinv m R t l1 m1 I P) as (R1 & I1 & X1).
      intros E x. assert (EL : l = l1 ++ []) by congruence. rewrite EL, app_nil_r. apply X1.
  Qed.
  (** ... and a request never fails for lack of readers *)
  Lemma yield_runs m e t : exists l m', run_all (yield_fiberio w eps order None None e [] t) m = (Ok l, m').
  Proof.
    unfold yield_fiberio. cbn [truthy negb andb].
    assert (HN : match t with Some s => assoc s (@nil (string * Z)) | None => None end = None) by (destruct t; reflexivity).
    rewrite HN. cbn [app]. clear HN. destruct e as [e|]; cbn [run_all].
    - unfold ext_stage, rest_stage. destruct (by_type _ t) as [v m1]. destruct (prio w eps order _ t) as [q m2]. eauto.
    - unfold prio_stage. destruct (prio w eps order m t) as [q m1]. eauto.
  Qed.
  (** A request for a format yields exactly the plugins of that format. *)
  Lemma yield_format_complete ops f v e h t r m' : Forall (plugins_only eps) ops ->
    run_all (yield_fiberio w eps order (Some f) v e h t) (after w eps order ops) = (r, m') -> f <> ""%string ->
    match r with
    | Ok l => forall x, In x l <-> plugin x /\ fmt x = upper f /\ (truthy v = true -> v = Some (w_ver w x))
    | Err _ => forall x, plugin x -> fmt x = upper f -> truthy v = true /\ v <> Some (w_ver w x)
    end.
  Proof.
    intros HR E NF. pose proof (yield_format w eps order order_ok ops f v e h t r m' E NF) as Y.
    destruct (after_pinv ops HR) as (R & I). set (m := after w eps order ops) in *.
    assert (exists R', pinv m' R' /\ forall x, plugin x -> fmt x = upper f -> In x R') as (R' & I' & L).
    { revert E. unfold yield_fiberio. assert (truthy (Some f) = true) as -> by (destruct f; [contradiction|reflexivity]).
      rewrite Bool.andb_false_r. cbn [run_all]. destruct (format_stage w eps f v m) as [r1 m1] eqn:E1.
      destruct (format_stage_pinv f v m R r1 m1 I E1) as (R' & I' & L). intros E. exists R'.
      assert (m1 = m') as <- by (destruct r1; congruence). auto. }
    assert (RG : forall x, fmt x = upper f -> (registered w m' x <-> plugin x)).
    { intros x Ex. rewrite (inv_registered w m' R' x (p_inv _ _ I')). split; [apply (p_sub _ _ I')|auto]. }
    destruct r as [l|er].
    - destruct Y as (_ & _ & _ & Y). intros x. rewrite Y. split; intros (A & B & C); repeat split; auto; apply (RG x B); auto.
    - destruct Y as (_ & Y). intros x Hx Ex. apply Y; auto. now apply RG.
  Qed.

  (** If only one fitting plugin recognises the file, that one decides. *)
  Lemma detect_unique {A} (ans : Z -> option A) ops e t x a : Forall (plugins_only eps) ops ->
    plugin x -> fits w eps (Some t) x -> ans x = Some a ->
    (forall y b, plugin y -> fits w eps (Some t) y -> ans y = Some b -> b = a) ->
    fst (get_format w eps order ans e None None [] t (after w eps order ops)) = Ok a.
  Proof.
    intros HR Px Fx Ax U. destruct (after_pinv ops HR) as (R & I). unfold get_format.
    destruct (yield_runs (after w eps order ops) e (Some t)) as (l & m' & E).
    rewrite (detect_first ans _ _ _ _ E). pose proof (yield_complete _ R e (Some t) l m' I E) as Y.
    pose proof (find_answer_spec ans l) as S. destruct (find_answer ans l) as [b|].
    - destruct S as (l1 & y & l2 & -> & Ay & _). assert (In y (l1 ++ y :: l2)) as Hy by (apply in_or_app; right; left; auto).
      apply Y in Hy as [Py Fy]. f_equal. eapply U; eauto.
    - exfalso. assert (In x l) as Hx by (apply Y; auto). rewrite (S x Hx) in Ax. discriminate.
  Qed.
  Lemma detect_none {A} (ans : Z -> option A) ops e t : Forall (plugins_only eps) ops ->
    (forall y, plugin y -> fits w eps (Some t) y -> ans y = None) ->
    fst (get_format w eps order ans e None None [] t (after w eps order ops)) = Err UnknownFiberFormatError.
  Proof.
    intros HR U. destruct (after_pinv ops HR) as (R & I). unfold get_format.
    destruct (yield_runs (after w eps order ops) e (Some t)) as (l & m' & E).
    rewrite (detect_first ans _ _ _ _ E). pose proof (yield_complete _ R e (Some t) l m' I E) as Y.
    pose proof (find_answer_spec ans l) as S. destruct (find_answer ans l) as [b|]; auto.
    destruct S as (l1 & y & l2 & -> & Ay & _). assert (In y (l1 ++ y :: l2)) as Hy by (apply in_or_app; right; left; auto).
    apply Y in Hy as [Py Fy]. rewrite U in Ay; auto. discriminate.
  Qed.
  Lemma yield_exact ops e t : Forall (plugins_only eps) ops -> (forall x, NoDup (w_exts w x)) ->
    exists l m', run_all (yield_fiberio w eps order None None e [] t) (after w eps order ops) = (Ok l, m') /\
      NoDup l /\ forall x, In x l <-> plugin x /\ fits w eps t x.
  Proof.
    intros HR HN. destruct (yield_runs (after w eps order ops) e t) as (l & m' & E). exists l, m'. split; auto.
    destruct (after_pinv ops HR) as (R & I). split; [|exact (yield_complete _ R e t l m' I E)].
    eapply (yield_all w eps order order_ok ops None None e t); eauto.
  Qed.
End Plugins.

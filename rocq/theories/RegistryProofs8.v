(** get_fiberio: a request is answered afresh once, and the same way ever after. *)
From Verif Require Import Base BaseFacts FrameModel CmModel RegistryModel RegistrySpec RegistryProofs RegistryProofs2.
From Coq Require Import Strings.String.
Local Open Scope Z_scope.
Local Open Scope list_scope.

Section Got.
  Variable w : world.
  Variable eps : eps_t.
  Variable order : list string -> list string.

  Lemma registers_got xs m : m_got (fold_left (register w) xs m) = m_got m.
  Proof.
    revert m. induction xs as [|x xs IH]; intros m; cbn; auto. rewrite IH. apply register_fields.
  Qed.
  Lemma known_got m : m_got (snd (known eps m)) = m_got m.
  Proof. unfold known. destruct (m_known m); reflexivity. Qed.
  Lemma load_one_got m f : m_got (load_one w eps m f) = m_got m.
  Proof. unfold load_one. destruct (mem f _); cbn; apply registers_got. Qed.
  Lemma load_many_got fs m : m_got (fold_left (load_one w eps) fs m) = m_got m.
  Proof. revert m. induction fs as [|f fs IH]; intros m; cbn; auto. rewrite IH. apply load_one_got. Qed.
  Lemma load_got m fmt : m_got (load w eps m fmt) = m_got m.
  Proof.
    unfold load. destruct (existsb _ _); auto. cbn. unfold load_body.
    destruct (match fmt with Some f => mem f (map fst (m_vers m)) | None => false end); auto.
    unfold unloaded. pose proof (known_got m) as K. destruct (known eps m) as [k m1]. cbn in K.
    destruct (sort_strs _); auto. rewrite load_many_got. exact K.
  Qed.
  Lemma by_type_got m t : m_got (snd (by_type m t)) = m_got m.
  Proof.
    unfold by_type. destruct (cached t (m_bytype m)) as [[l|]|]; auto.
    destruct (match t with Some s => mem s (map fst (m_types m)) | None => false end); auto.
  Qed.
  Lemma prio_got m t : m_got (snd (prio w eps order m t)) = m_got m.
  Proof.
    unfold prio. destruct (cached t (m_prio m)); auto. pose proof (known_got (load w eps m None)) as K.
    destruct (known eps _) as [k m1]. cbn in K. rewrite load_got in K.
    set (m2 := set_vers _ m1). pose proof (by_type_got m2 t) as B. destruct (by_type m2 t) as [v m3]. cbn in B |- *.
    rewrite B. exact K.
  Qed.

  Definition quiet_stage (s : stage) : Prop := forall m, m_got (snd (s m)) = m_got m.
  Lemma yield_quiet f v e h t : Forall quiet_stage (yield_fiberio w eps order f v e h t).
  Proof.
    unfold yield_fiberio. destruct (truthy v && negb (truthy f)); [repeat constructor|].
    destruct f as [f|].
    - constructor; [|constructor]. intros m. unfold format_stage.
      assert (K : m_got (load w eps (load w eps m (Some f)) (Some (upper f))) = m_got m) by now rewrite !load_got.
      destruct (get_list _ _); [cbn; now rewrite known_got|].
      destruct (truthy v); auto. destruct (assoc _ _); auto.
    - apply Forall_app. split.
      { destruct (match t with Some s => assoc s h | None => None end); repeat constructor. }
      destruct e as [e|].
      + constructor; [|constructor; [|constructor]]; intros m.
        * unfold ext_stage. pose proof (by_type_got (load w eps m None) t) as B. rewrite load_got in B.
          destruct (by_type _ t) as [x m1]. exact B.
        * unfold rest_stage. pose proof (prio_got m t) as B. destruct (prio _ _ _ m t). exact B.
      + constructor; [|constructor]. intros m. unfold prio_stage. pose proof (prio_got m t) as B.
        destruct (prio _ _ _ m t). exact B.
  Qed.
  Lemma run_all_got ss : Forall quiet_stage ss -> forall m, m_got (snd (run_all ss m)) = m_got m.
  Proof.
    induction 1 as [|s ss Q _ IH]; intros m; cbn; auto. pose proof (Q m) as K. destruct (s m) as [[l|e] m1]; auto.
    specialize (IH m1). destruct (run_all ss m1) as [[r|e] m2]; cbn in *; congruence.
  Qed.
  Lemma first_of_got ss : Forall quiet_stage ss -> forall m, m_got (snd (first_of ss m)) = m_got m.
  Proof.
    induction 1 as [|s ss Q _ IH]; intros m; cbn; auto. pose proof (Q m) as K. destruct (s m) as [[[|x l]|e] m1]; auto.
    specialize (IH m1). cbn in *. congruence.
  Qed.
  Lemma detect_got {A} (a : Z -> option A) ss : Forall quiet_stage ss -> forall m, m_got (snd (detect a ss m)) = m_got m.
  Proof.
    induction 1 as [|s ss Q _ IH]; intros m; cbn; auto. pose proof (Q m) as K. destruct (s m) as [[l|e] m1]; auto.
    destruct (find_answer a l); auto. specialize (IH m1). cbn in *. congruence.
  Qed.

  Lemma opt_eqb_eq a b : opt_eqb a b = true <-> a = b.
  Proof.
    destruct a, b; cbn; split; intros H; try discriminate; auto.
    - apply String.eqb_eq in H. now subst.
    - injection H as ->. apply String.eqb_refl.
  Qed.
  Lemma req_eqb_eq a b : req_eqb a b = true <-> a = b.
  Proof.
    destruct a as [[f v] e], b as [[f' v'] e']. cbn. rewrite !Bool.andb_true_iff, !opt_eqb_eq. split.
    - intros [[-> ->] ->]. auto.
    - intros [= -> -> ->]. auto.
  Qed.

  Definition answered (q : request) (m : mgr) : option (option Z) :=
    option_map snd (find (fun p => req_eqb q (fst p)) (m_got m)).
  Lemma get_answered q x m : answered q m = Some x -> get_fiberio w eps order q m = (Ok x, m).
  Proof.
    unfold answered, get_fiberio. destruct (find _ _); cbn; [|discriminate]. now intros [= ->].
  Qed.
  Lemma get_asked q m : answered q m = None ->
    get_fiberio w eps order q m =
    (let '(f, v, e) := q in
     match first_of (yield_fiberio w eps order f v e [] None) m with
     | (Ok x, m) => (Ok x, add_got q x m)
     | (Err e, m) => (Err e, m)
     end).
  Proof. unfold answered, get_fiberio. destruct (find _ _); cbn; [discriminate|]. auto. Qed.

  Lemma find_app {B} f (a b : list B) : find f (a ++ b) = match find f a with Some x => Some x | None => find f b end.
  Proof. induction a as [|x a IH]; cbn; auto. destruct (f x); auto. Qed.
  Lemma get_answers q m q' : answered q' (snd (get_fiberio w eps order q m)) =
    match answered q' m with
    | Some x => Some x
    | None => if req_eqb q' q then match fst (get_fiberio w eps order q m) with Ok x => Some x | Err _ => None end else None
    end.
  Proof.
    destruct (answered q m) as [x|] eqn:A.
    - rewrite (get_answered _ _ _ A). cbn. destruct (answered q' m) eqn:B; auto.
      destruct (req_eqb q' q) eqn:E; auto. apply req_eqb_eq in E. subst. congruence.
    - rewrite (get_asked _ _ A). destruct q as [[f v] e].
      pose proof (first_of_got _ (yield_quiet f v e [] None) m) as K.
      destruct (first_of _ m) as [[x|er] m1]; cbn in K |- *.
      + unfold answered, add_got. cbn [m_got]. rewrite K, find_app. destruct (find _ (m_got m)); auto.
        cbn. destruct q' as [[f' v'] e']. cbn [fst].
        destruct (opt_eqb f' f && opt_eqb v' v && opt_eqb e' e) eqn:E; cbn; rewrite ?E; auto.
      + unfold answered. rewrite K. destruct (find _ _); auto. cbn. now destruct (req_eqb q' (f, v, e)).
  Qed.
  Lemma op_answers o m q : answered q (apply_op w eps order m o) =
    match answered q m with
    | Some x => Some x
    | None => match o with
              | Get q' => if req_eqb q q' then match fst (get_fiberio w eps order q' m) with Ok x => Some x | Err _ => None end else None
              | _ => None
              end
    end.
  Proof.
    assert (S : forall m', m_got m' = m_got m -> answered q m' = match answered q m with Some x => Some x | None => None end).
    { intros m' H. unfold answered. rewrite H. now destruct (find _ _). }
    destruct o; cbn [apply_op].
    - apply S, registers_got.
    - apply S, load_got.
    - apply S, known_got.
    - apply get_answers.
    - apply S, run_all_got, yield_quiet.
    - apply S. unfold get_format. apply detect_got, yield_quiet.
  Qed.

  Lemma ops_keep q x ops : forall m, answered q m = Some x -> answered q (fold_left (apply_op w eps order) ops m) = Some x.
  Proof. induction ops as [|o ops IH]; intros m H; cbn; auto. apply IH. now rewrite op_answers, H. Qed.
  Lemma ops_unasked q ops : (forall q', In (Get q') ops -> q' <> q) -> forall m, answered q m = None ->
    answered q (fold_left (apply_op w eps order) ops m) = None.
  Proof.
    induction ops as [|o ops IH]; intros N m H; cbn; auto. apply IH; [intros q' Hq; apply N; now right|].
    rewrite op_answers, H. destruct o; auto. destruct (req_eqb q q0) eqn:E; auto. apply req_eqb_eq in E. subst.
    exfalso. exact (N q0 (or_introl eq_refl) eq_refl).
  Qed.
  Lemma first_of_hd ss : forall m l m', run_all ss m = (Ok l, m') -> fst (first_of ss m) = Ok (hd_error l).
  Proof.
    induction ss as [|s ss IH]; intros m l m'; cbn; [now intros [= <- <-]|].
    destruct (s m) as [[l0|e] m1]; [|discriminate].
    destruct (run_all ss m1) as [[r|e] m2] eqn:R; [|discriminate]. intros [= <- <-].
    destruct l0 as [|x l0]; cbn; auto. eapply IH; eauto.
  Qed.
  Lemma first_of_err ss e : forall m m', run_all ss m = (Err e, m') -> forall x, fst (first_of ss m) = Ok x -> x <> None.
  Proof.
    induction ss as [|s ss IH]; intros m m'; cbn; [discriminate|].
    destruct (s m) as [[l0|e0] m1]; [|discriminate]. destruct (run_all ss m1) as [[r|e0] m2] eqn:R; [discriminate|].
    intros [= -> <-] x. destruct l0; cbn; [|intros [= <-]; discriminate]. eapply IH; eauto.
  Qed.

  Lemma get_fresh ops f v e l m' : (forall q, In (Get q) ops -> q <> (f, v, e)) ->
    run_all (yield_fiberio w eps order f v e [] None) (after w eps order ops) = (Ok l, m') ->
    fst (get_fiberio w eps order (f, v, e) (after w eps order ops)) = Ok (hd_error l).
  Proof.
    intros N R. rewrite get_asked; [|apply ops_unasked; auto].
    pose proof (first_of_hd _ _ _ _ R) as K. destruct (first_of _ _) as [[x|er] m1]; exact K.
  Qed.
  Lemma get_again ops ops' q x : fst (get_fiberio w eps order q (after w eps order ops)) = Ok x ->
    fst (get_fiberio w eps order q (after w eps order (ops ++ Get q :: ops'))) = Ok x.
  Proof.
    intros H. unfold after in *. rewrite fold_left_app. cbn [fold_left].
    rewrite (get_answered q x); auto. apply ops_keep. rewrite op_answers.
    destruct (answered q (fold_left _ ops empty_mgr)) as [y|] eqn:A.
    - rewrite (get_answered _ _ _ A) in H. cbn in H. congruence.
    - assert (E : req_eqb q q = true) by now apply req_eqb_eq. rewrite E. now rewrite H.
  Qed.
End Got.

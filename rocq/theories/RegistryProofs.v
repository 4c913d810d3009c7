From Verif Require Import Base BaseFacts FrameModel FrameProofs5 CmModel CmProofs RegistryModel RegistrySpec.
From Coq Require Import Strings.String Permutation Sorted.
Local Open Scope Z_scope.
Local Open Scope list_scope.

Lemma NoDup_app_intro {A} (a b : list A) : NoDup a -> NoDup b -> (forall x, In x a -> ~ In x b) -> NoDup (a ++ b).
Proof.
  induction a as [|x a IH]; cbn; intros Na Nb H; auto. inversion Na as [|? ? N Na']; subst. constructor.
  - intros C. apply in_app_or in C as [C|C]; [now apply N|now apply (H x (or_introl eq_refl))].
  - apply IH; auto.
Qed.

Lemma id_eqb_spec a b : id_eqb a b = true <-> a = b.
Proof.
  unfold id_eqb. rewrite Bool.andb_true_iff, !String.eqb_eq. destruct a, b; cbn. split; [intros [-> ->]; auto|now intros [= -> ->]].
Qed.
Lemma known_key_spec w x l : known_key w x l = true <-> exists y, In y l /\ key w y = key w x.
Proof.
  induction l as [|y l IH]; cbn; [split; [discriminate|intros (y & [] & _)]|].
  rewrite Bool.orb_true_iff, id_eqb_spec, IH. split.
  - intros [H|(z & H & K)]; [exists y; auto|exists z; auto].
  - intros (z & [->|H] & K); auto. right. eauto.
Qed.
Lemma known_key_not w x l : known_key w x l = false <-> forall y, In y l -> key w y <> key w x.
Proof.
  split.
  - intros H y Hy E. enough (known_key w x l = true) by congruence. apply known_key_spec. eauto.
  - intros H. apply Bool.not_true_is_false. intros K. apply known_key_spec in K as (y & Hy & E). eapply H; eauto.
Qed.

Lemma add_readers_app w l a b : add_readers w l (a ++ b) = add_readers w (add_readers w l a) b.
Proof. apply fold_left_app. Qed.
Lemma add_readers_sub w log l x : In x l -> In x (add_readers w l log).
Proof.
  revert l. induction log as [|y log IH]; intros l H; cbn; auto. apply IH. unfold add_reader.
  destruct (known_key w y l); auto. apply in_or_app; auto.
Qed.
Lemma add_readers_in w log l x : In x (add_readers w l log) -> In x l \/ In x log.
Proof.
  revert l. induction log as [|y log IH]; intros l H; cbn in *; auto. apply IH in H as [H|H]; auto.
  unfold add_reader in H. destruct (known_key w y l); auto. apply in_app_or in H as [H|[<-|[]]]; auto.
Qed.
Lemma add_readers_key w log l x : In x log -> exists y, In y (add_readers w l log) /\ key w y = key w x.
Proof.
  revert l. induction log as [|y log IH]; intros l H; [destruct H|]. destruct H as [->|H]; [|now apply IH].
  cbn. unfold add_reader. destruct (known_key w x l) eqn:K.
  - apply known_key_spec in K as (y & Hy & E). exists y. split; auto. now apply add_readers_sub.
  - exists x. split; auto. apply add_readers_sub. apply in_or_app. right. left; auto.
Qed.

(** Registered readers have distinct keys. *)
Definition distinct (w : world) (l : list Z) : Prop := NoDup (map (key w) l).
Lemma distinct_add w l x : distinct w l -> distinct w (add_reader w l x).
Proof.
  intros D. unfold add_reader. destruct (known_key w x l) eqn:K; auto.
  unfold distinct. rewrite map_app. cbn. apply NoDup_app_intro; auto; [repeat constructor; auto|].
  intros k Hk [<-|[]]. apply in_map_iff in Hk as (y & E & Hy). eapply known_key_not; eauto.
Qed.
Lemma distinct_adds w log l : distinct w l -> distinct w (add_readers w l log).
Proof. revert l. induction log as [|x log IH]; intros l D; cbn; auto. apply IH. now apply distinct_add. Qed.
Lemma distinct_inj w l x y : distinct w l -> In x l -> In y l -> key w x = key w y -> x = y.
Proof.
  unfold distinct. induction l as [|z l IH]; cbn; intros D Hx Hy E; [tauto|]. inversion D as [|? ? N D']; subst.
  destruct Hx as [->|Hx], Hy as [->|Hy]; auto; exfalso; apply N.
  - rewrite E. now apply in_map.
  - rewrite <- E. now apply in_map.
Qed.
Lemma distinct_nodup w l : distinct w l -> NoDup l.
Proof. apply NoDup_map_inv. Qed.

(** ** The tables describe the registered readers *)
Record tables (w : world) (m : mgr) (R : list Z) : Prop := mkTables
  { t_distinct : distinct w R;
    t_vers : forall f v x, assoc v (get_list f (m_vers m)) = Some x <-> In x R /\ key w x = (f, v);
    t_fmts : NoDup (map fst (m_vers m));
    t_inner : forall f, NoDup (map fst (get_list f (m_vers m)));
    t_ids : forall k, In k (m_ids m) <-> exists x, In x R /\ key w x = k;
    t_exts : forall e, get_list e (m_exts m) = flat_map (fun x => map (fun _ => x) (filter (String.eqb e) (w_exts w x))) R;
    t_types : forall s, get_list s (m_types m) = filter (fun x => String.eqb (w_type w x) s) R;
    t_tkeys : forall s, In s (map fst (m_types m)) <-> exists x, In x R /\ w_type w x = s;
    t_tnd : NoDup (map fst (m_types m)) }.

Lemma get_list_set {A} k (l : list A) d f : get_list f (assoc_set k l d) = if String.eqb f k then l else get_list f d.
Proof.
  unfold get_list. destruct (String.eqb_spec f k) as [->|N]; [now rewrite assoc_set_same|].
  now rewrite assoc_set_other by auto.
Qed.
Lemma get_list_push {A} (x : A) d k f : get_list f (push x d k) = get_list f d ++ (if String.eqb f k then [x] else []).
Proof. unfold push. rewrite get_list_set. destruct (String.eqb_spec f k) as [->|]; auto. now rewrite app_nil_r. Qed.
Lemma get_list_pushes {A} (x : A) ks d f :
  get_list f (fold_left (push x) ks d) = get_list f d ++ map (fun _ => x) (filter (String.eqb f) ks).
Proof.
  revert d. induction ks as [|k ks IH]; intros d; cbn [fold_left filter map]; [now rewrite app_nil_r|].
  rewrite IH, get_list_push. rewrite <- app_assoc. f_equal. destruct (String.eqb f k); reflexivity.
Qed.
Lemma in_keys_set {A} k (v : A) d f : In f (map fst (assoc_set k v d)) <-> f = k \/ In f (map fst d).
Proof.
  rewrite <- !assoc_In. destruct (String.eqb_spec f k) as [->|N].
  - rewrite assoc_set_same. split; eauto.
  - rewrite assoc_set_other by auto. split; auto. intros [H|H]; auto. congruence.
Qed.

Lemma empty_tables w : tables w empty_mgr [].
Proof.
  split; cbn; auto; try constructor; try discriminate.
  - intros (H & _). destruct H.
  - intros []. 
  - intros (x & [] & _).
  - intros [].
  - intros (x & [] & _).
Qed.

Lemma get_list_touch {A} k (d : list (string * list A)) f : get_list f (touch k d) = get_list f d.
Proof.
  unfold touch. destruct (mem k (map fst d)) eqn:M; auto. unfold get_list.
  assert (H : forall d0, assoc f (d0 ++ [(k, @nil A)]) = match assoc f d0 with Some l => Some l | None => if String.eqb f k then Some [] else None end).
  { induction d0 as [|[k' l] t IH]; cbn; auto. destruct (String.eqb f k'); auto. }
  rewrite H. destruct (assoc f d); auto. destruct (String.eqb f k); auto.
Qed.
Lemma keys_touch {A} k (d : list (string * list A)) f : In f (map fst (touch k d)) <-> f = k \/ In f (map fst d).
Proof.
  unfold touch. destruct (mem k (map fst d)) eqn:M.
  - split; auto. intros [->|H]; auto. now apply mem_In'.
  - rewrite map_app, in_app_iff. cbn. intuition.
Qed.
Lemma NoDup_touch {A} k (d : list (string * list A)) : NoDup (map fst d) -> NoDup (map fst (touch k d)).
Proof.
  intros N. unfold touch. destruct (mem k (map fst d)) eqn:M; auto. rewrite map_app. apply NoDup_app_intro; auto.
  - repeat constructor; auto.
  - intros f Hf [<-|[]]. apply mem_In' in Hf. cbn in Hf. congruence.
Qed.

Lemma register_tables w m R x : tables w m R -> tables w (register w m x) (add_reader w R x).
Proof.
  intros [D V F I ID EX TY TK TN]. unfold register, add_reader.
  assert (K : existsb (id_eqb (upper (w_name w x), w_ver w x)) (m_ids m) = known_key w x R).
  { apply Bool.eq_iff_eq_true. rewrite existsb_exists, known_key_spec. split.
    - intros (k & Hk & E). apply id_eqb_spec in E. apply ID in Hk as (y & Hy & E'). exists y. split; auto. rewrite E', <- E. reflexivity.
    - intros (y & Hy & E). exists (key w x). split; [|apply id_eqb_spec; reflexivity]. apply ID. exists y. auto. }
  rewrite K. destruct (known_key w x R) eqn:KK; [split; auto|].
  assert (NK := proj1 (known_key_not _ _ _) KK). 
  set (f0 := upper (w_name w x)). set (v0 := w_ver w x).
  split; cbn [m_vers m_exts m_types m_ids].
  - pose proof (distinct_add w R x D) as H. unfold add_reader in H. now rewrite KK in H.
  - intros f v y. rewrite get_list_set, in_app_iff. cbn [In].
    destruct (String.eqb_spec f f0) as [->|NF].
    + destruct (String.eqb_spec v v0) as [->|NV].
      * rewrite assoc_set_same. split.
        -- intros [= <-]. split; auto.
        -- intros [[H|[->|[]]] E]; auto. exfalso. apply (NK y H). exact E.
      * rewrite assoc_set_other by auto. rewrite V. split; [intros [? ?]; auto|].
        intros [[H|[->|[]]] E]; auto. exfalso. apply NV. unfold key in E. injection E; auto.
    + rewrite V. split; [intros [? ?]; auto|]. intros [[H|[->|[]]] E]; auto.
      exfalso. apply NF. unfold key in E. injection E; auto.
  - now apply NoDup_assoc_set.
  - intros f. rewrite get_list_set. destruct (String.eqb f f0); auto. now apply NoDup_assoc_set.
  - intros k. rewrite in_app_iff, ID. cbn. split.
    + intros [(y & Hy & E)|[<-|[]]]; [exists y; split; auto; apply in_or_app; auto|].
      exists x. split; [apply in_or_app; right; left; auto|reflexivity].
    + intros (y & Hy & E). apply in_app_or in Hy as [Hy|[<-|[]]]; [left; eauto|right; left; exact E].
  - intros e. rewrite get_list_pushes, EX, flat_map_app. cbn. now rewrite app_nil_r.
  - intros s. rewrite get_list_push, TY, filter_app. cbn. rewrite String.eqb_sym. destruct (String.eqb (w_type w x) s); auto.
  - intros s. unfold push. rewrite in_keys_set, TK. split.
    + intros [->|(y & Hy & E)]; [exists x; split; auto; apply in_or_app; right; left; auto|exists y; split; auto; apply in_or_app; auto].
    + intros (y & Hy & E). apply in_app_or in Hy as [Hy|[<-|[]]]; eauto.
  - now apply NoDup_assoc_set.
Qed.
Lemma registers_tables w log m R : tables w m R -> tables w (fold_left (register w) log m) (add_readers w R log).
Proof. revert m R. induction log as [|x log IH]; intros m R T; cbn; auto. apply IH. now apply register_tables. Qed.

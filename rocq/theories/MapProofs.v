From Verif Require Import Base BaseFacts MapModel.
From Coq Require Import Strings.String Permutation ZifyBool.
Local Open Scope Z_scope.
Local Open Scope list_scope.

Lemma key_eqb_eq a b : key_eqb a b = true <-> a = b.
Proof.
  destruct a, b; cbn; try (split; congruence).
  - rewrite String.eqb_eq. split; congruence.
  - rewrite Z.eqb_eq. split; congruence.
Qed.
Lemma key_eqb_refl a : key_eqb a a = true.
Proof. now apply key_eqb_eq. Qed.
Lemma key_dec (a b : pykey) : {a = b} + {a <> b}.
Proof. destruct (key_eqb a b) eqn:E; [left; now apply key_eqb_eq|right; intros ->; now rewrite key_eqb_refl in E]. Defined.
Lemma key_neq a b : a <> b -> key_eqb a b = false.
Proof. intros H. destruct (key_eqb a b) eqn:E; auto. apply key_eqb_eq in E. contradiction. Qed.

Section Facts.
  Context {V : Type}.
  Notation dict := (dict V).
  Notation dget := (dget V).
  Notation dset := (dset V).
  Notation ddel := (ddel V).
  Notation dupdate := (dupdate V).

  Lemma dget_dset (d : dict) k v j : dget (dset d k v) j = if key_eqb j k then Some v else dget d j.
  Proof.
    induction d as [|[k' w] t IH]; cbn; auto. destruct (key_eqb k k') eqn:E.
    - apply key_eqb_eq in E. subst k'. cbn. now destruct (key_eqb j k).
    - cbn. rewrite IH. destruct (key_eqb j k') eqn:E1; auto. apply key_eqb_eq in E1. subst k'.
      destruct (key_eqb j k) eqn:E2; auto. apply key_eqb_eq in E2. subst. now rewrite key_eqb_refl in E.
  Qed.
  Lemma dget_in (d : dict) k : dget d k <> None <-> In k (map fst d).
  Proof.
    induction d as [|[k' w] t IH]; cbn; [tauto|]. destruct (key_eqb k k') eqn:E.
    - apply key_eqb_eq in E. subst. split; [auto|discriminate].
    - rewrite IH. split; auto. intros [->|H]; auto. now rewrite key_eqb_refl in E.
  Qed.
  Lemma dget_In (d : dict) k v : NoDup (map fst d) -> In (k, v) d -> dget d k = Some v.
  Proof.
    induction d as [|[k' w] t IH]; cbn; [tauto|]. intros N [E|H]; inversion N; subst.
    - injection E as -> ->. now rewrite key_eqb_refl.
    - destruct (key_eqb k k') eqn:E; auto. apply key_eqb_eq in E. subst. exfalso. apply H2. now apply (in_map fst) in H.
  Qed.
  Lemma keys_dset (d : dict) k v : map fst (dset d k v) = if in_dec key_dec k (map fst d) then map fst d else map fst d ++ [k].
  Proof.
    induction d as [|[k' w] t IH]; [reflexivity|]. cbn [dset MapModel.dset map fst]. destruct (key_eqb k k') eqn:E.
    - apply key_eqb_eq in E. subst k'. cbn [map fst]. destruct (in_dec key_dec k (k :: map fst t)) as [|n]; auto. exfalso. apply n. left; auto.
    - cbn [map fst]. rewrite IH. destruct (in_dec key_dec k (map fst t)) as [i|n]; destruct (in_dec key_dec k (k' :: map fst t)) as [i'|n']; auto.
      + exfalso. apply n'. right; auto.
      + destruct i' as [->|i']; [now rewrite key_eqb_refl in E|contradiction].
  Qed.
  Lemma NoDup_snoc {A} (l : list A) x : NoDup l -> ~ In x l -> NoDup (l ++ [x]).
  Proof.
    intros N H. apply (Permutation_NoDup (l := x :: l)); [|constructor; auto]. apply Permutation_cons_append.
  Qed.
  Lemma nodup_dset (d : dict) k v : NoDup (map fst d) -> NoDup (map fst (dset d k v)).
  Proof. intros N. rewrite keys_dset. destruct (in_dec _ _ _); auto. now apply NoDup_snoc. Qed.
  Lemma nodup_dupdate new : forall d : dict, NoDup (map fst d) -> NoDup (map fst (dupdate d new)).
  Proof. induction new as [|p t IH]; intros d N; cbn; auto. apply IH. now apply nodup_dset. Qed.
  Lemma nodup_ddel (d : dict) k : NoDup (map fst d) -> NoDup (map fst (ddel d k)).
  Proof.
    unfold ddel. induction d as [|[k' w] t IH]; cbn; auto. intros N. inversion N; subst. destruct (negb _); auto. cbn. constructor; auto.
    intros H. apply H1. apply in_map_iff in H as (p & E & Hp). apply filter_In in Hp as [Hp _]. apply in_map_iff. eauto.
  Qed.
  Lemma dget_dupdate new : forall (d : dict) k, dget (dupdate d new) k = match dget (rev new) k with Some v => Some v | None => dget d k end.
  Proof.
    assert (APP : forall (a b : dict) k, dget (a ++ b) k = match dget a k with Some v => Some v | None => dget b k end).
    { induction a as [|[k' w] t IH]; intros b k; cbn; auto. destruct (key_eqb k k'); auto. }
    induction new as [|[k' v] t IH]; intros d k; [reflexivity|]. change (dupdate d ((k', v) :: t)) with (dupdate (dset d k' v) t).
    rewrite IH, dget_dset. cbn [rev]. rewrite APP. cbn. destruct (dget (rev t) k); auto.
    now destruct (key_eqb k k').
  Qed.
  Lemma dupdate_copy_gen new : forall d : dict, NoDup (map fst (d ++ new)) -> dupdate d new = d ++ new.
  Proof.
    induction new as [|[k v] t IH]; intros d N; [cbn; now rewrite app_nil_r|]. change (dupdate d ((k, v) :: t)) with (dupdate (dset d k v) t).
    assert (dset d k v = d ++ [(k, v)]) as ->.
    { assert (~ In k (map fst d)).
      { rewrite map_app in N. cbn in N. apply NoDup_remove_2 in N. intros H. apply N. apply in_or_app; auto. }
      clear - H. induction d as [|[k' w] t IH]; cbn; auto. rewrite key_neq; [|intros ->; apply H; left; auto]. f_equal. apply IH.
      intros C. apply H. right; auto. }
    rewrite IH; rewrite <- app_assoc; auto.
  Qed.
  Lemma dupdate_copy (d : dict) : NoDup (map fst d) -> dupdate [] d = d.
  Proof. intros N. now rewrite dupdate_copy_gen. Qed.
  Lemma dget_rev (d : dict) k : NoDup (map fst d) -> dget (rev d) k = dget d k.
  Proof.
    intros N. destruct (dget d k) as [v|] eqn:E.
    - apply dget_In; [rewrite map_rev; now apply NoDup_rev|]. apply in_rev. rewrite rev_involutive.
      clear N. induction d as [|[k' w] t IH]; cbn in *; [discriminate|]. destruct (key_eqb k k') eqn:Q.
      + apply key_eqb_eq in Q. left. congruence.
      + right. auto.
    - destruct (dget (rev d) k) eqn:E2; auto. assert (X : dget (rev d) k <> None) by congruence. apply dget_in in X.
      rewrite map_rev in X. apply in_rev in X. apply dget_in in X. congruence.
  Qed.

  (** ** Hash values *)
  Variable hash2 : pykey -> V -> option Z.
  Fixpoint xorl (o : Z) (l : list (option Z)) : result Z :=
    match l with [] => Ok o | Some h :: t => xorl (Z.lxor o h) t | None :: _ => Err TypeError end.
  Lemma hash_items_xorl d : forall o, hash_items V hash2 o d = xorl o (map (fun p => hash2 (fst p) (snd p)) d).
  Proof. induction d as [|[k v] t IH]; intros o; cbn; auto. destruct (hash2 k v); auto. Qed.
  Lemma xorl_perm l l' : Permutation l l' -> forall o, xorl o l = xorl o l'.
  Proof.
    induction 1; intros o; cbn; auto.
    - destruct x; auto.
    - destruct x, y; auto. f_equal. rewrite !Z.lxor_assoc. f_equal. apply Z.lxor_comm.
    - now rewrite IHPermutation1.
  Qed.
  Variable veq : V -> V -> bool.
  Lemma hash_eq a b : NoDup (map fst a) -> NoDup (map fst b) -> (forall k v u, veq v u = true -> hash2 k v = hash2 k u) ->
    dict_eq V veq a b = true -> hash_items V hash2 0 a = hash_items V hash2 0 b.
  Proof.
    intros Na Nb HV E. unfold dict_eq in E. apply Bool.andb_true_iff in E as [EL EA]. apply Z.eqb_eq in EL. rewrite forallb_forall in EA.
    rewrite !hash_items_xorl. apply xorl_perm.
    set (g := fun k => match dget b k with Some v => hash2 k v | None => None end).
    assert (A : map (fun p => hash2 (fst p) (snd p)) a = map g (map fst a)).
    { rewrite map_map. apply map_ext_in. intros [k v] Hp. unfold g. specialize (EA _ Hp). cbn in *. destruct (dget b k); [|discriminate]. now apply HV. }
    assert (B : map (fun p => hash2 (fst p) (snd p)) b = map g (map fst b)).
    { rewrite map_map. apply map_ext_in. intros [k v] Hp. unfold g. cbn. now rewrite (dget_In b k v Nb Hp). }
    rewrite A, B. apply Permutation_map. apply NoDup_Permutation_bis; auto.
    - rewrite !map_length. unfold zlen in EL. lia.
    - intros k Hk. apply in_map_iff in Hk as ([k' v] & <- & Hp). specialize (EA _ Hp). cbn in *. apply dget_in. destruct (dget b k'); [discriminate|]. discriminate.
  Qed.

  (** ** Reachable states *)
  Notation state := (state V).
  Notation contents := (contents V).
  Notation heap_get := (heap_get V).
  Record wf (s : state) : Prop :=
    { wf_owned : forall a, In a (s_owned V s) -> 0 <= a < zlen (s_heap V s);
      wf_at : forall x, In x (s_frozen V s) -> 0 <= f_at x < zlen (s_heap V s) /\ ~ In (f_at x) (s_owned V s);
      wf_keys : forall d, In d (s_heap V s) -> NoDup (map fst d);
      wf_hash : forall x h, In x (s_frozen V s) -> f_hash x = Some h -> hash_items V hash2 0 (heap_get s (f_at x)) = Ok h }.

  Lemma zlen_snoc {A} (l : list A) x : zlen (l ++ [x]) = zlen l + 1.
  Proof. unfold zlen. rewrite app_length. cbn. lia. Qed.
  Lemma znth_app_l {A} (l l' : list A) i : 0 <= i < zlen l -> znth (l ++ l') i = znth l i.
  Proof. intros H. unfold znth. destruct (i <? 0); auto. apply nth_error_app1. unfold zlen in H. lia. Qed.
  Lemma znth_snoc {A} (l : list A) x : znth (l ++ [x]) (zlen l) = Some x.
  Proof.
    unfold znth, zlen. destruct (Z.of_nat (List.length l) <? 0) eqn:E; [lia|]. rewrite Nat2Z.id, nth_error_app2, Nat.sub_diag; auto.
  Qed.
  Lemma nth_replace {A} (l : list A) : forall n x m, nth_error (replace_at l n x) m = if Nat.eqb n m then (match nth_error l m with Some _ => Some x | None => None end) else nth_error l m.
  Proof. induction l as [|y t IH]; intros n x m; destruct n, m; cbn; auto. destruct (Nat.eqb n m); auto. Qed.
  Lemma length_replace {A} (l : list A) : forall n x, List.length (replace_at l n x) = List.length l.
  Proof. induction l; intros n x; destruct n; cbn; auto. Qed.
  Lemma in_replace {A} (l : list A) : forall n x y, In y (replace_at l n x) -> y = x \/ In y l.
  Proof.
    induction l as [|z t IH]; intros n x y; destruct n; cbn; auto; intros [H|H]; auto. destruct (IH _ _ _ H); auto.
  Qed.
  Lemma in_nth {A} (l : list A) n x : nth_error l n = Some x -> In x l.
  Proof. apply nth_error_In. Qed.

  Lemma get_app (s : state) o f d a : 0 <= a < zlen (s_heap V s) -> heap_get (mkState V (s_heap V s ++ [d]) o f) a = heap_get s a.
  Proof. intros H. unfold MapModel.heap_get. cbn [s_heap]. now rewrite znth_app_l. Qed.
  Lemma get_snoc (s : state) o f d : heap_get (mkState V (s_heap V s ++ [d]) o f) (zlen (s_heap V s)) = d.
  Proof. unfold MapModel.heap_get. cbn [s_heap]. now rewrite znth_snoc. Qed.
  Lemma heap_nodup (s : state) a : wf s -> NoDup (map fst (heap_get s a)).
  Proof.
    intros W. unfold MapModel.heap_get. destruct (znth (s_heap V s) a) eqn:E; [|constructor]. apply (wf_keys s W). now apply znth_in in E.
  Qed.
  Lemma contents_nodup (s : state) f : wf s -> NoDup (map fst (contents s f)).
  Proof. intros W. unfold MapModel.contents. destruct (znth _ f); [now apply heap_nodup|constructor]. Qed.

  (** What a step may do to the existing frozen dictionaries. *)
  Definition keeps (s s' : state) : Prop := forall f, 0 <= f < zlen (s_frozen V s) ->
    0 <= f < zlen (s_frozen V s') /\ contents s' f = contents s f.

  Lemma alloc_frozen s d : wf s -> NoDup (map fst d) ->
    let s' := mkState V (s_heap V s ++ [d]) (s_owned V s) (s_frozen V s ++ [mkFrozen (zlen (s_heap V s)) None]) in
    wf s' /\ keeps s s' /\ contents s' (zlen (s_frozen V s)) = d.
  Proof.
    intros W N s'. assert (L : 0 <= zlen (s_heap V s)) by (unfold zlen; lia). split; [|split].
    - split; cbn.
      + intros a H. rewrite zlen_snoc. apply (wf_owned s W) in H. lia.
      + intros x H. rewrite zlen_snoc. apply in_app_or in H as [H|[<-|[]]].
        * destruct (wf_at s W x H). split; [lia|auto].
        * cbn. split; [lia|]. intros C. apply (wf_owned s W) in C. lia.
      + intros x H. apply in_app_or in H as [H|[<-|[]]]; auto. now apply (wf_keys s W).
      + intros x h H E. apply in_app_or in H as [H|[<-|[]]]; [|discriminate]. unfold s'. rewrite get_app; [|now apply (wf_at s W)].
        now apply (wf_hash s W).
    - intros f Hf. cbn. split; [rewrite zlen_snoc; lia|]. unfold MapModel.contents. cbn. rewrite znth_app_l; auto.
      destruct (znth (s_frozen V s) f) as [x|] eqn:E; auto. unfold s'. apply get_app. apply (wf_at s W). now apply znth_in in E.
    - unfold MapModel.contents. cbn. rewrite znth_snoc. cbn. unfold s'. now rewrite get_snoc.
  Qed.
  Lemma as_kwargs_ok (d : dict) all : as_kwargs V d = Ok all -> str_items V all = d.
  Proof.
    revert all. induction d as [|[k v] t IH]; intros all; cbn; [now intros [= <-]|]. destruct k; [|discriminate].
    destruct (as_kwargs V t) as [r|]; [|discriminate]. intros [= <-]. cbn. f_equal. now apply IH.
  Qed.
  Lemma as_kwargs_total (d : dict) : (forall k, In k (map fst d) -> exists s, k = KStr s) -> exists all, as_kwargs V d = Ok all.
  Proof.
    induction d as [|[k v] t IH]; intros H; cbn; [eauto|]. destruct (H k) as (s & ->); [left; auto|].
    destruct IH as (r & ->); [intros; apply H; right; auto|]. cbn. eauto.
  Qed.
  Lemma as_kwargs_err (d : dict) n : In (KObj n) (map fst d) -> as_kwargs V d = Err TypeError.
  Proof.
    induction d as [|[k v] t IH]; intros H; [destruct H|]. cbn. destruct k as [s|m]; auto. destruct H as [H|H]; [discriminate|].
    now rewrite IH.
  Qed.

  Lemma apply_wf s o : wf s -> wf (apply V hash2 s o) /\ keeps s (apply V hash2 s o).
  Proof.
    intros W. assert (L : 0 <= zlen (s_heap V s)) by (unfold zlen; lia).
    assert (SAME : wf s /\ keeps s s) by (split; [auto|intros f Hf; auto]).
    assert (MUT : forall a d, owned V s a = true -> NoDup (map fst d) -> wf (heap_set V s a d) /\ keeps s (heap_set V s a d)).
    { intros a d O N. unfold owned in O. apply existsb_exists in O as (a' & Ha & E). apply Z.eqb_eq in E. subst a'.
      pose proof (wf_owned s W a Ha) as Ra. unfold heap_set. assert (a <? 0 = false) as -> by lia.
      assert (HG : forall o1 f1 b, b <> a -> heap_get (mkState V (replace_at (s_heap V s) (Z.to_nat a) d) o1 f1) b = heap_get s b).
      { intros o1 f1 b Hb. unfold MapModel.heap_get, znth. cbn [s_heap]. destruct (b <? 0) eqn:Q; auto. rewrite nth_replace.
        destruct (Nat.eqb_spec (Z.to_nat a) (Z.to_nat b)) as [Q2|_]; auto. exfalso. apply Hb. lia. }
      assert (ZL : zlen (replace_at (s_heap V s) (Z.to_nat a) d) = zlen (s_heap V s)) by (unfold zlen; now rewrite length_replace).
      split.
      - split; cbn.
        + intros b Hb. rewrite ZL. now apply (wf_owned s W).
        + intros x Hx. rewrite ZL. now apply (wf_at s W).
        + intros d' Hd. apply in_replace in Hd as [->|Hd]; auto. now apply (wf_keys s W).
        + intros x h Hx E. rewrite HG; [now apply (wf_hash s W)|]. intros Q. destruct (wf_at s W x Hx) as [_ C]. apply C. congruence.
      - intros f Hf. split; auto. unfold MapModel.contents. cbn. destruct (znth (s_frozen V s) f) as [x|] eqn:E; auto. apply HG.
        apply znth_in in E. intros Q. destruct (wf_at s W x E) as [_ C]. apply C. congruence. }
    destruct o as [kvs|a k v|a k|a kw|f kw|f]; cbn [apply].
    - unfold new_dict, alloc. cbn. split.
      + split; cbn.
        * intros a H. rewrite zlen_snoc. apply in_app_or in H as [H|[<-|[]]]; [apply (wf_owned s W) in H|]; lia.
        * intros x H. rewrite zlen_snoc. destruct (wf_at s W x H) as [R C]. split; [lia|]. intros Q. apply in_app_or in Q as [Q|[Q|[]]]; auto. lia.
        * intros d H. apply in_app_or in H as [H|[<-|[]]]; [now apply (wf_keys s W)|]. apply nodup_dupdate. constructor.
        * intros x h H E. rewrite get_app; [now apply (wf_hash s W)|now apply (wf_at s W)].
      + intros f Hf. split; auto. unfold MapModel.contents. cbn. destruct (znth (s_frozen V s) f) as [x|] eqn:E; auto. apply get_app.
        apply (wf_at s W). now apply znth_in in E.
    - destruct (owned V s a) eqn:O; auto. apply MUT; auto. apply nodup_dset. now apply heap_nodup.
    - destruct (owned V s a) eqn:O; auto. apply MUT; auto. apply nodup_ddel. now apply heap_nodup.
    - destruct (owned V s a) eqn:O; auto. unfold freeze, alloc. cbn.
      destruct (alloc_frozen s (dupdate (dupdate [] (heap_get s a)) (str_items V kw)) W) as (A & B & _); auto.
      apply nodup_dupdate, nodup_dupdate. constructor.
    - unfold new. destruct (as_kwargs V _) as [all|]; auto. unfold alloc. cbn.
      destruct (alloc_frozen s (dupdate [] (str_items V all)) W) as (A & B & _); auto. apply nodup_dupdate. constructor.
    - unfold hash. destruct (znth (s_frozen V s) f) as [x|] eqn:E; auto. destruct (f_hash x) eqn:Hh; auto.
      destruct (hash_items V hash2 0 (heap_get s (f_at x))) as [h|] eqn:HI; auto. cbn.
      assert (Rf : 0 <= f < zlen (s_frozen V s)).
      { unfold znth in E. destruct (f <? 0) eqn:Q; [discriminate|]. assert (N : nth_error (s_frozen V s) (Z.to_nat f) <> None) by congruence.
        apply nth_error_Some in N. unfold zlen. lia. }
      split.
      + split; cbn.
        * apply (wf_owned s W).
        * intros y Hy. apply in_replace in Hy as [->|Hy]; [cbn|]; apply (wf_at s W); auto. now apply znth_in in E.
        * apply (wf_keys s W).
        * intros y h' Hy Ey. apply in_replace in Hy as [->|Hy]; [cbn in *; injection Ey as <-; exact HI|]. now apply (wf_hash s W).
      + intros g Hg. cbn. split; [unfold zlen in *; rewrite length_replace; auto|]. unfold MapModel.contents. cbn.
        unfold znth. destruct (g <? 0) eqn:Q; auto. rewrite nth_replace. destruct (Nat.eqb_spec (Z.to_nat f) (Z.to_nat g)) as [Q2|_]; auto.
        assert (f = g) by lia. subst g. unfold znth in E. rewrite Q in E. rewrite E. reflexivity.
  Qed.
  Lemma wf_start : wf (start V).
  Proof. split; cbn; tauto. Qed.
  Lemma run_wf ops : forall s, wf s -> wf (run V hash2 s ops) /\ keeps s (run V hash2 s ops).
  Proof.
    induction ops as [|o ops IH]; intros s W; cbn; [split; [auto|intros f Hf; auto]|].
    destruct (apply_wf s o W) as [W1 K1]. destruct (IH _ W1) as [W2 K2]. split; auto. intros f Hf.
    destruct (K1 f Hf) as [R E]. destruct (K2 f R) as [R2 E2]. split; [exact R2|]. etransitivity; [exact E2|exact E].
  Qed.
  Lemma reach_wf ops : wf (run V hash2 (start V) ops).
  Proof. apply run_wf. apply wf_start. Qed.

  (** ** Theorem-ready statements *)
  Lemma frozen_stays ops1 ops2 f : 0 <= f < zlen (s_frozen V (run V hash2 (start V) ops1)) ->
    contents (run V hash2 (start V) (ops1 ++ ops2)) f = contents (run V hash2 (start V) ops1) f.
  Proof.
    intros H. unfold run at 1. rewrite fold_left_app. fold (run V hash2 (start V) ops1).
    destruct (run_wf ops2 _ (reach_wf ops1)) as [_ K]. now apply K.
  Qed.
  Ltac use C := match type of C with _ = ?r => match goal with |- context [MapModel.contents V ?x (zlen ?y)] =>
    replace (MapModel.contents V x (zlen y)) with r by (symmetry; exact C) end end.
  Lemma freeze_spec ops a kw f s' : let s := run V hash2 (start V) ops in
    freeze V s a kw = (f, s') ->
    (forall k, dget (contents s' f) k = match dget (rev (str_items V kw)) k with Some v => Some v | None => dget (heap_get s a) k end) /\
    NoDup (keys V s' f) /\ (kw = [] -> keys V s' f = map fst (heap_get s a)) /\ keeps s s'.
  Proof.
    intros s E. assert (W : wf s) by apply reach_wf. unfold freeze, alloc in E. cbn [s_heap s_owned s_frozen] in E. apply pair_equal_spec in E as [<- <-].
    destruct (alloc_frozen s (dupdate (dupdate [] (heap_get s a)) (str_items V kw)) W) as (A & B & C).
    { apply nodup_dupdate, nodup_dupdate. constructor. }
    split; [|split; [|split]]; auto.
    - intros k. use C. rewrite dget_dupdate, dupdate_copy; [auto|now apply heap_nodup].
    - unfold keys. use C. apply nodup_dupdate, nodup_dupdate. constructor.
    - intros ->. unfold keys. use C. cbn [str_items map]. rewrite dupdate_copy; [|now apply heap_nodup]. reflexivity.
  Qed.
  Lemma new_spec ops f kw : let s := run V hash2 (start V) ops in
    0 <= f < zlen (s_frozen V s) -> (forall k, In k (keys V s f) -> exists x, k = KStr x) ->
    exists g s', new V s f kw = (Ok g, s') /\
      (forall k, dget (contents s' g) k = match dget (rev (str_items V kw)) k with Some v => Some v | None => dget (contents s f) k end) /\
      NoDup (keys V s' g) /\ keeps s s' /\ g <> f.
  Proof.
    intros s Hf HK. assert (W : wf s) by apply reach_wf. pose proof (contents_nodup s f W) as N.
    unfold new. rewrite (dupdate_copy (contents s f) N).
    assert (ND : NoDup (map fst (dupdate (contents s f) (str_items V kw)))) by (now apply nodup_dupdate).
    destruct (as_kwargs_total (dupdate (contents s f) (str_items V kw))) as (all & EA).
    { intros k Hk. apply dget_in in Hk. rewrite dget_dupdate in Hk.
      destruct (dget (rev (str_items V kw)) k) eqn:Q.
      - assert (X : dget (rev (str_items V kw)) k <> None) by congruence. apply dget_in in X. rewrite map_rev in X. apply in_rev in X.
        unfold str_items in X. rewrite map_map in X. apply in_map_iff in X as (p & <- & _). cbn. eauto.
      - apply HK. now apply dget_in. }
    rewrite EA. pose proof (as_kwargs_ok _ _ EA) as EQ. rewrite EQ. rewrite (dupdate_copy _ ND). unfold alloc. cbn [s_heap s_owned s_frozen].
    eexists _, _. split; [reflexivity|].
    destruct (alloc_frozen s (dupdate (contents s f) (str_items V kw)) W ND) as (A & B & C).
    split; [|split; [|split]]; auto.
    - intros k. use C. now rewrite dget_dupdate.
    - unfold keys. use C. exact ND.
    - lia.
  Qed.
  Lemma hash_spec ops f : let s := run V hash2 (start V) ops in
    0 <= f < zlen (s_frozen V s) -> fst (hash V hash2 s f) = hash_items V hash2 0 (contents s f).
  Proof.
    intros s Hf. assert (W : wf s) by apply reach_wf. unfold hash, MapModel.contents.
    destruct (znth (s_frozen V s) f) as [x|] eqn:E.
    - destruct (f_hash x) as [h|] eqn:Hh; [symmetry; apply (wf_hash s W); auto; now apply znth_in in E|].
      destruct (hash_items V hash2 0 _); reflexivity.
    - exfalso. unfold znth in E. assert (f <? 0 = false) as Q by lia. rewrite Q in E. apply nth_error_None in E. unfold zlen in Hf. lia.
  Qed.
  Lemma eq_spec ops f g : let s := run V hash2 (start V) ops in
    frozen_eq V veq s f g = true <-> (forall k, match dget (contents s f) k, dget (contents s g) k with
                                   | Some v, Some u => veq v u = true | None, None => True | _, _ => False end).
  Proof.
    intros s. assert (W : wf s) by apply reach_wf. unfold frozen_eq. rewrite !dupdate_copy; try (now apply contents_nodup).
    pose proof (contents_nodup s f W) as Nf. pose proof (contents_nodup s g W) as Ng.
    set (a := contents s f) in *. set (b := contents s g) in *. unfold dict_eq. rewrite Bool.andb_true_iff, Z.eqb_eq, forallb_forall. split.
    - intros [EL EA] k.
      assert (INC : incl (map fst a) (map fst b)).
      { intros j Hj. apply in_map_iff in Hj as ([j' v] & <- & Hp). specialize (EA _ Hp). cbn in *. apply dget_in. now destruct (dget b j'). }
      destruct (dget a k) as [v|] eqn:Q.
      + assert (In (k, v) a) as Hp.
        { clear - Q. induction a as [|[k' w] t IH]; cbn in *; [discriminate|]. destruct (key_eqb k k') eqn:E; [|auto].
          apply key_eqb_eq in E. left. congruence. }
        specialize (EA _ Hp). cbn in EA. now destruct (dget b k).
      + destruct (dget b k) eqn:Q2; auto. assert (X : dget b k <> None) by congruence. apply dget_in in X.
        assert (INV : incl (map fst b) (map fst a)).
        { apply NoDup_length_incl; auto. rewrite !map_length. unfold zlen in EL. lia. }
        apply INV in X. apply dget_in in X. congruence.
    - intros H. split.
      + assert (P : Permutation (map fst a) (map fst b)).
        { apply NoDup_Permutation; auto. intros k. rewrite <- !dget_in. specialize (H k). destruct (dget a k), (dget b k); split; congruence || tauto. }
        apply Permutation_length in P. rewrite !map_length in P. unfold zlen. now rewrite P.
      + intros [k v] Hp. cbn. specialize (H k). rewrite (dget_In a k v Nf Hp) in H. now destruct (dget b k).
  Qed.
  Lemma eq_hash ops f g : let s := run V hash2 (start V) ops in
    0 <= f < zlen (s_frozen V s) -> 0 <= g < zlen (s_frozen V s) -> (forall k v u, veq v u = true -> hash2 k v = hash2 k u) ->
    frozen_eq V veq s f g = true -> fst (hash V hash2 s f) = fst (hash V hash2 s g).
  Proof.
    intros s Hf Hg HV E. assert (W : wf s) by apply reach_wf. unfold s. rewrite !hash_spec; auto. fold s.
    unfold frozen_eq in E. rewrite !dupdate_copy in E; try (now apply contents_nodup). apply hash_eq; auto; now apply contents_nodup.
  Qed.
  Lemma dget_some_in (d : dict) k v : dget d k = Some v -> In (k, v) d.
  Proof.
    induction d as [|(j & w) d IH]; cbn [MapModel.dget]; [discriminate|]. destruct (key_eqb k j) eqn:E.
    - intros [= ->]. apply key_eqb_eq in E as ->. now left.
    - right. now apply IH.
  Qed.
  Lemma reading_spec ops f k : let s := run V hash2 (start V) ops in
    (forall v, getitem V s f k = Ok v <-> In (k, v) (contents s f)) /\
    (getitem V s f k = Err KeyError <-> ~ In k (map fst (contents s f))) /\
    (contains V s f k = true <-> In k (map fst (contents s f))) /\
    len V s f = zlen (keys V s f) /\ NoDup (keys V s f).
  Proof.
    intros s. pose proof (contents_nodup s f (reach_wf ops)) as ND. unfold getitem, contains, len, keys.
    pose proof (dget_in (contents s f) k) as DI. split; [|split; [|split; [|split]]].
    - intros v. split.
      + destruct (dget (contents s f) k) eqn:E; intros [= <-]. now apply dget_some_in.
      + intros I. now rewrite (dget_In _ _ _ ND I).
    - rewrite <- DI. destruct (dget (contents s f) k); split; intros H; try discriminate; try reflexivity; [|intros C; now apply C]. exfalso. apply H. discriminate.
    - rewrite <- DI. destruct (dget (contents s f) k); split; intros H; try discriminate; try reflexivity. now elim H.
    - unfold zlen. now rewrite map_length.
    - exact ND.
  Qed.
  Lemma new_other ops f kw n : let s := run V hash2 (start V) ops in In (KObj n) (keys V s f) -> new V s f kw = (Err TypeError, s).
  Proof.
    intros s H. assert (W : wf s) by apply reach_wf. unfold new. rewrite (as_kwargs_err _ n); auto. apply dget_in. rewrite dget_dupdate.
    destruct (dget (rev _) _); [discriminate|]. rewrite dupdate_copy; [|now apply contents_nodup]. now apply dget_in.
  Qed.
End Facts.

(** Lemmas behind MoveProps.v: lines, borders, order statistics. *)
From Verif Require Import Base BaseFacts CoordModel NdModel NdSpec NdProofs FrameModel ChunkModel
  CmModel TaperProofs2 ReadProofs MuteModel CalcModel CalcProofs MoveModel MoveSpec.
From Coq Require Import Strings.String ZifyBool QArith Qabs Lqa Sorting.Permutation Sorting.Sorted.
Local Open Scope Z_scope.
Local Open Scope list_scope.

(** ** Lines *)
Lemma line_total {A} (a : nd A) ax n ix : wf_nd a -> nth_error (nd_shape a) ax = Some n -> inb (nd_shape a) ix -> 0 <= n ->
  exists f, traverse (fun k => nd_get a (put ix ax k)) (zrange n) = Some f /\ line a ax ix f.
Proof.
  intros W E I N. destruct (traverse_total (fun k => nd_get a (put ix ax k)) (zrange n)) as [vs T].
  - intros k K. apply in_zrange in K. apply nd_get_total; [exact W|]. apply (inb_put _ _ _ n) with n; auto. rewrite (put_nth _ _ _ E). exact I.
  - exists vs. split; [exact T|]. destruct (traverse_spec _ _ _ T) as [L S]. rewrite zlen_zrange in L. split; [rewrite E; f_equal; lia|].
    intros k K. destruct (S k k) as (y & Ey & Z).
    + rewrite znth_zrange. destruct ((0 <=? k) && (k <? n)) eqn:Q; [reflexivity|lia].
    + rewrite Ey, Z. reflexivity.
Qed.
Lemma line_eq {A} (a : nd A) ax ix f g : line a ax ix f -> line a ax ix g -> f = g.
Proof.
  intros [E H] [E' H']. rewrite E in E'. injection E' as L. apply znth_ext_len; [exact L|]. intros k K. rewrite <- H, <- H' by lia. reflexivity.
Qed.
Lemma along_ok {A C} (f : list A -> list C) ax (a : nd A) n : wf_nd a -> nth_error (nd_shape a) ax = Some n ->
  (forall vs, zlen vs = n -> zlen (f vs) = n) ->
  exists b, along f ax a = Some b /\ wf_nd b /\ nd_shape b = nd_shape a /\
    forall ix i vs, inb (nd_shape a) ix -> nth_error ix ax = Some i -> line a ax ix vs ->
      0 <= i < zlen vs /\ nd_get b ix = znth (f vs) i.
Proof.
  intros W E FL. unfold along. rewrite E.
  assert (G : forall ix, inb (nd_shape a) ix -> exists i vs, nth_error ix ax = Some i /\ 0 <= i < n /\
     traverse (fun k => nd_get a (put ix ax k)) (zrange n) = Some vs /\ line a ax ix vs).
  { intros ix I. destruct (inb_axis _ _ _ _ I E) as (i & Ei & B). destruct (line_total a ax n ix W E I) as (vs & T & L); [lia|].
    exists i, vs. auto. }
  match goal with |- context [nd_build ?s ?g] => destruct (nd_build_total s g) as [b Eb] end.
  - apply W.
  - intros ix I. destruct (G ix I) as (i & vs & Ei & B & T & L). rewrite Ei, T. apply znth_range. destruct L as [L _].
    rewrite E in L. injection L as L. rewrite FL; [exact B|symmetry; exact L].
  - exists b. rewrite Eb. apply nd_build_spec in Eb; [|apply W]. destruct Eb as (S & Wb & H). split; [reflexivity|]. split; [exact Wb|]. split; [exact S|].
    intros ix i vs I Ei L. destruct (G ix I) as (i' & vs' & Ei' & B & T & L'). rewrite Ei in Ei'. injection Ei' as <-.
    assert (vs' = vs) by (eapply line_eq; eauto). subst vs'. destruct L as [L _]. rewrite E in L. injection L as L. split; [lia|].
    destruct (H ix I) as (q & Q1 & Q2). rewrite Ei, T in Q1. rewrite Q1, Q2. reflexivity.
Qed.

Ltac dlia := Z.to_euclidean_division_equations; lia.

(** ** Borders *)
Lemma some_inj {A} (x y : A) : Some x = Some y -> x = y.
Proof. congruence. Qed.
Lemma border_copy md n j k : 0 < n -> border md n j = Some k -> copy_of md n j k.
Proof.
  intros N. unfold border, copy_of. destruct md.
  - pose proof (Z.mod_pos_bound j (2 * n) ltac:(lia)) as B. pose proof (Z.div_mod j (2 * n) ltac:(lia)) as D.
    cbv zeta. set (r := j mod (2 * n)) in *. set (q := j / (2 * n)) in *. clearbody r q.
    destruct (r <? n) eqn:Q; intros K; apply some_inj in K; subst k; (split; [lia|]).
    + exists q. left. lia.
    + exists (q + 1). right. lia.
  - destruct ((0 <=? j) && (j <? n)) eqn:Q; [|discriminate]. intros [= <-]. lia.
  - intros [= <-]. lia.
  - destruct (n =? 1) eqn:Q1.
    + intros [= <-]. split; [lia|]. exists j. lia.
    + pose proof (Z.mod_pos_bound j (2 * n - 2) ltac:(lia)) as B. pose proof (Z.div_mod j (2 * n - 2) ltac:(lia)) as D.
      replace (Z.max 1 (2 * n - 2)) with (2 * n - 2) by lia.
      cbv zeta. set (r := j mod (2 * n - 2)) in *. set (q := j / (2 * n - 2)) in *. clearbody r q.
      destruct (r <? n) eqn:Q; intros K; apply some_inj in K; subst k; (split; [lia|]).
      * exists q. left. lia.
      * exists (q + 1). right. lia.
  - intros [= <-]. pose proof (Z.mod_pos_bound j n ltac:(lia)) as B. pose proof (Z.div_mod j n ltac:(lia)) as D.
    split; [lia|]. exists (j / n). lia.
Qed.
Lemma border_none md n j : border md n j = None -> md = MConstant /\ ~ 0 <= j < n.
Proof.
  unfold border. destruct md; try discriminate.
  - destruct ((0 <=? j) && (j <? n)) eqn:Q; [discriminate|]. intros _. split; [reflexivity|lia].
  - destruct (n =? 1); discriminate.
Qed.
Lemma read_continued md cval f j : 0 < zlen f -> continued md cval f j (read md cval f j).
Proof.
  intros N. unfold read. destruct (border md (zlen f) j) as [k|] eqn:E.
  - left. exists k. apply border_copy in E; [|exact N]. split; [exact E|]. apply znth_at, E.
  - right. apply border_none in E. tauto.
Qed.

(** ** Order statistics *)
Lemma qinsert_perm x l : Permutation (x :: l) (qinsert x l).
Proof.
  induction l as [|y t IH]; [reflexivity|]. cbn [qinsert]. destruct (qle x y); [reflexivity|].
  rewrite perm_swap. constructor. exact IH.
Qed.
Lemma qsort_perm l : Permutation l (qsort l).
Proof. induction l as [|x t IH]; [constructor|]. cbn [qsort]. rewrite <- qinsert_perm. constructor. exact IH. Qed.
Lemma qinsert_sorted x l : StronglySorted Qle l -> StronglySorted Qle (qinsert x l).
Proof.
  induction l as [|y t IH]; intros S; cbn [qinsert].
  - repeat constructor.
  - apply StronglySorted_inv in S. destruct S as [S F]. unfold qle. destruct (Qle_bool x y) eqn:E.
    + apply Qle_bool_iff in E. constructor; [constructor; assumption|]. constructor; [exact E|].
      eapply Forall_impl; [|exact F]. intros z. cbv beta. intros H. eapply Qle_trans; eassumption.
    + constructor; [apply IH, S|]. apply Forall_forall. intros z I.
      apply (Permutation_in _ (Permutation_sym (qinsert_perm x t))) in I. destruct I as [<-|I].
      * apply Qlt_le_weak, Qnot_le_lt. intros C. apply Qle_bool_iff in C. congruence.
      * rewrite Forall_forall in F. apply F, I.
Qed.
Lemma qsort_sorted l : StronglySorted Qle (qsort l).
Proof. induction l as [|x t IH]; [constructor|]. apply qinsert_sorted, IH. Qed.
Lemma qsort_len l : zlen (qsort l) = zlen l.
Proof. unfold zlen. rewrite (Permutation_length (qsort_perm l)). reflexivity. Qed.
Lemma ranked_sort l k : 0 <= k < zlen l -> ranked l k (at_ (qsort l) k).
Proof.
  intros B. exists (qsort l). split; [apply qsort_perm|]. split; [apply qsort_sorted|]. apply znth_at. rewrite qsort_len. exact B.
Qed.
Lemma sorted_le s i j x y : StronglySorted Qle s -> 0 <= i <= j -> znth s i = Some x -> znth s j = Some y -> (x <= y)%Q.
Proof.
  intros S. revert i j. induction S as [|z t S IH F]; intros i j B; [rewrite znth_nil; discriminate|].
  destruct (Z.eq_dec i 0) as [->|I].
  - rewrite !znth_cons. cbn [Z.eqb]. intros [= <-]. destruct (j =? 0) eqn:J; [intros [= <-]; apply Qle_refl|].
    intros E. apply znth_in in E. rewrite Forall_forall in F. apply F, E.
  - rewrite !znth_cons. destruct (i =? 0) eqn:I0; [lia|]. destruct (j =? 0) eqn:J0; [lia|]. apply IH. lia.
Qed.
Lemma qleast_ok l : l <> [] -> In (qleast l) l /\ forall x, In x l -> (qleast l <= x)%Q.
Proof.
  intros N. assert (P : 0 < zlen l) by (destruct l; [congruence|unfold zlen; cbn [List.length]; lia]).
  assert (E : znth (qsort l) 0 = Some (qleast l)) by (apply znth_at; rewrite qsort_len; lia). split.
  - apply (Permutation_in _ (Permutation_sym (qsort_perm l))). eapply znth_in, E.
  - intros x I. apply (Permutation_in _ (qsort_perm l)) in I. apply in_znth in I. destruct I as [j J].
    apply (sorted_le _ 0 j _ _ (qsort_sorted l)) with (2 := E) (3 := J). assert (0 <= j < zlen (qsort l)) by (apply znth_range; eauto). lia.
Qed.
Lemma qgreatest_ok l : l <> [] -> In (qgreatest l) l /\ forall x, In x l -> (x <= qgreatest l)%Q.
Proof.
  intros N. assert (P : 0 < zlen l) by (destruct l; [congruence|unfold zlen; cbn [List.length]; lia]).
  assert (E : znth (qsort l) (zlen l - 1) = Some (qgreatest l)) by (apply znth_at; rewrite qsort_len; lia). split.
  - apply (Permutation_in _ (Permutation_sym (qsort_perm l))). eapply znth_in, E.
  - intros x I. apply (Permutation_in _ (qsort_perm l)) in I. apply in_znth in I. destruct I as [j J].
    apply (sorted_le _ j (zlen l - 1) _ _ (qsort_sorted l)) with (2 := J) (3 := E). assert (B : 0 <= j < zlen (qsort l)) by (apply znth_range; eauto). rewrite qsort_len in B. lia.
Qed.
Lemma inject_pos n : 0 < n -> ~ (inject_Z n == 0)%Q.
Proof. intros H E. unfold Qeq in E. cbn in E. lia. Qed.
Lemma qmean_ok l : l <> [] -> mean_of l (qmean l).
Proof.
  intros N. assert (P : 0 < zlen l) by (destruct l; [congruence|unfold zlen; cbn [List.length]; lia]).
  unfold mean_of, qmean. change (total_of l) with (qsum l). field. apply inject_pos, P.
Qed.
Lemma sp_reduce_ok op l : op <> OStd -> l <> [] -> reduces op l (sp_reduce op l).
Proof.
  intros O N. assert (P : 0 < zlen l) by (destruct l; [congruence|unfold zlen; cbn [List.length]; lia]).
  destruct op; cbn [reduces sp_reduce]; try contradiction.
  - apply ranked_sort. dlia.
  - apply qmean_ok, N.
  - apply (qmean_ok l N).
  - apply qleast_ok, N.
  - apply qgreatest_ok, N.
Qed.
Lemma odd_mod n : Z.odd n = true -> n mod 2 = 1.
Proof. intros H. rewrite Zmod_odd, H. reflexivity. Qed.
Lemma even_mod n : Z.odd n = false -> n mod 2 = 0.
Proof. intros H. rewrite Zmod_odd, H. reflexivity. Qed.
Lemma bn_reduce_ok root ddof op l : (op = OStd -> ddof < zlen l) -> l <> [] -> reduces_bn root ddof op l (bn_reduce root ddof op l).
Proof.
  intros O N. assert (P : 0 < zlen l) by (destruct l; [congruence|unfold zlen; cbn [List.length]; lia]).
  destruct op; cbn [reduces_bn reduces bn_reduce].
  - exists (at_ (qsort l) ((zlen l - 1) / 2)), (at_ (qsort l) (zlen l / 2)). split; [apply ranked_sort; dlia|].
    split; [apply ranked_sort; dlia|]. unfold bn_median. destruct (Z.odd (zlen l)) eqn:Q.
    + replace ((zlen l - 1) / 2) with (zlen l / 2); [field|]. apply odd_mod in Q. dlia.
    + replace ((zlen l - 1) / 2) with (zlen l / 2 - 1); [reflexivity|]. apply even_mod in Q. dlia.
  - apply qmean_ok, N.
  - exists (qmean l). eexists. split; [apply qmean_ok, N|]. split; [reflexivity|].
    change (total_of ?l) with (qsum l). field. apply inject_pos. specialize (O eq_refl). lia.
  - reflexivity.
  - apply qleast_ok, N.
  - apply qgreatest_ok, N.
Qed.

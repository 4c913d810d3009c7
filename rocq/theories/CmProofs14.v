(** Lemmas behind CmProps.v: rename. *)
From Verif Require Import Base BaseFacts CoordModel CoordSpec CoordProofs CoordProofs2 CoordProofs3
  CoordProofs4 CoordProofs5 NdModel NdSpec NdProofs NdProofs2 NdProofs3 FrameModel FrameProofs5 ChunkModel CmModel CmSpec
  CmProofs CmProofs2 CmProofs3 CmProofs4 CmProofs5 CmProofs8 CmProofs10 CmProofs12 CmProofs13.
From Coq Require Import Strings.String ZifyBool Sorting.Permutation Sorting.Sorted.
Ltac Zify.zify_post_hook ::= Z.div_mod_to_equations.
Local Open Scope Z_scope.
Local Open Scope list_scope.

Definition names_of (cm : cman) : list string := map fst (cm_coords cm).

Lemma NoDup_map_inj {A B} (f : A -> B) l : (forall x y, In x l -> In y l -> f x = f y -> x = y) -> NoDup l -> NoDup (map f l).
Proof.
  intros H ND. revert H. induction ND as [|x t N ND IH]; intros H; cbn; constructor.
  - intros J. apply in_map_iff in J as (y & E & J). apply N. rewrite <- (H y x); auto; [right|left]; auto.
  - apply IH. intros a b X Y. apply H; right; assumption.
Qed.

Lemma dict_pop_spec {A} k (l : list (string * A)) : NoDup (map fst l) ->
  dict_pop k l = match assoc k l with
                 | Some v => Some (v, filter (fun e => negb (String.eqb (fst e) k)) l)
                 | None => None end.
Proof.
  induction l as [|[k' v] t IH]; intros ND; [reflexivity|]. inversion ND as [|? ? N ND']; subst. cbn [dict_pop assoc filter fst].
  destruct (String.eqb_spec k k') as [->|M].
  - rewrite String.eqb_refl. cbn [negb]. f_equal. f_equal. symmetry. clear IH ND ND'. induction t as [|[x w] t IH]; [reflexivity|].
    cbn [filter fst]. destruct (String.eqb_spec x k') as [->|]; [exfalso; apply N; left; reflexivity|]. cbn [negb]. f_equal.
    apply IH. intros H; apply N; right; exact H.
  - rewrite (IH ND'). destruct (assoc k t); [|reflexivity]. destruct (String.eqb_spec k' k) as [->|]; [congruence|reflexivity].
Qed.

Lemma moved_assoc {A} old new (v : A) l x : old <> new ->
  assoc x (assoc_set new v (filter (fun e => negb (String.eqb (fst e) old)) l)) =
  if String.eqb x new then Some v else if String.eqb x old then None else assoc x l.
Proof.
  intros N. rewrite assoc_assoc_set. rewrite (assoc_filter (fun k => negb (String.eqb k old)) x l).
  destruct (String.eqb x new); [reflexivity|]. destruct (String.eqb x old); reflexivity.
Qed.

Lemma put_swap old new : forall l i, NoDup l -> index_of old l = Some i -> put l i new = map (swap_name old new) l.
Proof.
  induction l as [|x t IH]; intros i ND; cbn [index_of]; [discriminate|]. inversion ND as [|? ? N ND']; subst.
  destruct (String.eqb_spec old x) as [->|M].
  - intros [= <-]. cbn [put map]. unfold swap_name at 1. rewrite String.eqb_refl. f_equal.
    clear - N. induction t as [|y t IH]; [reflexivity|]. cbn [map]. unfold swap_name at 1.
    destruct (String.eqb_spec y x) as [->|]; [exfalso; apply N; left; reflexivity|]. f_equal. apply IH. intros H; apply N; right; exact H.
  - destruct (index_of old t) as [k|]; [|discriminate]. intros [= <-]. cbn [put map]. unfold swap_name at 1.
    destruct (String.eqb_spec x old) as [->|]; [congruence|]. f_equal. apply IH; auto.
Qed.
Lemma swap_notin old new l : ~ In old l -> map (swap_name old new) l = l.
Proof.
  induction l as [|y t IH]; [reflexivity|]. intros H. cbn [map]. unfold swap_name at 1.
  destruct (String.eqb_spec y old) as [->|]; [exfalso; apply H; left; reflexivity|]. f_equal. apply IH. intros J; apply H; right; exact J.
Qed.

Lemma swap_inj old new l x y : ~ In new l -> In x l -> In y l -> swap_name old new x = swap_name old new y -> x = y.
Proof.
  intros N X Y. unfold swap_name. destruct (String.eqb_spec x old) as [->|], (String.eqb_spec y old) as [->|]; intros E; subst; try reflexivity; contradiction.
Qed.

(** One rename to a new name. *)
Lemma rename_one_fresh cm old new : wf_cm cm -> In old (names_of cm) -> ~ In new (names_of cm) ->
  exists cm', rename_one (cm_dims cm, cm_coords cm, cm_dmap cm) (old, new) = Ok (cm_dims cm', cm_coords cm', cm_dmap cm') /\
    wf_cm cm' /\ cm_dims cm' = map (swap_name old new) (cm_dims cm) /\
    (forall x, In x (names_of cm') <-> In x (map (swap_name old new) (names_of cm))) /\
    (forall n, In n (names_of cm) -> assoc (swap_name old new n) (cm_coords cm') = assoc n (cm_coords cm)) /\
    (forall n, In n (names_of cm) -> assoc (swap_name old new n) (cm_dmap cm') = option_map (map (swap_name old new)) (assoc n (cm_dmap cm))).
Proof.
  intros W IO IN. assert (ON : old <> new) by (intros ->; contradiction).
  assert (DN : forall d, In d (cm_dims cm) -> In d (names_of cm)).
  { intros d D. destruct (con_dim _ (wf_con _ W) d D) as [[c C] _]. apply assoc_In. eauto. }
  assert (Nd : ~ In new (cm_dims cm)) by (intros J; apply IN, DN, J).
  assert (NK : forall n, In n (names_of cm) <-> In n (map fst (cm_dmap cm))) by (intros n; apply (wf_keys_iff cm W)).
  set (f := swap_name old new).
  destruct (proj2 (assoc_In old (cm_coords cm)) IO) as [m M].
  destruct (proj2 (assoc_In old (cm_dmap cm)) (proj1 (NK old) IO)) as [ds D].
  set (dm1 := map (fun e => (fst e, map f (snd e))) (cm_dmap cm)).
  set (dims' := map f (cm_dims cm)).
  set (cs' := assoc_set new m (filter (fun e => negb (String.eqb (fst e) old)) (cm_coords cm))).
  set (dm' := assoc_set new (map f ds) (filter (fun e => negb (String.eqb (fst e) old)) dm1)).
  assert (DM1 : forall x, assoc x dm1 = option_map (map f) (assoc x (cm_dmap cm))).
  { intros x. unfold dm1. rewrite (assoc_map (fun e => map f (snd e)) x (cm_dmap cm)). destruct (assoc x (cm_dmap cm)); reflexivity. }
  assert (FD : forall l, (forall x, In x l -> In x (cm_dims cm)) -> ~ In old (cm_dims cm) -> map f l = l).
  { intros l H1 H2. apply swap_notin. intros J. apply H2, H1, J. }
  assert (FST : map fst dm1 = map fst (cm_dmap cm)) by (unfold dm1; rewrite map_map; reflexivity).
  assert (DIM1 : ~ In old (cm_dims cm) -> dm1 = cm_dmap cm).
  { intros H. unfold dm1. rewrite <- (map_id (cm_dmap cm)) at 2. apply map_ext_in. intros [x l] J. cbn [fst snd]. f_equal.
    apply FD; [|exact H]. apply in_assoc in J; [|apply (wf_dkeys _ W)]. destruct (con_coord _ (wf_con _ W) x l J) as (? & _ & K & _). exact K. }
  assert (E : rename_one (cm_dims cm, cm_coords cm, cm_dmap cm) (old, new) = Ok (dims', cs', dm')).
  { unfold rename_one. destruct (String.eqb_spec old new) as [->|_]; [contradiction|].
    assert ((match index_of old (cm_dims cm) with
      | Some i => (put (cm_dims cm) i new, map (fun e => (fst e, map (swap_name old new) (snd e))) (cm_dmap cm))
      | None => (cm_dims cm, cm_dmap cm) end) = (dims', dm1)) as ->.
    { destruct (index_of old (cm_dims cm)) as [i|] eqn:I.
      - rewrite (put_swap old new _ _ (wf_dims _ W) I). reflexivity.
      - apply index_of_None in I. rewrite (DIM1 I). unfold dims'. rewrite FD by auto. reflexivity. }
    rewrite dict_pop_spec by apply (wf_ckeys _ W). rewrite M. rewrite dict_pop_spec by (rewrite FST; apply (wf_dkeys _ W)).
    rewrite DM1, D. reflexivity. }
  assert (CS : forall n, In n (names_of cm) -> assoc (f n) cs' = assoc n (cm_coords cm)).
  { intros n J. unfold cs'. rewrite moved_assoc by exact ON. unfold f, swap_name. destruct (String.eqb_spec n old) as [->|N].
    - rewrite String.eqb_refl. congruence.
    - destruct (String.eqb_spec n new) as [->|]; [contradiction|]. destruct (String.eqb_spec n old); [contradiction|reflexivity]. }
  assert (DS : forall n, In n (names_of cm) -> assoc (f n) dm' = option_map (map f) (assoc n (cm_dmap cm))).
  { intros n J. unfold dm'. rewrite moved_assoc by exact ON.
    assert (Q : f n = if String.eqb n old then new else n) by reflexivity. rewrite Q. destruct (String.eqb_spec n old) as [->|N].
    - rewrite String.eqb_refl, D. reflexivity.
    - destruct (String.eqb_spec n new) as [->|]; [contradiction|]. destruct (String.eqb_spec n old); [contradiction|]. apply DM1. }
  assert (KC : forall x, In x (map fst cs') <-> In x (map f (names_of cm))).
  { intros x. rewrite <- assoc_In. unfold cs'. split.
    - intros [v V]. rewrite moved_assoc in V by exact ON. destruct (String.eqb_spec x new) as [->|N1].
      + apply in_map_iff. exists old. split; [unfold f, swap_name; rewrite String.eqb_refl; reflexivity|exact IO].
      + destruct (String.eqb_spec x old) as [->|N2]; [discriminate|]. apply in_map_iff. exists x.
        split; [unfold f, swap_name; destruct (String.eqb_spec x old); [contradiction|reflexivity]|]. apply assoc_In. eauto.
    - intros J. apply in_map_iff in J as (n & <- & J). fold cs'. rewrite CS by exact J. apply assoc_In in J. exact J. }
  assert (KD : forall x, In x (map fst dm') <-> In x (map f (names_of cm))).
  { intros x. rewrite <- assoc_In. unfold dm'. split.
    - intros [v V]. rewrite moved_assoc in V by exact ON. destruct (String.eqb_spec x new) as [->|N1].
      + apply in_map_iff. exists old. split; [unfold f, swap_name; rewrite String.eqb_refl; reflexivity|exact IO].
      + destruct (String.eqb_spec x old) as [->|N2]; [discriminate|]. apply in_map_iff. exists x.
        split; [unfold f, swap_name; destruct (String.eqb_spec x old); [contradiction|reflexivity]|].
        rewrite DM1 in V. apply NK. apply assoc_In. destruct (assoc x (cm_dmap cm)); [eauto|discriminate].
    - intros J. apply in_map_iff in J as (n & <- & J). fold dm'. rewrite DS by exact J. apply NK, assoc_In in J. destruct J as [l ->]. cbn. eauto. }
  exists (mkCm dims' cs' dm'). unfold names_of. cbn [cm_dims cm_coords cm_dmap]. split; [exact E|].
  assert (DL : forall d n, dim_len cm d n -> dim_len (mkCm dims' cs' dm') (f d) n).
  { intros d n (c & C & L). exists c. cbn [cm_coords]. rewrite CS by (apply assoc_In; eauto). auto. }
  split; [|split; [reflexivity|split; [exact KC|split; [exact CS|exact DS]]]].
  split; cbn [cm_dims cm_coords cm_dmap].
  - split; cbn [cm_dims cm_coords cm_dmap].
    + intros d J. unfold dims' in J. apply in_map_iff in J as (d0 & <- & J).
      destruct (con_dim _ (wf_con _ W) d0 J) as [[c C] D0]. rewrite CS, DS by auto. rewrite C, D0. cbn. eauto.
    + intros n l H. assert (J : In n (map f (names_of cm))) by (apply KD, assoc_In; eauto).
      apply in_map_iff in J as (n0 & <- & J). rewrite DS in H by exact J. rewrite CS by exact J.
      destruct (assoc n0 (cm_dmap cm)) as [l0|] eqn:L0; [|discriminate]. cbn [option_map] in H. injection H as <-.
      destruct (con_coord _ (wf_con _ W) n0 l0 L0) as (m0 & M0 & K & F). exists m0. split; [exact M0|]. split.
      * intros d Jd. apply in_map_iff in Jd as (d0 & <- & Jd). apply in_map. apply K, Jd.
      * destruct F as [->|F]; [left; reflexivity|right]. clear - F DL. induction F; cbn; constructor; auto.
  - apply NoDup_map_inj; [|apply (wf_dims _ W)]. intros x y X Y. apply (swap_inj old new (cm_dims cm)); auto.
  - apply NoDup_assoc_set. apply (NoDup_keys_filter (fun k => negb (String.eqb k old))), (wf_ckeys _ W).
  - apply NoDup_assoc_set. apply (NoDup_keys_filter (fun k => negb (String.eqb k old))). rewrite FST. apply (wf_dkeys _ W).
  - intros x X. apply KD, KC, X.
  - intros n l H. assert (J : In n (map f (names_of cm))) by (apply KD, assoc_In; eauto).
    apply in_map_iff in J as (n0 & <- & J). rewrite DS in H by exact J.
    destruct (assoc n0 (cm_dmap cm)) as [l0|] eqn:L0; [|discriminate]. cbn [option_map] in H. injection H as <-.
    destruct (con_coord _ (wf_con _ W) n0 l0 L0) as (m0 & M0 & K & F).
    apply NoDup_map_inj; [|apply (wf_distinct _ W _ _ L0)]. intros x y X Y. apply (swap_inj old new (cm_dims cm)); auto.
  - intros n m0 H. assert (J : In n (map f (names_of cm))) by (apply KC, assoc_In; eauto).
    apply in_map_iff in J as (n0 & <- & J). rewrite CS in H by exact J. apply (wf_vals _ W _ _ H).
Qed.

Lemma fresh_ext kw : forall a b, (forall x, In x a <-> In x b) -> fresh_renames kw a -> fresh_renames kw b.
Proof.
  induction kw as [|[o n] t IH]; intros a b H; [auto|]. cbn [fresh_renames]. intros (H1 & H2 & H3).
  split; [apply H, H1|]. split; [destruct H2 as [H2|H2]; [left; exact H2|right; rewrite <- H; exact H2]|].
  eapply IH; [|exact H3]. intros x. rewrite !in_map_iff. split; intros (y & E & J); exists y; split; auto; apply H, J.
Qed.

Lemma renamed_fold kw cm : wf_cm cm -> fresh_renames kw (names_of cm) ->
  exists cm', fold_left (fun acc e => do st <- acc; rename_one st e) kw (Ok (cm_dims cm, cm_coords cm, cm_dmap cm)) =
      Ok (cm_dims cm', cm_coords cm', cm_dmap cm') /\
    wf_cm cm' /\ cm_dims cm' = map (renamed kw) (cm_dims cm) /\
    (forall x, In x (names_of cm') <-> In x (map (renamed kw) (names_of cm))) /\
    (forall n, In n (names_of cm) -> assoc (renamed kw n) (cm_coords cm') = assoc n (cm_coords cm)) /\
    (forall n, In n (names_of cm) -> assoc (renamed kw n) (cm_dmap cm') = option_map (map (renamed kw)) (assoc n (cm_dmap cm))).
Proof.
  revert cm. induction kw as [|[o n] t IH]; intros cm W.
  - assert (R0 : forall l, map (renamed []) l = l) by (induction l as [|x l IHl]; [reflexivity|cbn [map]; f_equal; exact IHl]).
    intros _. exists cm. split; [reflexivity|]. split; [exact W|]. split; [symmetry; apply R0|].
    split; [intros x; rewrite R0; tauto|].
    split; [reflexivity|]. intros k _. cbn [renamed]. destruct (assoc k (cm_dmap cm)) as [l|]; cbn; [|reflexivity].
    f_equal. symmetry. apply R0.
  - cbn [fresh_renames]. intros (H1 & H2 & H3). cbn [fold_left bind].
    change (fun n0 => if String.eqb n0 o then n else n0) with (swap_name o n) in H3.
    assert (S : exists cm1, rename_one (cm_dims cm, cm_coords cm, cm_dmap cm) (o, n) = Ok (cm_dims cm1, cm_coords cm1, cm_dmap cm1) /\
      wf_cm cm1 /\ cm_dims cm1 = map (swap_name o n) (cm_dims cm) /\
      (forall x, In x (names_of cm1) <-> In x (map (swap_name o n) (names_of cm))) /\
      (forall k, In k (names_of cm) -> assoc (swap_name o n k) (cm_coords cm1) = assoc k (cm_coords cm)) /\
      (forall k, In k (names_of cm) -> assoc (swap_name o n k) (cm_dmap cm1) = option_map (map (swap_name o n)) (assoc k (cm_dmap cm)))).
    { destruct (string_dec n o) as [->|N].
      - assert (Q : forall x, swap_name o o x = x) by (intros x; unfold swap_name; destruct (String.eqb_spec x o); congruence).
        assert (Q' : forall l, map (swap_name o o) l = l) by (intros l; rewrite (map_ext _ (fun x => x)) by exact Q; apply map_id).
        exists cm. unfold rename_one. rewrite String.eqb_refl. split; [reflexivity|]. split; [exact W|]. rewrite !Q'.
        split; [reflexivity|]. split; [tauto|]. split; [intros k _; rewrite Q; reflexivity|]. intros k _. rewrite Q.
        destruct (assoc k (cm_dmap cm)); cbn; [rewrite Q'|]; reflexivity.
      - destruct H2 as [H2|H2]; [contradiction|]. apply rename_one_fresh; auto. }
    destruct S as (cm1 & -> & W1 & D1 & K1 & C1 & M1).
    destruct (IH cm1 W1) as (cm' & E & W' & D' & K' & C' & M').
    { eapply fresh_ext; [|exact H3]. intros x. rewrite K1. tauto. }
    exists cm'. split; [exact E|]. split; [exact W'|].
    assert (R : forall x, renamed ((o, n) :: t) x = renamed t (swap_name o n x)) by reflexivity.
    assert (IN : forall k, In k (names_of cm) -> In (swap_name o n k) (names_of cm1)) by (intros k J; apply K1, in_map, J).
    split; [rewrite D', D1, map_map; reflexivity|]. split; [|split].
    + intros x. rewrite K', !in_map_iff. split.
      * intros (y & <- & J). apply K1, in_map_iff in J as (z & <- & J). exists z. auto.
      * intros (z & <- & J). exists (swap_name o n z). auto.
    + intros k J. rewrite R, C' by auto. apply C1, J.
    + intros k J. rewrite R, M' by auto. rewrite M1 by exact J. destruct (assoc k (cm_dmap cm)); cbn; [rewrite map_map|]; reflexivity.
Qed.

Lemma pt_rename_ok {A} (p : patch A) kw : wf_patch p -> fresh_renames kw (map fst (cm_coords (p_cm p))) ->
  exists p', pt_rename p kw = Ok p' /\ wf_patch p' /\ p_data p' = p_data p /\
    cm_dims (p_cm p') = map (renamed kw) (cm_dims (p_cm p)) /\
    (forall x, In x (map fst (cm_coords (p_cm p'))) <-> In x (map (renamed kw) (map fst (cm_coords (p_cm p))))) /\
    (forall n, In n (map fst (cm_coords (p_cm p))) ->
       assoc (renamed kw n) (cm_coords (p_cm p')) = assoc n (cm_coords (p_cm p)) /\
       assoc (renamed kw n) (cm_dmap (p_cm p')) = option_map (map (renamed kw)) (assoc n (cm_dmap (p_cm p)))).
Proof.
  intros WP H. destruct p as [cm a]. cbn [p_cm p_data] in *. pose proof (wp_cm _ WP) as W. cbn [p_cm] in W.
  destruct (renamed_fold kw cm W H) as (cm' & E & W' & D' & K' & C' & M').
  unfold pt_rename, cm_rename. cbn [p_cm p_data]. rewrite E. cbn [bind].
  rewrite (build_wf (cm_dims cm') (cm_coords cm') (cm_dmap cm')) by (destruct cm'; exact W'). cbn [bind].
  replace (mkCm (cm_dims cm') (cm_coords cm') (cm_dmap cm')) with cm' by (destruct cm'; reflexivity).
  assert (WP' : wf_patch (mkPatch cm' a)).
  { split; cbn [p_cm p_data]; [exact W'|apply (wp_nd _ WP)| |].
    - rewrite D'. pose proof (wp_some _ WP) as N. cbn [p_cm] in N. destruct (cm_dims cm); [congruence|discriminate].
    - rewrite D'. pose proof (wp_shape _ WP) as F. cbn [p_cm p_data] in F. clear - F C'.
      induction F as [|d n ds s (c & C & L) F IH]; cbn; constructor; [|exact IH].
      exists c. rewrite C' by (apply assoc_In; eauto). auto. }
  exists (mkPatch cm' a). cbn [p_cm p_data]. split; [apply new_patch_ok; apply WP'|]. split; [exact WP'|].
  split; [reflexivity|]. split; [exact D'|]. split; [exact K'|]. intros n J. split; [apply C', J|apply M', J].
Qed.

(** An unknown name. *)
Lemma pt_rename_unknown {A} (p : patch A) old new t : wf_patch p -> ~ In old (map fst (cm_coords (p_cm p))) -> old <> new ->
  pt_rename p ((old, new) :: t) = Err KeyError.
Proof.
  intros WP H N. unfold pt_rename, cm_rename. cbn [fold_left bind].
  assert (rename_one (cm_dims (p_cm p), cm_coords (p_cm p), cm_dmap (p_cm p)) (old, new) = Err KeyError) as ->.
  { unfold rename_one. destruct (String.eqb_spec old new); [contradiction|].
    apply assoc_None in H. destruct (index_of old (cm_dims (p_cm p))); rewrite dict_pop_spec by apply (wf_ckeys _ (wp_cm _ WP)); rewrite H; reflexivity. }
  assert (Q : forall l, fold_left (fun acc e => do st <- acc; rename_one st e) l (Err KeyError) = Err KeyError) by (induction l; auto).
  rewrite Q. reflexivity.
Qed.

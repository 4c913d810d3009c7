(** Lemmas behind CmProps.v: whatever select returns is a restriction. *)
From Verif Require Import Base BaseFacts CoordModel CoordSpec CoordProofs CoordProofs2 CoordProofs3
  CoordProofs4 CoordProofs5 NdModel NdSpec NdProofs NdProofs2 FrameModel FrameProofs5 ChunkModel CmModel CmSpec
  CmProofs CmProofs2 CmProofs3 CmProofs4 CmProofs5.
From Coq Require Import Strings.String ZifyBool Sorting.Permutation Sorting.Sorted.
Ltac Zify.zify_post_hook ::= Z.div_mod_to_equations.
Local Open Scope Z_scope.
Local Open Scope list_scope.

(** ** Groups of keywords *)
Section Groups.
Variable f : string -> list string.

Definition grouped (gs : list (list string * list string)) : Prop :=
  NoDup (map fst gs) /\ (forall g n, In g gs -> In n (snd g) -> f n = fst g).

Lemma group_add_keys ds n gs x : In x (map fst (group_add ds n gs)) <-> x = ds \/ In x (map fst gs).
Proof.
  induction gs as [|[d l] t IH]; cbn; [intuition|]. destruct (strs_eqb d ds) eqn:E; cbn.
  - apply strs_eqb_eq in E. subst. intuition.
  - rewrite IH. intuition.
Qed.
Lemma group_add_grouped n gs : grouped gs -> grouped (group_add (f n) n gs).
Proof.
  intros [N H]. split.
  - clear H. induction gs as [|[d l] t IH]; cbn; [constructor; [intros []|constructor]|].
    cbn in N. inversion N as [|? ? X N']; subst. destruct (strs_eqb d (f n)) eqn:E; cbn; constructor; auto.
    rewrite group_add_keys. intros [->|J]; [|contradiction].
    rewrite (proj2 (strs_eqb_eq _ _) eq_refl) in E. discriminate.
  - clear N. induction gs as [|[d l] t IH]; cbn.
    + intros g m [<-|[]] J. cbn in *. destruct J as [->|[]]. reflexivity.
    + destruct (strs_eqb d (f n)) eqn:E.
      * apply strs_eqb_eq in E. subst d. intros g m [<-|J] Jm.
        -- cbn in *. apply in_app_or in Jm. destruct Jm as [Jm|[->|[]]]; [|reflexivity].
           apply (H (f n, l) m (or_introl eq_refl) Jm).
        -- apply (H g m (or_intror J) Jm).
      * intros g m [<-|J] Jm; [apply (H (d, l) m (or_introl eq_refl) Jm)|].
        apply IH; auto. intros g' m' Jg Jm'. apply (H g' m' (or_intror Jg) Jm').
Qed.
Lemma group_all names : grouped (fold_left (fun gs e => group_add (snd e) (fst e) gs)
  (combine names (map f names)) []).
Proof.
  assert (G : grouped []) by (split; [constructor|intros g n []]).
  revert G. generalize (@nil (list string * list string)) as gs.
  induction names as [|n t IH]; intros gs G; cbn [map combine fold_left fst snd]; [exact G|].
  apply IH. apply group_add_grouped. exact G.
Qed.

Lemma group_column gs k : grouped gs ->
  NoDup (map f (List.concat (map (fun g => match nth_error (snd g) k with Some n => [n] | None => [] end) gs))).
Proof.
  intros [N H]. induction gs as [|g t IH]; cbn; [constructor|]. cbn in N. inversion N as [|? ? X N']; subst.
  specialize (IH N' (fun g' n J => H g' n (or_intror J))).
  destruct (nth_error (snd g) k) as [n|] eqn:E; [|exact IH]. cbn. constructor; [|exact IH].
  rewrite (H g n (or_introl eq_refl) (nth_error_In _ _ E)). intros J. apply X.
  apply in_map_iff in J. destruct J as (m & <- & J). apply in_concat in J. destruct J as (l & J1 & J2).
  apply in_map_iff in J1. destruct J1 as (g' & <- & Jg). destruct (nth_error (snd g') k) as [m'|] eqn:E'; [|destruct J2].
  destruct J2 as [->|[]]. rewrite (H g' m (or_intror Jg) (nth_error_In _ _ E')). apply in_map. exact Jg.
Qed.
End Groups.

Lemma lookup_kw_sub kw names : exists sub, map fst (lookup_kw kw names) = sub /\
  (forall n, In n sub -> In n names) /\ forall g : string -> list string, NoDup (map g names) -> NoDup (map g sub).
Proof.
  exists (map fst (lookup_kw kw names)). split; [reflexivity|].
  assert (I : forall n, In n (map fst (lookup_kw kw names)) -> In n names).
  { intros n J. apply in_map_iff in J. destruct J as (e & <- & J). apply lookup_kw_in in J. apply J. }
  split; [exact I|]. intros g. clear I. unfold lookup_kw. induction names as [|n t IH]; cbn; [auto|].
  intros N. inversion N as [|? ? X N']; subst. destruct (assoc n kw); cbn; [|auto]. constructor; [|auto].
  intros J. apply X. apply in_map_iff in J. destruct J as (m & E & J). rewrite <- E. apply in_map.
  apply in_map_iff in J. destruct J as (e & <- & J). apply (lookup_kw_in kw t e J).
Qed.

Lemma single_lists_separate cm kw lists : wf_cm cm -> single_dim_lists cm kw = Ok lists ->
  forall l, In l lists -> separate cm (map fst l) /\ forall e, In e l -> In e kw.
Proof.
  intros W E l J. unfold single_dim_lists in E.
  set (used := sort_strs (filter (fun n => mem n (map fst kw)) (map fst (cm_coords cm)))) in *.
  rewrite (map_result_map _ (dims_of cm)) in E.
  2:{ intros n Jn. unfold used in Jn. apply (Permutation_in _ (sort_strs_perm _)) in Jn.
      apply filter_In in Jn. destruct Jn as [Jn _]. apply (wf_keys _ W) in Jn. apply assoc_In in Jn.
      destruct Jn as [ds Jn]. unfold dims_of. rewrite Jn. reflexivity. }
  cbn [bind] in E.
  assert (LK : forall names e, In e (lookup_kw kw names) -> In e kw).
  { intros names e Je. apply lookup_kw_in in Je. destruct e as [n a]. apply assoc_in. apply Je. }
  destruct (dup_dims (map (dims_of cm) used)) eqn:DD; cbn [negb] in E.
  - injection E as <-. apply in_map_iff in J. destruct J as (k & <- & _). split; [|apply LK].
    match goal with |- separate cm (map fst (List.concat (map _ ?names))) =>
      destruct (lookup_kw_sub kw names) as (sub & Es & _ & Hs) end.
    unfold lookup_kw in Es. rewrite Es. apply Hs. apply group_column. apply group_all.
  - injection E as <-. destruct J as [<-|[]]. split; [|apply LK].
    destruct (lookup_kw_sub kw used) as (sub & Es & _ & Hs). unfold lookup_kw in Es. rewrite Es. apply Hs.
    clear - DD. revert DD. generalize (map (dims_of cm) used). induction l as [|x t IH]; cbn; intros H; constructor.
    + apply orb_false_iff in H. destruct H as [H _]. intros J.
      assert (existsb (strs_eqb x) t = true); [|congruence]. apply existsb_exists. exists x.
      split; [exact J|]. apply strs_eqb_eq. reflexivity.
    + apply IH. apply orb_false_iff in H. apply H.
Qed.

(** ** From a successful pass to its positions *)
Lemma fold_err {S E} (step : S -> E -> result S) l e :
  fold_left (fun acc x => do st <- acc; step st x) l (Err e) = Err e.
Proof. induction l; cbn; auto. Qed.

Lemma fold_ops cm op kw : forall st st',
  fold_left (fun acc e => do st <- acc; select_one cm op st e) kw (Ok st) = Ok st' ->
  forall e, In e kw -> exists c ds out, assoc (fst e) (cm_coords cm) = Some (M1 c) /\
    assoc (fst e) (cm_dmap cm) = Some ds /\ op c (snd e) = Ok out.
Proof.
  induction kw as [|e kw IH]; intros st st' H e' J; [destruct J|]. cbn [fold_left bind] in H.
  destruct (select_one cm op st e) as [st1|x] eqn:E; [|rewrite fold_err in H; discriminate].
  destruct J as [<-|J]; [|apply (IH _ _ H _ J)].
  unfold select_one in E. destruct (assoc (fst e) (cm_coords cm)) as [[c| |]|], (assoc (fst e) (cm_dmap cm)) as [ds|];
    try discriminate.
  destruct (op c (snd e)) as [out|] eqn:O; [|discriminate]. exists c, ds, out. auto.
Qed.

Definition psf_of (cm : cman) (op : coord -> selarg -> result (coord * indexer))
  (kw : list (string * selarg)) (n : string) : list Z :=
  match assoc n (cm_coords cm), assoc n kw with
  | Some (M1 c), Some arg =>
      match op c arg with
      | Ok (_, ix) => match indexer_positions (c_len c) ix with Some ps => ps | None => [] end
      | Err _ => [] end
  | _, _ => []
  end.

Lemma plain_aligned cm cm' pick own : cm_aligned cm cm' pick own -> plain_names cm -> plain_names cm'.
Proof.
  intros (E & _ & C) P n J. rewrite E. apply P. apply assoc_In in J. destruct J as [m' J].
  specialize (C n). rewrite J in C. apply assoc_In. destruct (assoc n (cm_coords cm)); [eauto|contradiction].
Qed.

Lemma wf_kdims cm (l : list (string * selarg)) : wf_cm cm ->
  (forall e, In e l -> exists c, assoc (fst e) (cm_coords cm) = Some (M1 c)) ->
  separate cm (map fst l) -> NoDup (kdims cm l) /\ forall d, In d (kdims cm l) -> In [d] (map (dims_of cm) (map fst l)).
Proof.
  intros W. induction l as [|e l IH]; intros Hl Sl; [cbn; split; [constructor|intros d []]|].
  destruct (Hl e (or_introl eq_refl)) as (c & Ec). destruct (wf_1d cm _ c W Ec) as (ds & D & Hd).
  cbn [map] in Sl. unfold separate in Sl. cbn [map] in Sl. inversion Sl as [|? ? X Sl']; subst.
  destruct (IH (fun e' J => Hl e' (or_intror J)) Sl') as [N1 N2].
  unfold kdims in *. cbn [flat_map map]. rewrite D. cbn [In].
  assert (Dn : dims_of cm (fst e) = ds) by (unfold dims_of; rewrite D; reflexivity).
  rewrite Dn in *. destruct Hd as [->|(d & -> & _)]; cbn [app].
  - split; [exact N1|]. intros d J. right. apply N2. exact J.
  - split; [constructor; [intros J; apply X, N2, J|exact N1]|].
    intros d' [<-|J]; [left; reflexivity|right; apply N2; exact J].
Qed.

Lemma select_loop_sound {A} rel smp lists : forall cm (a : nd A) cm' b,
  wf_patch (mkPatch cm a) -> plain_names cm ->
  (forall l, In l lists -> separate cm (map fst l) /\ forall e, In e l -> backwards (snd e) = false) ->
  select_loop (fun c x => c_sel c rel smp x) lists cm a = Ok (cm', b) ->
  restricts (mkPatch cm a) (mkPatch cm' b).
Proof.
  set (op := fun c x => c_sel c rel smp x).
  induction lists as [|kw lists IH]; intros cm a cm' b WP PN SEP E.
  - cbn in E. injection E as <- <-. apply rs_refl. exact WP.
  - pose proof (wp_cm _ WP) as W. cbn [p_cm] in W. cbn [select_loop] in E.
    destruct (indexers_and_coords cm op kw) as [x|] eqn:E1; [|discriminate]. cbn [bind] in E.
    destruct (SEP kw (or_introl eq_refl)) as [S B].
    assert (ND : NoDup (map fst kw)) by (apply (separate_NoDup cm); exact S).
    assert (H : forall e, In e kw -> exists c, assoc (fst e) (cm_coords cm) = Some (M1 c) /\
      answers op c (snd e) (psf_of cm op kw (fst e)) /\ zsorted (psf_of cm op kw (fst e))).
    { intros e J. destruct (fold_ops cm op kw _ _ E1 e J) as (c & ds & [c' ix] & Ec & D & Eo).
      exists c. split; [exact Ec|].
      destruct (c_sel_sound c rel smp (snd e) c' ix (wf_vals _ W _ _ Ec) Eo) as (ps & P & K & Ca & So).
      assert (psf_of cm op kw (fst e) = ps) as ->.
      { unfold psf_of. rewrite Ec. destruct e as [n arg]. cbn [fst snd] in *.
        rewrite (in_assoc n arg kw ND J). rewrite Eo, P. reflexivity. }
      split; [exists c', ix; auto|apply So, B, J]. }
    destruct (select_pass cm a op (psf_of cm op kw) kw WP PN) as
      (x' & kws & cm1 & b1 & pick & own & F1 & F2 & F3 & F4 & AL & PK).
    { split; [|split; [|exact ND]].
      - intros e J. destruct (H e J) as (c & Ec & An & _). eauto.
      - apply wf_kdims; auto. intros e J. destruct (H e J) as (c & Ec & _). eauto. }
    rewrite E1 in F1. injection F1 as <-. rewrite F2 in E. cbn [bind] in E. rewrite F3 in E. cbn [bind] in E.
    rewrite F4 in E. pose proof AL as (WP1 & AC & _). cbn [p_cm] in AC.
    apply (rs_step _ (mkPatch cm1 b1) _ pick own AL).
    + cbn [p_cm]. intros d Jd. destruct PK as (P1 & _ & P3 & _).
      destruct (in_dec string_dec d (kdims cm kw)) as [J|J].
      * apply in_flat_map in J. destruct J as (e & Je & J). destruct (H e Je) as (c & Ec & _ & So).
        destruct (wf_1d _ _ c W Ec) as (ds & D & Hd). rewrite D in J.
        destruct Hd as [->|(d0 & -> & _)]; [destruct J|]. destruct J as [->|[]].
        rewrite (P1 (fst e) d); [exact So|apply in_map; exact Je|exact D].
      * rewrite P3.
        -- unfold pick0. destruct (assoc d (cm_coords cm)) as [[c| |]|]; try constructor. apply zsorted_zrange.
        -- intros n Jn Dn. apply J. apply in_flat_map. apply in_map_iff in Jn.
           destruct Jn as (e & <- & Je). exists e. split; [exact Je|]. rewrite Dn. left; reflexivity.
    + apply IH; auto.
      * apply (plain_aligned cm cm1 pick own AC PN).
      * intros l J. destruct (SEP l (or_intror J)) as [S' B']. split; [|exact B'].
        unfold separate, dims_of in *. destruct AC as (_ & DM & _). erewrite map_ext; [exact S'|].
        intros n. cbn. rewrite DM. reflexivity.
Qed.

(** ** Successive restrictions are one restriction of the data *)
Lemma gather_sorted l ps r : zsorted l -> zsorted ps -> gather l ps = Some r -> zsorted r.
Proof.
  intros SL SP G.
  assert (Q : forall i j x y, i < j -> znth l i = Some x -> znth l j = Some y -> x < y).
  { clear - SL. induction SL as [|z l SL IH F]; intros i j x y L Ei Ej; [rewrite znth_nil in Ei; discriminate|].
    rewrite znth_cons in Ei, Ej. destruct (Z.eqb_spec j 0) as [->|].
    - destruct (Z.eqb_spec i 0); [lia|]. pose proof (proj1 (znth_range _ _) (ex_intro _ _ Ei)). lia.
    - destruct (Z.eqb_spec i 0).
      + injection Ei as <-. rewrite Forall_forall in F. apply F. apply (znth_in _ _ _ Ej).
      + apply (IH (i - 1) (j - 1)); auto. lia. }
  revert r G. induction SP as [|p ps SP IH F]; intros r G; cbn [gather] in G.
  - injection G as <-. constructor.
  - destruct (znth l p) as [x|] eqn:E; [|discriminate]. destruct (gather l ps) as [t|] eqn:Gt; [|discriminate].
    injection G as <-. constructor; [apply IH; reflexivity|].
    rewrite Forall_forall in *. intros y J.
    assert (exists q, In q ps /\ znth l q = Some y) as (q & Jq & Eq).
    { clear - Gt J. revert t Gt J. induction ps as [|q ps IH]; intros t Gt J; cbn in Gt.
      - injection Gt as <-. destruct J.
      - destruct (znth l q) as [z|] eqn:E; [|discriminate]. destruct (gather l ps) as [t'|]; [|discriminate].
        injection Gt as <-. destruct J as [->|J]; [exists q; split; [left; reflexivity|exact E]|].
        destruct (IH t' eq_refl J) as (q' & A & B). exists q'. split; [right; exact A|exact B]. }
    apply (Q p q); auto.
Qed.

Lemma restricts_data {A} (p q : patch A) : restricts p q ->
  wf_patch q /\ cm_dims (p_cm q) = cm_dims (p_cm p) /\
  exists pick, nd_picked (p_data p) (p_data q) (map pick (cm_dims (p_cm p))) /\
    forall d, In d (cm_dims (p_cm p)) -> zsorted (pick d).
Proof.
  induction 1 as [p WP|p q r pick own AL SO R (WR & DR & pk & ND & SR)].
  - split; [exact WP|]. split; [reflexivity|]. exists (pick0 (p_cm p)). split.
    + rewrite (dims_shape (p_cm p) _ (wp_cm _ WP) (wp_shape _ WP)). apply nd_picked_full. apply WP.
    + intros d _. unfold pick0. destruct (assoc d (cm_coords (p_cm p))) as [[c| |]|]; try constructor. apply zsorted_zrange.
  - destruct AL as (WQ & (DQ & _) & NQ). split; [exact WR|]. split; [congruence|].
    rewrite DQ in *. pose proof (nd_picked_compose _ _ _ _ _ NQ ND) as NC.
    exists (fun d => match gather (pick d) (pk d) with Some l => l | None => [] end). split.
    + replace (map (fun d => match gather (pick d) (pk d) with Some l => l | None => [] end) (cm_dims (p_cm p)))
        with (compose (map pick (cm_dims (p_cm p))) (map pk (cm_dims (p_cm p)))); [exact NC|].
      generalize (cm_dims (p_cm p)). induction l as [|d l IH]; cbn; [reflexivity|]. rewrite IH. reflexivity.
    + intros d J. destruct (gather (pick d) (pk d)) as [l|] eqn:G; [|constructor].
      apply (gather_sorted (pick d) (pk d)); [apply SO; exact J|apply SR; exact J|exact G].
Qed.

Lemma restricts_same_shape {A} (p q : patch A) : wf_patch p -> restricts p q ->
  nd_shape (p_data q) = nd_shape (p_data p) -> p_data q = p_data p.
Proof.
  intros WP R SH. destruct (restricts_data p q R) as (WQ & DQ & pick & ND & SO).
  assert (FULL : map pick (cm_dims (p_cm p)) = full (nd_shape (p_data p))).
  { rewrite (proj1 (proj2 ND)) in SH. destruct ND as (_ & _ & B & _).
    revert B SH. generalize (nd_shape (p_data p)) as s. clear - SO.
    induction (cm_dims (p_cm p)) as [|d l IH]; intros s B SH; cbn in SH, B |- *; destruct s as [|n s]; try discriminate.
    - reflexivity.
    - injection SH as L1 L2. inversion B; subst. cbn. f_equal.
      + apply zsorted_full; auto. apply SO. left; reflexivity.
      + apply IH; auto. intros; apply SO; right; assumption. }
  rewrite FULL in ND. pose proof (wp_nd _ WP) as Wn.
  destruct ND as (_ & _ & _ & G). rewrite (map_zlen_full _ (proj1 Wn)) in G.
  apply nd_ext.
  - apply (wp_nd _ WQ).
  - exact Wn.
  - exact SH.
  - intros ix B. rewrite SH in B. destruct (G ix B) as (jx & x & Pj & G1 & G2).
    rewrite (pick_ix_full _ _ B) in Pj. injection Pj as <-. congruence.
Qed.

(** Whatever select returns. *)
Lemma pt_select_sound {A} (p p' : patch A) rel smp kw : wf_patch p -> plain_names (p_cm p) ->
  (forall e, In e kw -> backwards (snd e) = false) ->
  pt_select p rel smp kw = Ok p' ->
  exists q, restricts p q /\
    (p' = q \/ (p' = p /\ p_data q = p_data p /\ cm_approx (p_cm q) (p_cm p) = true)).
Proof.
  intros WP PN B E. unfold pt_select in E.
  destruct (negb (forallb (fun e => mem (fst e) (map fst (cm_coords (p_cm p)))) kw)); [discriminate|].
  destruct (cm_select (p_cm p) (p_data p) rel smp (fun c a => c_sel c rel smp a) kw) as [[cm' b]|] eqn:C; [|discriminate].
  cbn [bind fst snd] in E.
  assert (R : restricts p (mkPatch cm' b)).
  { unfold cm_select in C. destruct (if rel || smp then check_relative (p_cm p) kw else Ok tt); [|discriminate].
    cbn [bind] in C. destruct (single_dim_lists (p_cm p) kw) as [lists|] eqn:L; [|discriminate]. cbn [bind] in C.
    destruct p as [cm dat]. cbn [p_cm p_data] in *. apply (select_loop_sound rel smp lists); auto.
    intros l J. destruct (single_lists_separate cm kw lists (wp_cm _ WP) L l J) as [S I]. split; [exact S|].
    intros e Je. apply B, I, Je. }
  exists (mkPatch cm' b). split; [exact R|].
  destruct (zlist_eqb (nd_shape b) (nd_shape (p_data p)) && cm_approx cm' (p_cm p)) eqn:Q.
  - apply andb_prop in Q. destruct Q as [Q1 Q2]. apply zlist_eqb_eq in Q1. injection E as <-. right.
    split; [reflexivity|]. split; [|exact Q2]. apply (restricts_same_shape p (mkPatch cm' b) WP R). exact Q1.
  - left. unfold new_patch in E. destruct (cm_shape cm') as [s|]; [|discriminate]. cbn [bind] in E.
    destruct (zlist_eqb s (nd_shape b)); [|discriminate]. injection E as <-. reflexivity.
Qed.

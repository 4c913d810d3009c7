(** Lemmas behind CmProps.v: compositions of patch functions and a decision
    procedure for well-formedness used by the witnesses. *)
From Verif Require Import Base BaseFacts CoordModel CoordSpec CoordProofs CoordProofs2 CoordProofs3
  CoordProofs4 CoordProofs5 NdModel NdSpec NdProofs NdProofs2 NdProofs3 FrameModel FrameProofs5 ChunkModel CmModel CmSpec
  CmProofs CmProofs2 CmProofs3 CmProofs5 CmProofs11 CmProofs12 CmProofs13 CmProofs14 CmProofs15 CmProofs16.
From Coq Require Import Strings.String ZifyBool Sorting.Permutation Sorting.Sorted.
Ltac Zify.zify_post_hook ::= Z.div_mod_to_equations.
Local Open Scope Z_scope.
Local Open Scope list_scope.

(** ** Transposing back *)
Lemma in_targ_dec (t : targ) l : {In t l} + {~ In t l}.
Proof. apply in_dec. decide equality. apply string_dec. Qed.
Lemma all_or_one {X} (P : X -> Prop) (dec : forall x, {P x} + {~ P x}) l : (forall x, In x l -> P x) \/ exists x, In x l /\ ~ P x.
Proof.
  induction l as [|x t IH]; [left; intros x []|]. destruct (dec x) as [Px|N]; [|right; exists x; split; [left; reflexivity|exact N]].
  destruct IH as [H|(y & J & N)]; [left; intros z [<-|J]; auto|right; exists y; split; [right; exact J|exact N]].
Qed.
Lemma transpose_cases {A} (p p' : patch A) new : wf_patch p -> pt_transpose p new = Ok p' ->
  NoDup new /\ (forall d, In (TName d) new -> In d (cm_dims (p_cm p))) /\
  (new = [] \/ In TDots new \/ forall d, In d (cm_dims (p_cm p)) -> In (TName d) new).
Proof.
  intros W H. destruct new as [|t0 new0]; [repeat split; [constructor|intros d []|left; reflexivity]|].
  set (new := t0 :: new0) in *. assert (NE : new <> []) by discriminate. clearbody new.
  assert (ND : NoDup new).
  { destruct (dup_targ new) eqn:D.
    - exfalso. rewrite (pt_transpose_bad p new W NE) in H; [discriminate|]. right; left. intros N.
      apply dup_targ_spec in N. congruence.
    - apply dup_targ_spec, D. }
  assert (S : forall d, In (TName d) new -> In d (cm_dims (p_cm p))).
  { destruct (all_or_one (fun t => match t with TName d => In d (cm_dims (p_cm p)) | TDots => True end)
      (fun t => match t with TName d => in_dec string_dec d _ | TDots => left Logic.I end) new) as [Q|(t & J & N)].
    - intros d J. exact (Q _ J).
    - destruct t as [d|]; [|tauto]. exfalso. rewrite (pt_transpose_bad p new W NE) in H; [discriminate|]. left. eauto. }
  split; [exact ND|]. split; [exact S|]. right. destruct (in_targ_dec TDots new) as [D|D]; [left; exact D|right].
  destruct (all_or_one (fun d => In (TName d) new) (fun d => in_targ_dec (TName d) new) (cm_dims (p_cm p))) as [Q|(d & J & N)]; [exact Q|].
  exfalso. rewrite (pt_transpose_bad p new W NE) in H; [discriminate|]. right; right. eauto.
Qed.
Lemma transpose_undone {A} (p p' : patch A) new : wf_patch p -> pt_transpose p new = Ok p' ->
  pt_transpose p' (map TName (cm_dims (p_cm p))) = Ok p.
Proof.
  intros W H. destruct (transpose_cases p p' new W H) as (ND & S & C).
  destruct (pt_transpose_ok p new W ND S C) as (q & E & Wq & _ & Pm & Cc & Cd & Dt). rewrite H in E. injection E as <-.
  eapply pt_transpose_back; eassumption.
Qed.
Lemma transpose_exact {A} (p : patch A) new : wf_patch p ->
  (exists p', pt_transpose p new = Ok p') \/ pt_transpose p new = Err ParameterError.
Proof.
  intros W. destruct new as [|t0 new0].
  { left. destruct (pt_transpose_ok p [] W) as (p' & E & _); [constructor|intros d []|auto|eauto]. }
  set (new := t0 :: new0) in *. assert (NE : new <> []) by discriminate. clearbody new.
  destruct (dup_targ new) eqn:D.
  { right. apply (pt_transpose_bad p new W NE). right; left. intros N. apply dup_targ_spec in N. congruence. }
  destruct (all_or_one (fun t => match t with TName d => In d (cm_dims (p_cm p)) | TDots => True end)
      (fun t => match t with TName d => in_dec string_dec d _ | TDots => left Logic.I end) new) as [Q|(t & J & N)].
  2:{ destruct t as [d|]; [|tauto]. right. apply (pt_transpose_bad p new W NE). left. eauto. }
  destruct (in_targ_dec TDots new) as [Dt|Dt].
  { left. destruct (pt_transpose_ok p new W) as (p' & E & _); eauto. - apply dup_targ_spec, D. - intros d J. exact (Q _ J). }
  destruct (all_or_one (fun d => In (TName d) new) (fun d => in_targ_dec (TName d) new) (cm_dims (p_cm p))) as [R|(d & J & N)].
  { left. destruct (pt_transpose_ok p new W) as (p' & E & _); eauto. - apply dup_targ_spec, D. - intros d J. exact (Q _ J). }
  right. apply (pt_transpose_bad p new W NE). right; right. eauto.
Qed.

(** ** Flipping twice *)
Lemma gather_rev {A} (l : list A) ps w : gather l ps = Some w -> gather l (rev ps) = Some (rev w).
Proof.
  revert w. induction ps as [|i ps IH]; intros w; cbn [gather rev]; [intros [= <-]; reflexivity|].
  destruct (znth l i) as [x|] eqn:Ex; [|discriminate]. destruct (gather l ps) as [r|]; [|discriminate].
  intros [= <-]. rewrite gather_app, (IH _ eq_refl). cbn [gather rev]. rewrite Ex. reflexivity.
Qed.
Lemma gather_rev_rev n : 0 <= n -> gather (rev (zrange n)) (rev (zrange n)) = Some (zrange n).
Proof.
  intros N. pose proof (gather_zrange (rev (zrange n))) as G. apply gather_rev in G. rewrite rev_involutive in G.
  rewrite zlen_rev, zlen_zrange, Z.max_r in G by lia. exact G.
Qed.
Lemma zrange_zrange n : 0 <= n -> gather (zrange n) (zrange n) = Some (zrange n).
Proof. intros N. pose proof (gather_zrange (zrange n)) as G. rewrite zlen_zrange, Z.max_r in G by lia. exact G. Qed.
Lemma gap_rev vs d : gap (rev vs) d -> gap vs (- d).
Proof.
  intros (i & x & y & X & Y & ->). pose proof (znth_some _ _ _ X) as B1. pose proof (znth_some _ _ _ Y) as B2.
  rewrite zlen_rev in *.
  assert (R : forall j, 0 <= j < zlen vs -> znth (rev vs) j = znth vs (zlen vs - 1 - j)).
  { clear. induction vs as [|a t IH]; intros j J; [cbn in J; lia|]. cbn [rev]. rewrite zlen_cons in *. rewrite znth_app, zlen_rev.
    destruct (Z.ltb_spec j (zlen t)).
    - rewrite IH by lia. rewrite znth_cons. match goal with |- context [?e =? 0] => destruct (Z.eqb_spec e 0) end; [lia|]. f_equal. lia.
    - rewrite znth_cons. rewrite znth_cons. replace (j - zlen t) with 0 by lia. match goal with |- context [?e =? 0] => destruct (Z.eqb_spec e 0) end; [|lia].
      match goal with |- context [?e =? 0] => destruct (Z.eqb_spec e 0) end; [reflexivity|lia]. }
  rewrite R in X, Y by lia. exists (zlen vs - 1 - (i + 1)), y, x. split; [exact Y|]. split; [|lia].
  replace (zlen vs - 1 - (i + 1) + 1) with (zlen vs - 1 - i) by lia. exact X.
Qed.
Lemma spread_rev vs : spread vs -> spread (rev vs).
Proof.
  intros S m2 H d d' G G'. assert (- d = - d'); [|lia].
  apply (S (- m2)); [|apply gap_rev, G|apply gap_rev, G'].
  intros e E. rewrite <- (rev_involutive vs) in E. apply gap_rev, H in E. unfold near_half in *.
  replace (2 * e - - m2) with (- (2 * - e - m2)) by lia. rewrite !Z.abs_opp. exact E.
Qed.
Lemma spread_range r : wf_range r -> spread (r_values r).
Proof.
  intros W m2 _. assert (forall d, gap (r_values r) d -> d = r_step r) as Q; [|intros d d' G G'; rewrite (Q d G), (Q d' G'); reflexivity].
  intros d (i & x & y & X & Y & ->). rewrite r_values_prog in X, Y by assumption. unfold progression in *. rewrite znth_map in X, Y.
  destruct (znth (zrange (r_len r)) i) eqn:Zi; [|discriminate]. destruct (znth (zrange (r_len r)) (i + 1)) eqn:Zj; [|discriminate].
  rewrite znth_zrange in Zi, Zj. destruct (_ && _); [|discriminate]. destruct (_ && _); [|discriminate].
  injection Zi as <-. injection Zj as <-. injection X as <-. injection Y as <-. lia.
Qed.

Lemma carried1_twice c c' c'' ps ps' : wf_coord c -> carried1 c c' ps -> carried1 c' c'' ps' ->
  gather ps ps' = Some (zrange (c_len c)) ->
  (forall vs, gather (c_ints c) ps = Some vs -> spread vs) -> spread (c_ints c) ->
  c_values c'' = c_values c.
Proof.
  intros W H H' G S1 S2.
  assert (Lp : zlen ps' = zlen (zrange (c_len c))) by (symmetry; apply (gather_some_len _ _ _ G)).
  rewrite zlen_zrange, Z.max_r in Lp by (apply c_len_nonneg, W).
  assert (C : concrete c \/ exists n, c = CPart n) by (destruct c; [left|left|left|right]; cbn; eauto).
  destruct C as [C|[n ->]].
  2:{ cbn in H. subst c'. cbn in H'. subst c''. rewrite Lp. reflexivity. }
  assert (exists vs, gather (c_ints c) ps = Some vs /\ represents c' vs) as (vs & Gv & R).
  { destruct c; try exact H. destruct C. }
  destruct R as (Rl & _ & Rv). specialize (Rv (S1 vs Gv)).
  assert (NE : c_len c <> 0).
  { destruct c as [r|k v|k v|n]; [| | |destruct C].
    - cbn [c_len]. destruct W as (_ & W & _). lia.
    - cbn [c_len]. destruct W as [W _]. destruct v; [congruence|]. rewrite zlen_cons. pose proof (zlen_nonneg v). lia.
    - cbn [c_len]. cbn in W. destruct v; [congruence|]. rewrite zlen_cons. pose proof (zlen_nonneg v). lia. }
  assert (C' : concrete c').
  { destruct c' as [| | |n]; try exact Logic.I. exfalso. cbn in Rv. destruct vs as [|v0 vs].
    - pose proof (gather_some_len _ _ _ Gv) as L0. pose proof (gather_in_range _ _ _ G) as Q.
      destruct ps; [|rewrite zlen_cons in L0; pose proof (zlen_nonneg ps); change (zlen (@nil Z)) with 0 in L0; lia].
      destruct ps' as [|q ps']; [change (zlen (@nil Z)) with 0 in Lp; lia|]. specialize (Q q (or_introl eq_refl)). cbn in Q. lia.
    - destruct (Z.to_nat n); cbn in Rv; discriminate. }
  rewrite (concrete_values _ C') in Rv.
  assert (I' : c_ints c' = vs).
  { clear - Rv. revert Rv. generalize (c_ints c'). intros l. revert vs. induction l as [|x t IH]; intros [|y s] E; cbn in E; try discriminate; [reflexivity|].
    injection E as -> E. f_equal. apply IH, E. }
  assert (exists vs', gather (c_ints c') ps' = Some vs' /\ represents c'' vs') as (vs' & Gv' & R').
  { destruct c'; try exact H'. destruct C'. }
  rewrite I' in Gv'. rewrite (gather_gather _ _ _ _ _ Gv G) in Gv'.
  assert (vs' = c_ints c).
  { pose proof (gather_zrange (c_ints c)) as Q. rewrite <- (c_len_values c (wf_okc c W)), (concrete_values c C), zlen_map in Gv'. congruence. }
  subst vs'. destruct R' as (_ & _ & Rv'). rewrite (Rv' S2). symmetry. apply concrete_values, C.
Qed.

Lemma m_shape_nonneg m : wf_mcoord m -> Forall (fun n => 0 <= n) (m_shape m).
Proof.
  destruct m as [c|k a|s]; cbn [wf_mcoord m_shape]; intros W; [|apply W|apply W].
  repeat constructor. apply c_len_nonneg, W.
Qed.
Lemma flip_pick_len cm dims d : zlen (flip_pick cm dims d) = zlen (pick0 cm d).
Proof. unfold flip_pick. destruct (mem d dims); [apply zlen_rev|reflexivity]. Qed.
Lemma flip_shape cm dims n m : wf_cm cm -> assoc n (cm_coords cm) = Some m ->
  map zlen (picks_of cm (flip_pick cm dims) (own0 cm) n) = m_shape m.
Proof.
  intros W E. transitivity (map zlen (picks_of cm (pick0 cm) (own0 cm) n)).
  - unfold picks_of. destruct (assoc n (cm_dmap cm)) as [[|d ds]|]; try reflexivity.
    rewrite !map_map. apply map_ext. intros x. apply flip_pick_len.
  - rewrite (picks0 cm n m W E). apply map_zlen_full, m_shape_nonneg, (wf_vals _ W _ _ E).
Qed.
Lemma flip_picks {A} (p p' : patch A) dims : wf_patch p ->
  aligned p p' (flip_pick (p_cm p) dims) (own0 (p_cm p)) ->
  (forall d, In d (cm_dims (p_cm p)) -> pick0 (p_cm p') d = pick0 (p_cm p) d) /\
  forall n m m', assoc n (cm_coords (p_cm p)) = Some m -> assoc n (cm_coords (p_cm p')) = Some m' -> m_shape m' = m_shape m.
Proof.
  intros W (W' & (Ed & Em & Ec) & _). pose proof (wp_cm _ W) as Wc. pose proof (wp_cm _ W') as Wc'.
  assert (SH : forall n m m', assoc n (cm_coords (p_cm p)) = Some m -> assoc n (cm_coords (p_cm p')) = Some m' -> m_shape m' = m_shape m).
  { intros n m m' E E'. specialize (Ec n). rewrite E, E' in Ec.
    rewrite (carried_shape m m' _ (wf_okm _ (wf_vals _ Wc' _ _ E')) Ec). apply flip_shape; assumption. }
  split; [|exact SH]. intros d J. destruct (wf_dim_coord _ d Wc J) as (c & E & _).
  destruct (wf_dim_coord _ d Wc') as (c' & E' & _); [rewrite Ed; exact J|].
  unfold pick0. rewrite E, E'. pose proof (SH d _ _ E E') as Q. cbn [m_shape] in Q. injection Q as ->. reflexivity.
Qed.

Lemma plain_same cm cm' : plain_names cm -> cm_dims cm' = cm_dims cm ->
  (forall n, assoc n (cm_coords cm) = None -> assoc n (cm_coords cm') = None) -> plain_names cm'.
Proof.
  intros P D C n J. rewrite D. apply P. apply assoc_In in J as [m J]. apply assoc_In.
  destruct (assoc n (cm_coords cm)) eqn:E; [eauto|]. rewrite (C n E) in J. discriminate.
Qed.

(** Flipping twice: same data and dimensions, same coordinate values (for a 1-D
    coordinate unless it is nearly but not exactly even). *)
Lemma flip_compose cm dims d : forall c, wf_coord c -> assoc d (cm_coords cm) = Some (M1 c) ->
  gather (flip_pick cm dims d) (flip_pick cm dims d) = Some (zrange (c_len c)).
Proof.
  intros c W E. unfold flip_pick, pick0. rewrite E. destruct (mem d dims); [apply gather_rev_rev|apply zrange_zrange]; apply c_len_nonneg, W.
Qed.
Lemma compose_flip cm dims ds s : wf_cm cm -> (forall d, In d ds -> In d (cm_dims cm)) -> Forall2 (dim_len cm) ds s ->
  compose (map (flip_pick cm dims) ds) (map (flip_pick cm dims) ds) = full s.
Proof.
  intros W S F. induction F as [|d k l s (c & E & L) F IH]; [reflexivity|]. cbn [map compose full].
  destruct (wf_dim_coord _ d W (S d (or_introl eq_refl))) as (c2 & E2 & Wc & _). rewrite E in E2. injection E2 as <-.
  rewrite (flip_compose cm dims d c Wc E), L. f_equal. apply IH. intros; apply S; right; assumption.
Qed.
Lemma compose_full_full s : Forall (fun n => 0 <= n) s -> compose (full s) (full s) = full s.
Proof. intros H. pose proof (compose_full (full s)) as Q. rewrite map_zlen_full in Q by exact H. exact Q. Qed.

Lemma flip_twice {A} (p : patch A) dims : wf_patch p -> plain_names (p_cm p) -> NoDup dims ->
  (forall d, In d dims -> In d (cm_dims (p_cm p))) ->
  (forall n ds d1 d2, assoc n (cm_dmap (p_cm p)) = Some ds -> In d1 dims -> In d2 dims ->
     In d1 ds -> In d2 ds -> d1 = d2) ->
  exists p' p'', pt_flip p dims true = Ok p' /\ pt_flip p' dims true = Ok p'' /\ wf_patch p'' /\
    p_data p'' = p_data p /\ cm_dims (p_cm p'') = cm_dims (p_cm p) /\
    (forall n, assoc n (cm_dmap (p_cm p'')) = assoc n (cm_dmap (p_cm p))) /\
    forall n, match assoc n (cm_coords (p_cm p)), assoc n (cm_coords (p_cm p'')) with
              | Some (M1 c), Some (M1 c'') => spread (c_ints c) -> c_values c'' = c_values c
              | Some m, Some m'' => m'' = m
              | None, None => True
              | _, _ => False end.
Proof.
  intros W PN ND S ONE. destruct (pt_flip_ok p dims W PN ND S ONE) as (p' & E1 & A1). exists p'.
  destruct (flip_picks p p' dims W A1) as [PK SH]. pose proof A1 as (W' & (Ed & Em & Ec) & Pd).
  assert (PN' : plain_names (p_cm p')).
  { eapply plain_same; [exact PN|exact Ed|]. intros n N. specialize (Ec n). rewrite N in Ec. destruct (assoc n (cm_coords (p_cm p'))); [destruct Ec|reflexivity]. }
  destruct (pt_flip_ok p' dims W' PN' ND) as (p'' & E2 & A2).
  { intros d J. rewrite Ed. apply S, J. }
  { intros n ds d1 d2 D. rewrite Em in D. apply (ONE n ds d1 d2 D). }
  exists p''. destruct A2 as (W'' & (Ed2 & Em2 & Ec2) & Pd2).
  pose proof (wp_cm _ W) as Wc. pose proof (wp_cm _ W') as Wc'.
  assert (FP : forall d, In d (cm_dims (p_cm p)) -> flip_pick (p_cm p') dims d = flip_pick (p_cm p) dims d).
  { intros d J. unfold flip_pick. rewrite (PK d J). reflexivity. }
  split; [exact E1|]. split; [exact E2|]. split; [exact W''|]. split.
  { symmetry. apply nd_picked_full_eq; [apply (wp_nd _ W)|].
    rewrite Ed in Pd2. rewrite (map_ext_in _ (flip_pick (p_cm p) dims)) in Pd2 by exact FP.
    pose proof (nd_picked_compose _ _ _ _ _ Pd Pd2) as Q. rewrite (compose_flip _ dims _ (nd_shape (p_data p)) Wc) in Q; [exact Q|auto|apply (wp_shape _ W)]. }
  split; [congruence|]. split; [intros n; rewrite Em2; apply Em|].
  intros n. specialize (Ec n). specialize (Ec2 n). destruct (assoc n (cm_coords (p_cm p))) as [m|] eqn:En.
  2:{ destruct (assoc n (cm_coords (p_cm p'))); [destruct Ec|]. destruct (assoc n (cm_coords (p_cm p''))); [destruct Ec2|exact Logic.I]. }
  destruct (assoc n (cm_coords (p_cm p'))) as [m'|] eqn:En'; [|destruct Ec].
  destruct (assoc n (cm_coords (p_cm p''))) as [m''|] eqn:En''; [|destruct Ec2].
  destruct (wf_lookup _ n m Wc En) as (ds & D & Sds & F).
  assert (SM : m_shape m' = m_shape m) by (eapply SH; eassumption).
  assert (PQ : picks_of (p_cm p') (flip_pick (p_cm p') dims) (own0 (p_cm p')) n = picks_of (p_cm p) (flip_pick (p_cm p) dims) (own0 (p_cm p)) n).
  { unfold picks_of. rewrite Em, D. destruct ds as [|d0 ds0].
    - unfold own0. rewrite En, En', SM. reflexivity.
    - apply map_ext_in. intros d J. apply FP, Sds, J. }
  rewrite PQ in Ec2. clear PQ.
  assert (CP : compose (picks_of (p_cm p) (flip_pick (p_cm p) dims) (own0 (p_cm p)) n) (picks_of (p_cm p) (flip_pick (p_cm p) dims) (own0 (p_cm p)) n) = full (m_shape m)).
  { unfold picks_of. rewrite D. destruct ds as [|d0 ds0].
    - unfold own0. rewrite En. apply compose_full_full, m_shape_nonneg, (wf_vals _ Wc _ _ En).
    - destruct F as [F|F]; [discriminate|]. apply compose_flip; assumption. }
  pose proof (flip_shape (p_cm p) dims n m Wc En) as LZ.
  pose proof (wf_vals _ Wc _ _ En) as Wm. pose proof (wf_vals _ Wc' _ _ En') as Wm'.
  destruct m as [c|k a|s]; cbn [carried] in Ec.
  - destruct Ec as (c' & ps & -> & Eps & C1). rewrite Eps in *. cbn [carried] in Ec2.
    destruct Ec2 as (c'' & ps2 & -> & [= <-] & C2). intros SP. cbn [wf_mcoord] in Wm.
    cbn [map m_shape] in LZ. injection LZ as LZ.
    assert (CG : gather ps ps = Some (zrange (c_len c)) /\ (ps = zrange (c_len c) \/ ps = rev (zrange (c_len c)))).
    { unfold picks_of in Eps. rewrite D in Eps. destruct ds as [|d0 [|d1 ds0]]; [| |discriminate].
      - unfold own0 in Eps. rewrite En in Eps. cbn in Eps. injection Eps as <-. split; [apply zrange_zrange, c_len_nonneg, Wm|auto].
      - destruct F as [F|F]; [discriminate|]. inversion F as [|? k0 ? ? Hd F']; subst. inversion F'; subst.
        destruct (wf_dim_coord _ d0 Wc (Sds d0 (or_introl eq_refl))) as (c0 & E0 & W0 & _).
        assert (c_len c0 = c_len c). { destruct Hd as (c9 & E9 & L9). rewrite E0 in E9. injection E9 as <-. exact L9. }
        cbn [map] in Eps. injection Eps as <-. rewrite (flip_compose _ dims d0 c0 W0 E0), <- H. split; [reflexivity|].
        unfold flip_pick, pick0. rewrite E0. destruct (mem d0 dims); auto. }
    destruct CG as [CG CC]. apply (carried1_twice c c' c'' ps ps Wm C1 C2 CG); [|exact SP].
    assert (GZ : concrete c -> gather (c_ints c) (zrange (c_len c)) = Some (c_ints c)).
    { intros CO. rewrite <- (c_len_values c (wf_okc c Wm)), (concrete_values c CO), zlen_map. apply gather_zrange. }
    assert (CO : concrete c \/ c_ints c = []) by (destruct c; [left|left|left|right]; cbn; auto).
    intros vs G. destruct CO as [CO|CO].
    + destruct CC as [ -> | -> ].
      * rewrite (GZ CO) in G. injection G as <-. exact SP.
      * rewrite (gather_rev _ _ _ (GZ CO)) in G. injection G as <-. apply spread_rev, SP.
    + rewrite CO in G. destruct ps as [|q ps]; [injection G as <-; rewrite <- CO; exact SP|cbn in G; rewrite znth_nil in G; discriminate].
  - cbn [m_shape] in *. destruct Wm as (Wa & Na & Sz). rewrite LZ in Ec. destruct (Z.eqb_spec (size (nd_shape a)) 0); [lia|].
    destruct Ec as (b & -> & Pb). cbn [carried] in Ec2. rewrite LZ in Ec2. destruct (Z.eqb_spec (size (nd_shape a)) 0); [lia|].
    destruct Ec2 as (b2 & -> & Pb2). f_equal. symmetry. apply nd_picked_full_eq; [exact Wa|]. rewrite <- CP. eapply nd_picked_compose; eassumption.
  - destruct Ec as [-> _]. cbn [carried] in Ec2. destruct Ec2 as [-> _]. rewrite LZ. reflexivity.
Qed.

(** Lemmas behind BinOpProps.v: one operand before and after aligning. *)
From Verif Require Import Base BaseFacts CoordModel CoordSpec CoordProofs CoordProofs2 CoordProofs3
  CoordProofs4 CoordProofs5 NdModel NdSpec NdProofs NdProofs2 NdProofs3 FrameModel FrameProofs5 ChunkModel CmModel CmSpec
  CmProofs CmProofs2 CmProofs3 CmProofs4 CmProofs8 CmProofs10 CmProofs12 CmProofs13 CmProofs15 BinOpModel BinOpSpec BinOpProofs BinOpProofs2.
From Coq Require Import Strings.String ZifyBool Sorting.Permutation Sorting.Sorted.
Ltac Zify.zify_post_hook ::= Z.div_mod_to_equations.
Local Open Scope Z_scope.
Local Open Scope list_scope.

Definition zget (l : list Z) (i : Z) : Z := match znth l i with Some x => x | None => 0 end.

(** Patch [p2] is [p] with dimensions [D], restricted to positions [psf]. *)
Record lined {A} (p p2 : patch A) (D : list string) (psf : string -> list Z) : Prop :=
  { ln_wf : wf_patch p2;
    ln_dims : cm_dims (p_cm p2) = D;
    ln_plain : plain_names (p_cm p2);
    ln_data : forall pos, (forall d, In d D -> 0 <= pos d < zlen (psf d)) ->
      data_at p2 pos = data_at p (fun d => zget (psf d) (pos d));
    ln_len : forall d, In d D -> dim_len (p_cm p2) d (zlen (psf d));
    ln_new : forall d, In d D -> ~ In d (cm_dims (p_cm p)) ->
      assoc d (cm_coords (p_cm p2)) = Some (M1 (CPart 1)) /\ psf d = [0];
    ln_dim : forall d c, In d (cm_dims (p_cm p)) -> assoc d (cm_coords (p_cm p)) = Some (M1 c) ->
      exists c2, assoc d (cm_coords (p_cm p2)) = Some (M1 c2) /\ carried1 c c2 (psf d);
    ln_assoc : forall n m', ~ In n D -> assoc n (cm_coords (p_cm p2)) = Some m' ->
      exists m, assoc n (cm_coords (p_cm p)) = Some m /\ carried m m' (full (m_shape m)) /\
        m_partial m' = m_partial m /\ assoc n (cm_dmap (p_cm p2)) = assoc n (cm_dmap (p_cm p));
    ln_kept : forall n m ds, ~ In n D -> assoc n (cm_coords (p_cm p)) = Some m -> assoc n (cm_dmap (p_cm p)) = Some ds ->
      (assoc n (cm_coords (p_cm p2)) <> None <-> forall d k, In d ds -> dim_len (p_cm p) d k -> dim_len (p_cm p2) d k) }.

Lemma recf_partial m : wf_mcoord m -> m_partial (recf m) = m_partial m.
Proof.
  intros W. destruct m as [c|k a|s]; [|unfold recf|reflexivity].
  - cbn [wf_mcoord] in W. destruct (recoord_1 c (wf_okc _ W)) as (c' & E & W' & L & C & P & _). unfold recf. rewrite E.
    destruct c as [r|k v|k v|n].
    + cbn [recoord] in E. injection E as <-. reflexivity.
    + specialize (C I). apply represents_concrete in C; [|exact W'|cbn; apply W]. destruct c'; cbn in *; tauto.
    + specialize (C I). apply represents_concrete in C; [|exact W'|cbn; apply W]. destruct c'; cbn in *; tauto.
    + cbn [recoord] in E. injection E as <-. reflexivity.
  - destruct W as (_ & _ & S). cbn [recoord]. unfold get_coord_nd. destruct (Z.eqb_spec (size (nd_shape a)) 0); [lia|reflexivity].
Qed.

Lemma again_facts m m' : wf_mcoord m -> again m m' ->
  wf_mcoord m' /\ carried m m' (full (m_shape m)) /\ m_partial m' = m_partial m /\ m_shape m' = m_shape m.
Proof.
  intros W [->| ->].
  - split; [exact W|]. split; [apply carried_refl, W|]. auto.
  - destruct (recf_spec m (wf_okm _ W)) as (_ & S & W'). split; [exact W'|]. split; [|split; [apply recf_partial, W|exact S]].
    apply carried_recf; [apply wf_okm, W|]. apply carried_refl, W.
Qed.

Lemma again_1 c m' : wf_coord c -> again (M1 c) m' -> exists c', m' = M1 c' /\ c_len c' = c_len c /\ carried1 c c' (zrange (c_len c)).
Proof.
  intros W H. destruct (again_facts (M1 c) m' W H) as (W' & Ca & _ & S). cbn [m_shape full map carried] in Ca.
  destruct Ca as (c' & ps & -> & [= <-] & Q). exists c'. cbn [m_shape] in S. injection S as S. auto.
Qed.

Lemma picked_at {A} (p1 p2 : patch A) D psf : cm_dims (p_cm p1) = D -> cm_dims (p_cm p2) = D ->
  nd_picked (p_data p1) (p_data p2) (map psf D) ->
  forall pos, (forall d, In d D -> 0 <= pos d < zlen (psf d)) ->
    data_at p2 pos = data_at p1 (fun d => zget (psf d) (pos d)).
Proof.
  intros D1 D2 (_ & _ & _ & H) pos P. unfold data_at. rewrite D1, D2.
  destruct (H (map pos D)) as (jx & x & J & X & Y).
  - rewrite map_map. apply (inb_map (fun d => zlen (psf d))). exact P.
  - rewrite Y, <- X. f_equal. clear -J P. revert jx J P. induction D as [|d t IH]; intros jx J P; cbn [map pick_ix] in J |- *; [congruence|].
    destruct (znth (psf d) (pos d)) as [z|] eqn:Z0; [|discriminate]. destruct (pick_ix (map psf t) (map pos t)) as [l|] eqn:L; [|discriminate].
    injection J as <-. f_equal; [unfold zget; rewrite Z0; reflexivity|]. symmetry. rewrite (IH l); auto. intros y Y. apply P. right. exact Y.
Qed.

Lemma zget_range n i : 0 <= i < n -> zget (zrange n) i = i.
Proof. intros H. unfold zget. rewrite znth_zrange_in by exact H. reflexivity. Qed.

Lemma picks_inside psf D s cm d c : Forall2 (fun ps n => forall p, In p ps -> 0 <= p < n) (map psf D) s ->
  Forall2 (dim_len cm) D s -> In d D -> assoc d (cm_coords cm) = Some (M1 c) -> forall z, In z (psf d) -> 0 <= z < c_len c.
Proof.
  intros F SH J C1 z Z0. revert s F SH. induction D as [|x t IH]; intros s F SH; [destruct J|]. cbn [map] in F.
  inversion F as [|? n ? s' H1 H2]; subst. inversion SH as [|? ? ? ? H3 H4]; subst.
  destruct J as [->|J]; [|apply (IH J s'); auto]. destruct H3 as (c' & C & <-). rewrite C1 in C. injection C as <-. apply H1, Z0.
Qed.

Section Side.
Context {A : Type} (p : patch A) (D : list string).
Hypothesis W : wf_patch p.
Hypothesis ND : NoDup D.
Hypothesis SUB : forall d, In d (cm_dims (p_cm p)) -> In d D.
Hypothesis NEW : forall d, In d D -> ~ In d (cm_dims (p_cm p)) -> ~ In d (map fst (cm_coords (p_cm p))).
Hypothesis PL : forall n, In n (map fst (cm_coords (p_cm p))) \/ In n D -> limit_key D n = false.

Lemma side_widen : exists p1, widen p D = Ok p1 /\ lined p p1 D (pick0 (p_cm p1)) /\
  (forall n m, assoc n (cm_coords (p_cm p)) = Some m -> exists m', assoc n (cm_coords (p_cm p1)) = Some m' /\ again m m').
Proof.
  destruct (widen_ok p D W ND SUB NEW) as (p1 & E & W1 & D1 & C1 & O1 & N1 & G1).
  { intros d J. apply (limit_key_sub _ D); [apply (wp_some _ W)|exact SUB|apply PL; auto]. }
  exists p1. split; [exact E|]. split; [|intros n m Q; apply (C1 n m Q)].
  assert (LEN : forall d, In d D -> exists c, assoc d (cm_coords (p_cm p1)) = Some (M1 c) /\ pick0 (p_cm p1) d = zrange (c_len c) /\ 0 <= c_len c /\ zlen (pick0 (p_cm p1) d) = c_len c).
  { intros d J. rewrite <- D1 in J. destruct (wf_dim_coord _ d (wp_cm _ W1) J) as (c & C & Wc & _). exists c. split; [exact C|].
    pose proof (c_len_nonneg c Wc). unfold pick0. rewrite C. split; [reflexivity|]. rewrite zlen_zrange. lia. }
  split; auto.
  - intros n J. rewrite D1. apply PL. apply assoc_In in J as [m' J]. destruct (assoc n (cm_coords (p_cm p))) as [m|] eqn:Q; [left; apply assoc_In; eauto|].
    right. destruct (in_dec string_dec n D) as [K|K]; [exact K|]. rewrite (O1 n Q K) in J. discriminate.
  - intros pos P. 
    assert (Z0 : forall d, In d D -> zget (pick0 (p_cm p1) d) (pos d) = pos d).
    { intros d J. destruct (LEN d J) as (c & C & P0 & N & L). specialize (P d J). rewrite L in P. rewrite P0. apply zget_range. exact P. }
    unfold data_at at 2. transitivity (data_at p pos).
    + apply G1. intros d J K. destruct (LEN d J) as (c & C & _ & _ & L). rewrite (N1 d J K) in C. injection C as <-. specialize (P d J). rewrite L in P. cbn in P. lia.
    + unfold data_at. f_equal. apply map_ext_in. intros d J. symmetry. apply Z0, SUB, J.
  - intros d J. destruct (LEN d J) as (c & C & _ & _ & L). exists c. auto.
  - intros d J K. split; [apply N1; auto|]. unfold pick0. rewrite (N1 d J K). reflexivity.
  - intros d c J C. destruct (C1 d _ C) as [_ (m' & C' & AG)]. destruct (again_1 c m') as (c' & -> & L & Ca); [apply (wf_vals _ (wp_cm _ W) _ _ C)|exact AG|].
    exists c'. split; [exact C'|]. unfold pick0. rewrite C', L. exact Ca.
  - intros n m' N C'. destruct (assoc n (cm_coords (p_cm p))) as [m|] eqn:Q; [|rewrite (O1 n Q N) in C'; discriminate].
    destruct (C1 n m Q) as [M (m2 & C2 & AG)]. rewrite C' in C2. injection C2 as <-. exists m. split; [reflexivity|].
    destruct (again_facts m m' (wf_vals _ (wp_cm _ W) _ _ Q) AG) as (_ & X & Y & _). auto.
  - intros n m ds N Q Dm. destruct (C1 n m Q) as [M (m2 & C2 & AG)]. split; [|intros _; congruence].
    intros _ d k J (c & C & L). destruct (C1 d _ C) as [_ (m' & C' & AG')]. destruct (again_1 c m') as (c' & -> & L' & _); [apply (wf_vals _ (wp_cm _ W) _ _ C)|exact AG'|].
    exists c'. split; [exact C'|congruence].
Qed.

Lemma side_align p1 new ixs psf : lined p p1 D (pick0 (p_cm p1)) ->
  (forall n m, assoc n (cm_coords (p_cm p)) = Some m -> exists m', assoc n (cm_coords (p_cm p1)) = Some m' /\ again m m') ->
  NoDup (map fst new) ->
  (forall d c', assoc d new = Some c' -> okc c' /\ In d (cm_dims (p_cm p)) /\
     exists c c1 ix, assoc d (cm_coords (p_cm p)) = Some (M1 c) /\ assoc d (cm_coords (p_cm p1)) = Some (M1 c1) /\ assoc d ixs = Some ix /\
       indexer_positions (c_len c1) ix = Some (psf d) /\ zlen (psf d) = c_len c' /\ carried1 c c' (psf d)) ->
  (forall d, In d D -> assoc d new = None -> assoc d ixs = None /\ psf d = pick0 (p_cm p1) d) ->
  exists p2, align_apply p1 new ixs = Ok p2 /\ lined p p2 D psf.
Proof.
  intros LN AGN NDn H1 H2. pose proof (ln_wf _ _ _ _ LN) as W1. pose proof (ln_dims _ _ _ _ LN) as D1.
  destruct (align_apply_ok p1 new ixs psf W1 (ln_plain _ _ _ _ LN) NDn) as (p2 & E & W2 & D2 & P2 & U1 & U2 & U3).
  { intros d c' Q. destruct (H1 d c' Q) as (K & J & c & c1 & ix & C & C1 & X & Y & L & _). split; [exact K|]. split; [rewrite D1; apply SUB, J|]. eauto 8. }
  { intros d J. rewrite D1 in J. apply H2, J. }
  exists p2. split; [exact E|]. rewrite D1 in D2, P2.
  assert (LEN1 : forall d, In d D -> exists c, assoc d (cm_coords (p_cm p1)) = Some (M1 c) /\ wf_coord c /\ pick0 (p_cm p1) d = zrange (c_len c) /\ 0 <= c_len c /\ zlen (pick0 (p_cm p1) d) = c_len c).
  { intros d J. rewrite <- D1 in J. destruct (wf_dim_coord _ d (wp_cm _ W1) J) as (c & C & Wc & _). exists c. split; [exact C|]. split; [exact Wc|].
    pose proof (c_len_nonneg c Wc). unfold pick0. rewrite C. split; [reflexivity|]. rewrite zlen_zrange. lia. }
  assert (UNR : forall d, In d D -> assoc d new = None -> ~ resized (p_cm p1) (newc new) d).
  { intros d J Q (ds & d0 & c0 & c0' & X1 & X2 & X3 & _). rewrite <- D1 in J. destruct (wf_dim_coord _ d (wp_cm _ W1) J) as (_ & _ & _ & Dm). rewrite Dm in X1.
    injection X1 as <-. destruct X2 as [<-|[]]. unfold newc in X3. rewrite Q in X3. discriminate. }
  assert (DIM2 : forall d, In d D -> exists c1 c2, assoc d (cm_coords (p_cm p1)) = Some (M1 c1) /\ assoc d (cm_coords (p_cm p2)) = Some (M1 c2) /\ c_len c2 = zlen (psf d) /\
     (assoc d new = None -> M1 c2 = recf (M1 c1) /\ c_len c2 = c_len c1)).
  { intros d J. destruct (LEN1 d J) as (c1 & C1 & Wc & P0 & N0 & L0). exists c1. destruct (assoc d new) as [c'|] eqn:Q.
    - destruct (H1 d c' Q) as (K & _ & _ & _ & _ & _ & _ & _ & _ & L & _). destruct (recf_M1 c' K) as (c2 & R & L2 & _). exists c2.
      split; [exact C1|]. destruct (U1 d c' Q) as [-> _]. rewrite R. split; [reflexivity|]. split; [congruence|discriminate].
    - destruct (H2 d J Q) as [_ ->]. destruct (recf_M1 c1 (wf_okc _ Wc)) as (c2 & R & L2 & _). exists c2. split; [exact C1|].
      destruct (U3 d Q (UNR d J Q)) as [-> _]. rewrite C1. cbn [option_map]. rewrite R. split; [reflexivity|]. split; [congruence|]. auto. }
  split; auto.
  - intros n J. rewrite D2, <- D1. apply (ln_plain _ _ _ _ LN). apply assoc_In in J as [m' J]. apply assoc_In.
    destruct (assoc n new) as [c'|] eqn:Q.
    + destruct (H1 n c' Q) as (_ & _ & c & c1 & ix & _ & C1 & _). eauto.
    + destruct (assoc n (cm_coords (p_cm p1))) as [m|] eqn:C1; [eauto|]. exfalso.
      assert (NR : ~ resized (p_cm p1) (newc new) n).
      { intros (ds & d0 & c0 & c0' & X1 & _). destruct (con_coord _ (wf_con _ (wp_cm _ W1)) n ds X1) as (m & M & _). congruence. }
      destruct (U3 n Q NR) as [X _]. rewrite C1 in X. cbn in X. congruence.
  - intros pos P. rewrite (picked_at p1 p2 D psf D1 D2 P2 pos P).
    assert (PR : forall d, In d D -> 0 <= zget (psf d) (pos d) < zlen (pick0 (p_cm p1) d)).
    { intros d J. destruct (LEN1 d J) as (c1 & C1 & Wc & P0 & N0 & L0). rewrite L0. pose proof (P d J) as Pd.
      destruct (znth (psf d) (pos d)) as [z|] eqn:Z0; [|apply znth_none in Z0; lia].
      unfold zget. rewrite Z0. apply znth_in in Z0. destruct P2 as (_ & _ & F & _).
      pose proof (wp_shape _ W1) as SH. rewrite D1 in SH. exact (picks_inside _ _ _ _ _ _ F SH J C1 z Z0). }
    rewrite (ln_data _ _ _ _ LN) by exact PR. unfold data_at. f_equal. apply map_ext_in. intros d J. specialize (PR d (SUB d J)).
    destruct (LEN1 d (SUB d J)) as (c1 & C1 & Wc & P0 & N0 & L0). rewrite P0. apply zget_range. lia.
  - intros d J. destruct (DIM2 d J) as (c1 & c2 & _ & C2 & L & _). exists c2. auto.
  - intros d J K. destruct (ln_new _ _ _ _ LN d J K) as [C1 P0].
    assert (assoc d new = None) as Q. { destruct (assoc d new) as [c'|] eqn:Q; [|reflexivity]. destruct (H1 d c' Q) as (_ & X & _). contradiction. }
    destruct (H2 d J Q) as [_ ->]. split; [|exact P0]. destruct (U3 d Q (UNR d J Q)) as [-> _]. rewrite C1. reflexivity.
  - intros d c J C. destruct (DIM2 d (SUB d J)) as (c1 & c2 & C1 & C2 & L & N). exists c2. split; [exact C2|].
    destruct (assoc d new) as [c'|] eqn:Q.
    + destruct (H1 d c' Q) as (K & _ & c0 & _ & _ & C0 & _ & _ & _ & _ & Ca). rewrite C in C0. injection C0 as <-.
      destruct (U1 d c' Q) as [X _]. rewrite C2 in X. injection X as X.
      assert (carried (M1 c) (recf (M1 c')) [psf d]) as Y by (apply carried_recf; [exact K|]; exists c', (psf d); auto).
      rewrite <- X in Y. destruct Y as (c3 & ps & [= <-] & [= <-] & Y). exact Y.
    + destruct (N eq_refl) as [R L2]. destruct (H2 d (SUB d J) Q) as [_ ->].
      destruct (ln_dim _ _ _ _ LN d c J C) as (c1' & C1' & Ca). rewrite C1 in C1'. injection C1' as <-.
      assert (carried (M1 c) (recf (M1 c1)) [pick0 (p_cm p1) d]) as Y.
      { apply carried_recf; [apply wf_okm, (wf_vals _ (wp_cm _ W1) _ _ C1)|]. exists c1, (pick0 (p_cm p1) d). auto. }
      rewrite <- R in Y. destruct Y as (c3 & ps & [= <-] & [= <-] & Y). exact Y.
  - intros n m' N C'.
    assert (assoc n new = None) as Q. { destruct (assoc n new) as [c'|] eqn:Q; [|reflexivity]. destruct (H1 n c' Q) as (_ & X & _). destruct (N (SUB n X)). }
    assert (NR : ~ resized (p_cm p1) (newc new) n) by (intros R; destruct (U2 n Q R) as [X _]; congruence).
    destruct (U3 n Q NR) as [X Y]. rewrite X in C'. destruct (assoc n (cm_coords (p_cm p1))) as [m1|] eqn:C1; [|discriminate]. cbn [option_map] in C'. injection C' as <-.
    destruct (ln_assoc _ _ _ _ LN n m1 N C1) as (m & C & Ca & Pa & Dm). exists m. split; [exact C|].
    pose proof (wf_vals _ (wp_cm _ W1) _ _ C1) as W1m. split; [apply carried_recf; [apply wf_okm, W1m|exact Ca]|]. split; [rewrite recf_partial by exact W1m; exact Pa|congruence].
  - intros n m ds N C Dm.
    assert (assoc n new = None) as Q. { destruct (assoc n new) as [c'|] eqn:Q; [|reflexivity]. destruct (H1 n c' Q) as (_ & X & _). destruct (N (SUB n X)). }
    destruct (AGN n m C) as (m1 & C1 & AG).
    destruct (ln_assoc _ _ _ _ LN n m1 N C1) as (m0 & C0 & _ & _ & Dm1). rewrite Dm in Dm1.
    assert (DS : forall d, In d ds -> In d (cm_dims (p_cm p))).
    { destruct (con_coord _ (wf_con _ (wp_cm _ W)) n ds Dm) as (_ & _ & S & _). exact S. }
    assert (LL : forall d k, In d ds -> dim_len (p_cm p) d k <-> dim_len (p_cm p1) d k).
    { intros d k J. destruct (wf_dim_coord _ d (wp_cm _ W) (DS d J)) as (c & Cd & Wc & _). destruct (AGN d _ Cd) as (m' & Cd1 & AG').
      destruct (again_1 c m' Wc AG') as (c1 & -> & L & _). split; intros (c' & E' & <-).
      - exists c1. split; [exact Cd1|]. rewrite Cd in E'. injection E' as <-. exact L.
      - exists c. split; [exact Cd|]. rewrite Cd1 in E'. injection E' as <-. symmetry. exact L. }
    split.
    + intros NN d k J K. rewrite LL in K by exact J. destruct K as (c1 & Cd1 & <-).
      destruct (DIM2 d (SUB d (DS d J))) as (c1' & c2 & X1 & X2 & L & NW). rewrite Cd1 in X1. injection X1 as <-.
      exists c2. split; [exact X2|]. destruct (Z.eq_dec (c_len c2) (c_len c1)) as [Y|Y]; [exact Y|]. exfalso. apply NN.
      apply (U2 n Q). destruct (assoc d new) as [c'|] eqn:Qd; [|destruct (NW eq_refl) as [_ Z0]; congruence].
      exists ds, d, c1, c'. split; [exact Dm1|]. split; [exact J|]. split; [unfold newc; rewrite Qd; reflexivity|]. split; [exact Cd1|].
      destruct (H1 d c' Qd) as (_ & _ & _ & _ & _ & _ & _ & _ & _ & L' & _). congruence.
    + intros H. assert (NR : ~ resized (p_cm p1) (newc new) n).
      { intros (ds' & d & c1 & c' & X1 & J & X3 & X4 & X5). rewrite Dm1 in X1. injection X1 as <-.
        unfold newc in X3. destruct (assoc d new) as [c0|] eqn:Qd; [|discriminate]. injection X3 as ->.
        destruct (H1 d c' Qd) as (_ & _ & _ & _ & _ & _ & _ & _ & _ & L' & _).
        destruct (H d (c_len c1) J) as (c2 & Y1 & Y2); [apply LL; [exact J|]; exists c1; auto|].
        destruct (DIM2 d (SUB d (DS d J))) as (c1' & c2' & Z1 & Z2 & L & _). rewrite Y1 in Z2. injection Z2 as <-. congruence. }
      destruct (U3 n Q NR) as [-> _]. rewrite C1. discriminate.
Qed.
End Side.

(** Lemmas behind FourierProps.v: the lags of a correlation. *)
From Verif Require Import Base BaseFacts CoordModel CoordSpec CoordProofs NdModel NdSpec NdProofs NdProofs2
  FrameModel FrameProofs FrameProofs5 ChunkModel CmModel CmSpec CmProofs CmProofs2 CmProofs3 CmProofs5 CmProofs12 CmProofs13 CmProofs14
  CmProofs16 CmProofs17 CmProofs19 ProcModel ProcSpec ProcProofs2 ProcProofs3 ProcProofs4 ProcProofs5 FourierModel FourierSpec FourierProofs FourierProofs2 FourierProofs3
  FourierProofs5.
From Coq Require Import Strings.String Strings.Ascii ZifyBool Sorting.Permutation.
Ltac Zify.zify_post_hook ::= Z.div_mod_to_equations.
Local Open Scope Z_scope.
Local Open Scope list_scope.

Lemma correlate_shift_ok {A} (unscale : Z -> A -> A) (p : patch A) d undo r : wf_patch p -> plain_names (p_cm p) ->
  In d (cm_dims (p_cm p)) -> assoc d (cm_coords (p_cm p)) = Some (M1 (CRange r)) -> 2 <= r_len r ->
  (r_kind r = KTime \/ Z.even (r_len r) = true \/ r_len r < 100000) ->
  assoc ("lag_" ++ d)%string (cm_coords (p_cm p)) = None ->
  exists p', correlate_shift unscale p d undo = Ok p' /\ lagged unscale p p' d r undo.
Proof.
  intros WP PN I E N2 LK FR. pose proof (wp_cm _ WP) as W. set (cm := p_cm p) in *.
  destruct (ranged_ok cm d W (conj I (ex_intro _ r E))) as (_ & EA & _ & Wr & ED).
  assert (rgf cm d = r) as QR by (unfold rgf; rewrite E; reflexivity). rewrite QR in *.
  set (n := r_len r) in *. set (l := mkRange (r_kind r) (- (n / 2) * r_step r) (- (n / 2) * r_step r + r_step r * n) (r_step r) n).
  assert (EL : lag_coord r = Ok (CRange l)) by (apply lag_coord_time; assumption).
  assert (WL : wf_range l) by (destruct Wr as (S1 & S2 & S3); split; [exact S1|]; split; [exact S2|cbn [r_start r_stop r_step r_len l]; lia]).
  destruct (fftshift_ok (p_data p) [axf cm d] (wp_nd _ WP)) as (b & Eb & Wb & Sb & _ & Gb).
  destruct (pt_update_dim p d (CRange r) (CRange l) WP PN I E WL) as [U _].
  destruct U as (p1 & E1 & W1 & D1 & I1 & M1' & C1); [reflexivity|].
  assert (EC1 : cm_update cm [(d, KSimple (VCoord (M1 (CRange l))))] = Ok (p_cm p1)).
  { unfold pt_update_coords in E1. apply bind_ok in E1. destruct E1 as (c & Ec & E1). fold cm in Ec. rewrite Ec.
    unfold new_patch in E1. apply bind_ok in E1. destruct E1 as (s & _ & E1). destruct (zlist_eqb _ _) in E1; [|discriminate].
    assert (p1 = mkPatch c (p_data p)) by congruence. subst p1. reflexivity. }
  assert (NL : ~ In ("lag_" ++ d)%string (map fst (cm_coords (p_cm p1)))).
  { intros J. apply assoc_In in J. destruct J as [m J]. specialize (C1 ("lag_" ++ d)%string). rewrite J in C1.
    destruct (String.eqb_spec ("lag_" ++ d)%string d) as [Q|Q]; [|fold cm in C1; rewrite FR in C1; exact C1]. fold cm in FR. congruence. }
  pose proof (C1 d) as C1d. rewrite String.eqb_refl in C1d. destruct (assoc d (cm_coords (p_cm p1))) as [m1|] eqn:Ed1; [|destruct C1d].
  assert (FRn : fresh_renames [(d, ("lag_" ++ d)%string)] (map fst (cm_coords (p_cm p1)))).
  { split; [apply assoc_In; eauto|]. split; [right; exact NL|exact Logic.I]. }
  destruct (pt_rename_ok p1 _ W1 FRn) as (p2 & E2 & W2 & D2 & I2 & K2 & C2).
  assert (EC2 : cm_rename (p_cm p1) [(d, ("lag_" ++ d)%string)] = Ok (p_cm p2)).
  { unfold pt_rename in E2. apply bind_ok in E2. destruct E2 as (c & Ec & E2). rewrite Ec.
    unfold new_patch in E2. apply bind_ok in E2. destruct E2 as (s & _ & E2). destruct (zlist_eqb _ _) in E2; [|discriminate].
    assert (p2 = mkPatch c (p_data p1)) by congruence. subst p2. reflexivity. }
  set (data := if undo then nd_map (unscale (r_step r)) b else b).
  assert (WD : wf_nd data /\ nd_shape data = nd_shape (p_data p)).
  { unfold data. destruct undo; [split; [apply nd_map_wf, Wb|exact Sb]|split; assumption]. }
  exists (mkPatch (p_cm p2) data).
  assert (WP' : wf_patch (mkPatch (p_cm p2) data)).
  { split; cbn [p_cm p_data]; [apply W2|apply WD|apply (wp_some _ W2)|]. rewrite (proj2 WD). rewrite <- D1, <- D2. apply (wp_shape _ W2). }
  assert (RN : forall x, renamed [(d, ("lag_" ++ d)%string)] x = if String.eqb x d then ("lag_" ++ d)%string else x) by reflexivity.
  split.
  - unfold correlate_shift. fold cm. rewrite ED. cbn [bind]. rewrite Eb. rewrite EL. cbn [bind]. rewrite EC1. cbn [bind].
    rewrite EC2. cbn [bind]. fold data. apply new_patch_ok; apply WP'.
  - constructor; cbn [p_cm p_data].
    + exact WP'.
    + rewrite I2, I1. reflexivity.
    + destruct (C2 d (proj1 FRn)) as [Q1 _]. rewrite RN, String.eqb_refl in Q1. rewrite Q1, Ed1.
      destruct C1d as (c' & ps & -> & Q & vs & Gv & RP). exists c'. split; [reflexivity|].
      change (full (m_shape (M1 (CRange l)))) with [zrange n] in Q. assert (ps = zrange n) by congruence. subst ps.
      cbn [c_ints] in Gv. assert (zlen (r_values l) = n) as ZL by (rewrite zlen_r_values; reflexivity || apply WL).
      rewrite <- ZL, gather_zrange in Gv. assert (vs = r_values l) by congruence. subst vs.
      destruct RP as (_ & _ & SP). rewrite (SP (spread_range l WL)).
      rewrite (r_values_prog l WL). unfold progression. rewrite map_map. cbn [r_start r_step r_len l]. apply map_ext. intros i. f_equal. fold n. lia.
    + intros x Nx Ex. specialize (C1 x). destruct (String.eqb_spec x d) as [Q|_]; [contradiction|]. fold cm in C1.
      destruct (assoc x (cm_coords (p_cm p1))) as [m'|] eqn:E1x.
      * destruct (C2 x) as [Q1 Q2]; [apply assoc_In; eauto|]. rewrite RN in Q1, Q2. destruct (String.eqb_spec x d); [contradiction|].
        rewrite Q1, E1x, Q2, M1'. fold cm. destruct (assoc x (cm_coords cm)) as [m|]; [|destruct C1]. split; [exact C1|reflexivity].
      * fold cm. destruct (assoc x (cm_coords cm)) as [m|]; [destruct C1|].
        destruct (assoc x (cm_coords (p_cm p2))) as [m2|] eqn:E2x; [|exact Logic.I].
        exfalso. assert (J : In x (map fst (cm_coords (p_cm p2)))) by (apply assoc_In; eauto). apply K2 in J. apply in_map_iff in J.
        destruct J as (y & Qy & Jy). rewrite RN in Qy. destruct (String.eqb_spec y d) as [Qd|]; [congruence|]. subst y.
        apply assoc_In in Jy. destruct Jy as [? Jy]. congruence.
    + apply WD.
    + intros ix B. destruct (Gb ix B) as (jx & G1 & G2 & G3). exists jx. split; [exact G2|]. split.
      * unfold data. destruct undo; [rewrite nd_map_get, G1; reflexivity|rewrite G1; destruct (nd_get (p_data p) jx); reflexivity].
      * intros i e k x A1 A2 A3. rewrite (G3 i k x A2 A3). cbn [existsb]. rewrite orb_false_r.
        fold cm in A1. destruct (Nat.eqb_spec i (axf cm d)) as [->|Ni].
        -- assert (e = d) by congruence. subst e. rewrite String.eqb_refl. reflexivity.
        -- destruct (String.eqb_spec e d) as [Qd|_]; [|reflexivity]. exfalso. apply Ni. subst e.
           eapply (NoDup_nth_error (cm_dims cm)); [apply (wf_dims _ W)|apply nth_error_Some; congruence|congruence].
Qed.

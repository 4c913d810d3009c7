(** Lemmas behind ProcProps.v: align_to_coord. *)
From Verif Require Import Base BaseFacts CoordModel CoordSpec CoordProofs CoordProofs2 CoordProofs3
  CoordProofs4 CoordProofs5 NdModel NdSpec NdProofs NdProofs2 FrameModel FrameProofs5 ChunkModel CmModel CmSpec
  CmProofs CmProofs2 CmProofs3 CmProofs4 CmProofs5 CmProofs8 CmProofs10 CmProofs12 CmProofs16 ProcModel ProcSpec ProcProofs ProcProofs2.
From Coq Require Import Strings.String ZifyBool.
Ltac Zify.zify_post_hook ::= Z.div_mod_to_equations.
Local Open Scope Z_scope.
Local Open Scope list_scope.

Lemma aligned_coord_ok r lo hi c' : wf_range r -> 0 < r_step r -> aligned_coord r lo hi = Ok c' ->
  0 <= r_len r + hi - lo /\ okc c' /\ recf (M1 c') = M1 c' /\ c_len c' = r_len r + hi - lo /\
  c_values c' = map Some (progression (r_start r + lo * r_step r) (r_step r) (r_len r + hi - lo)).
Proof.
  intros W P. pose proof W as (_ & Hn & Hstop). destruct (r_span r W P) as [Mn _].
  unfold aligned_coord. rewrite update_limits_min by (auto; discriminate). cbn [bind]. cbv zeta.
  set (r1 := mkRange _ _ _ _ _).
  assert (W1 : wf_range r1) by (unfold r1, wf_range; cbn; lia).
  intros H. destruct (change_length_ok r1 _ c' W1 H) as (N0 & [(N & ->)|(r' & -> & W' & _ & S' & T' & L')]).
  - split; [lia|]. split; [cbn; lia|]. split; [reflexivity|]. split; [cbn; lia|].
    replace (r_len r + hi - lo) with 0 by lia. reflexivity.
  - split; [lia|]. split; [exact W'|]. split; [reflexivity|]. split; [cbn [c_len]; lia|].
    cbn [c_values]. rewrite r_values_prog by exact W'. f_equal. rewrite S', T', L'. unfold r1. cbn [r_start r_step].
    rewrite Mn. f_equal; lia.
Qed.

Lemma map_mul_znth k l i : znth (map (Z.mul k) l) i = option_map (Z.mul k) (znth l i).
Proof. apply znth_map. Qed.

(** The array of shift values holds, at each position, the coordinate's value. *)
Lemma align_values_ok cm dk name m samples vals ds : wf_cm cm -> assoc name (cm_coords cm) = Some m ->
  assoc name (cm_dmap cm) = Some ds -> Forall2 (dim_len cm) ds (m_shape m) ->
  align_values dk m samples = Ok vals ->
  nd_shape vals = m_shape m /\ wf_nd vals /\
  forall pos w, nd_get vals (map pos ds) = Some w <->
    exists v, within cm ds pos /\ coord_value cm name pos v /\ w = shift_unit dk (coord_kind m) samples * v.
Proof.
  intros W E D F H. pose proof (wf_vals _ W _ _ E) as Wm. unfold align_values in H. step H. destruct a as [k a].
  assert (KK : coord_kind m = k) by (destruct m as [[| | |]| |]; cbn in E0; try discriminate; injection E0 as <- <-; reflexivity).
  assert (B : nd_shape a = m_shape m /\ wf_nd a /\ forall pos v, nd_get a (map pos ds) = Some v <-> within cm ds pos /\ coord_value cm name pos v).
  { assert (IB : forall s (x : nd Z) pos v, nd_shape x = s -> m_shape m = s -> nd_get x (map pos ds) = Some v -> within cm ds pos).
    { intros s x pos v S1 S2 G. apply nd_get_inb in G. rewrite S1, <- S2 in G. clear - F G. remember (map pos ds) as ix eqn:Q.
      revert ix G Q. induction F as [|d n ds s (c & Ec & L) F IH]; intros ix G Q d' J; [destruct J|].
      cbn [map] in Q. subst ix. inversion G as [|? ? ? ? G1 G2]; subst. destruct J as [->|J].
      - eexists. split; [exists c; split; [exact Ec|reflexivity]|exact G1].
      - apply (IH _ G2 eq_refl d' J). }
    unfold coord_value. rewrite E. unfold dims_of. rewrite D.
    assert (ONE : forall (c : coord) l, m = M1 c -> c_values c = map Some l -> zlen l = c_len c ->
       forall pos v, nd_get (mkNd [zlen l] l) (map pos ds) = Some v <->
         within cm ds pos /\ match ds with [d] => znth (c_values c) (pos d) = Some (Some v) | _ => False end).
    { intros c l -> V L pos v. cbn [m_shape] in F. inversion F as [|d n ds' s' Hd F']; subst. inversion F'; subst.
      rewrite V, znth_map. split.
      - intros G. split; [eapply IB; [reflexivity| |exact G]; cbn; congruence|].
        unfold nd_get in G. cbn [map nd_shape nd_flat ravel] in G. destruct ((0 <=? pos d) && (pos d <? zlen l)); [|discriminate].
        cbn [size] in G. replace (pos d * size [] + 0) with (pos d) in G by (cbn; lia). rewrite G. reflexivity.
      - intros [WI G]. destruct (znth l (pos d)) as [x|] eqn:X; [|discriminate]. cbn [option_map] in G. injection G as ->.
        unfold nd_get. cbn [map nd_shape nd_flat ravel]. pose proof (znth_some _ _ _ X).
        replace ((0 <=? pos d) && (pos d <? zlen l)) with true by lia. replace (pos d * size [] + 0) with (pos d) by (cbn; lia). exact X. }
    destruct m as [[r|k0 v0|k0 v0|n0]|k0 a0|s0]; cbn [m_array] in E0; try discriminate; injection E0 as <- <-; cbn [coord_value].
    - pose proof (zlen_r_values r Wm) as L.
      split; [reflexivity|]. split.
      { split; cbn [nd_shape nd_flat]; [constructor; [|constructor]|cbn [size]]; destruct Wm as (_ & ? & _); cbn; lia. }
      intros pos v. rewrite <- (ONE (CRange r) (r_values r) eq_refl eq_refl L). rewrite L. reflexivity.
    - split; [reflexivity|]. split.
      { split; cbn; [constructor; [apply zlen_nonneg|constructor]|lia]. }
      intros pos v. apply (ONE (CMono k0 v0) v0 eq_refl eq_refl eq_refl).
    - split; [reflexivity|]. split.
      { split; cbn; [constructor; [apply zlen_nonneg|constructor]|lia]. }
      intros pos v. apply (ONE (CArr k0 v0) v0 eq_refl eq_refl eq_refl).
    - split; [reflexivity|]. split; [apply Wm|]. intros pos v. split; [|tauto]. intros G. split; [|exact G].
      eapply IB; [reflexivity| |exact G]. reflexivity. }
  destruct B as (SA & WA & GA). rewrite KK.
  assert (SAME : vals = a -> shift_unit dk k samples = 1 ->
     nd_shape vals = m_shape m /\ wf_nd vals /\
     forall pos w, nd_get vals (map pos ds) = Some w <->
      exists v, within cm ds pos /\ coord_value cm name pos v /\ w = shift_unit dk k samples * v).
  { intros -> U. rewrite U. split; [exact SA|]. split; [exact WA|]. intros pos w. rewrite GA. split.
    - intros [X Y]. exists w. split; [exact X|]. split; [exact Y|lia].
    - intros (v & X & Y & ->). replace (1 * v) with v by lia. auto. }
  destruct samples.
  - destruct k; [|discriminate]. injection H as <-. apply SAME; reflexivity.
  - destruct dk, k; try discriminate; injection H as <-; try (apply SAME; reflexivity).
    cbn [nd_shape shift_unit]. split; [exact SA|]. split.
    { destruct WA as [A1 A2]. split; cbn [nd_shape nd_flat]; [exact A1|]. rewrite zlen_map. exact A2. }
    intros pos w. unfold nd_get at 1. cbn [nd_shape nd_flat].
    assert (Q : (match ravel (nd_shape a) (map pos ds) with Some i => znth (map (Z.mul 1000000000) (nd_flat a)) i | None => None end)
      = option_map (Z.mul 1000000000) (nd_get a (map pos ds))).
    { unfold nd_get. destruct (ravel _ _); [apply znth_map|reflexivity]. }
    rewrite Q. clear Q. specialize (GA pos). destruct (nd_get a (map pos ds)) as [v|]; cbn [option_map].
    + destruct (proj1 (GA v) eq_refl) as [X Y]. split.
      * intros Z0. exists v. split; [exact X|]. split; [exact Y|]. congruence.
      * intros (v' & X' & Y' & ->). assert (Some v = Some v') as [= ->] by (apply GA; auto). reflexivity.
    + split; [discriminate|]. intros (v' & X' & Y' & ->). assert (None = Some v') by (apply GA; auto). discriminate.
Qed.

Lemma pos_of ds : forall ix, NoDup ds -> List.length ix = List.length ds -> exists pos : string -> Z, map pos ds = ix.
Proof.
  induction ds as [|d ds IH]; intros [|i ix] ND L; try discriminate; [exists (fun _ => 0); reflexivity|].
  inversion ND as [|? ? NI ND']; subst. destruct (IH ix ND' ltac:(cbn in L; lia)) as [pos E].
  exists (at_dim pos d i). cbn [map]. unfold at_dim at 1. rewrite String.eqb_refl. f_equal. rewrite <- E.
  apply map_ext_in. intros x J. unfold at_dim. destruct (String.eqb_spec x d) as [->|]; [contradiction|reflexivity].
Qed.

Lemma nd_flat_in {A} (a : nd A) x : wf_nd a -> (In x (nd_flat a) <-> exists ix, nd_get a ix = Some x).
Proof.
  intros [P L]. split.
  - intros J. apply in_znth in J as [i J]. pose proof (znth_some _ _ _ J) as B. rewrite L in B.
    rewrite <- (zlen_all_ix _ P) in B. destruct (proj2 (znth_range (all_ix (nd_shape a)) i) B) as [ix X].
    apply znth_all_ix in X; [|exact P]. exists ix. unfold nd_get. rewrite X. exact J.
  - intros [ix G]. unfold nd_get in G. destruct (ravel _ _); [|discriminate]. eapply znth_in; eauto.
Qed.

Lemma nd_get_zip (a b : nd Z) (R : Z -> Z -> Prop) : nd_shape b = nd_shape a ->
  (forall i v, znth (nd_flat a) i = Some v -> exists s, znth (nd_flat b) i = Some s /\ R v s) ->
  forall ix v, nd_get a ix = Some v -> exists s, nd_get b ix = Some s /\ R v s.
Proof.
  intros S H ix v. unfold nd_get. rewrite S. destruct (ravel (nd_shape a) ix); [|discriminate]. apply H.
Qed.

Lemma pt_align_ok {A} (p p' : patch A) m samples reverse fill dim name : wf_patch p -> plain_names (p_cm p) ->
  (samples = true \/ forall r, assoc dim (cm_coords (p_cm p)) = Some (M1 (CRange r)) -> r_step r < 20000000000) ->
  pt_align p m samples reverse fill dim name = Ok p' ->
  exists r c' lo hi trunc, In dim (cm_dims (p_cm p)) /\ ~ In dim (dims_of (p_cm p) name) /\ ~ In name (cm_dims (p_cm p)) /\
    assoc dim (cm_coords (p_cm p)) = Some (M1 (CRange r)) /\ 0 < r_step r /\
    aligned p p' m samples reverse trunc fill dim name r c' lo hi /\
    (samples = false -> (trunc = true <-> m = Full /\ far (p_cm p) r name)).
Proof.
  intros WP PN SM. destruct p as [cm a]. unfold pt_align. cbn [p_cm p_data] in *.
  pose proof (wp_cm _ WP) as W. cbn [p_cm] in W.
  destruct (mem dim (cm_dims cm)) eqn:Md; [|discriminate]. cbn [negb]. apply mem_In' in Md.
  destruct (assoc name (cm_coords cm)) as [c|] eqn:Ec; [|discriminate].
  destruct (assoc name (cm_dmap cm)) as [ds|] eqn:Ed; [|discriminate].
  destruct (mem name (cm_dims cm)) eqn:Mn; [discriminate|]. destruct (mem dim ds) eqn:Mi; [discriminate|].
  apply mem_false in Mn. apply mem_false in Mi.
  destruct (assoc dim (cm_coords cm)) as [[[r| | |]| |]|] eqn:Er; try discriminate.
  assert (SM' : samples = true \/ r_step r < 20000000000) by (destruct SM as [|SM]; [auto|right; apply SM; reflexivity]).
  clear SM. pose proof (wf_vals _ W _ _ Er) as Wr. cbn [wf_mcoord wf_coord] in Wr.
  intros H. step H. rename a0 into vals, E into EV. step H. rename a0 into ax, E into EX. step H. rename a0 into axs, E into EXS.
  step H. rename a0 into inds, E into EI.
  destruct (list_min (nd_flat inds)) as [mn|] eqn:Emn; [|discriminate].
  destruct (list_max (nd_flat inds)) as [mx|] eqn:Emx; [|discriminate].
  destruct (mode_shifts m mn mx) as [lo hi] eqn:EM.
  step H. rename a0 into data, E into EA. step H. rename a0 into c', E into EC. step H. rename a0 into cm', E into EU.
  (* dimensions of the shift coordinate *)
  destruct (con_coord _ (wf_con _ W) name ds Ed) as (c0 & Ec0 & SUB & SHP). rewrite Ec in Ec0. injection Ec0 as <-.
  destruct (axes_of_in cm ds SUB) as (axs' & EXS' & FX). rewrite EXS in EXS'. injection EXS' as <-.
  pose proof (axis_of_some _ _ _ EX) as NX.
  pose proof (axis_shape (mkPatch cm a) dim (CRange r) ax WP Er NX) as Sax. cbn [p_data p_cm c_len] in Sax.
  assert (SHV : nd_shape vals = m_shape c).
  { unfold align_values in EV. step EV. destruct a0 as [k a0]. 
    assert (nd_shape a0 = m_shape c) as <-.
    { pose proof (wf_vals _ W _ _ Ec) as Wc. destruct c as [[rr| | |]| |]; cbn in E; try discriminate; injection E as _ <-; cbn; auto. }
    destruct samples, (r_kind r), k; try discriminate; injection EV as <-; reflexivity. }
  assert (SHI : nd_shape inds = nd_shape vals).
  { unfold shift_indices in EI. match type of EI with (match ?x with _ => _ end = _) => destruct x as [l|[]]; try discriminate end.
    injection EI as <-. reflexivity. }
  assert (RANK : List.length (nd_shape inds) = List.length axs).
  { unfold apply_shifts in EA. cbv zeta in EA. destruct (_ <? 0) in EA; [discriminate|]. destruct (nd_build _ _) in EA; [|discriminate].
    destruct (Nat.eqb (List.length (nd_shape inds)) (List.length axs)) eqn:Q; [apply Nat.eqb_eq; exact Q|discriminate]. }
  assert (F : Forall2 (dim_len cm) ds (m_shape c)).
  { destruct SHP as [->|F]; [|exact F]. inversion FX; subst axs. rewrite SHI, SHV in RANK.
    destruct (m_shape c); [constructor|discriminate]. }
  destruct (align_values_ok cm (r_kind r) name c samples vals ds W Ec Ed F EV) as (_ & WV & GV).
  destruct (shift_indices_ok r vals reverse samples m inds Wr SM' (proj2 WV) EI) as (P & _ & LI & GI & BI).
  destruct (aligned_coord_ok r lo hi c' Wr P EC) as (S0 & KC & RC & LC & VC).
  set (trunc := truncating r m (nd_flat vals)) in *.
  assert (WI : wf_nd inds) by (split; [rewrite SHI; apply WV|rewrite LI, SHI; apply WV]).
  pose proof (list_min_least _ _ Emn) as [InMn LMn]. pose proof (list_max_greatest _ _ Emx) as [InMx LMx].
  assert (GM : forall pos s, within cm ds pos -> nd_get inds (map pos ds) = Some s -> moved cm r name samples reverse trunc pos s).
  { intros pos s WI' G. assert (IB : inb (nd_shape vals) (map pos ds)) by (rewrite SHV; eapply within_inb; eauto).
    destruct (nd_get_total vals _ WV IB) as [w Gw]. destruct (nd_get_zip vals inds _ SHI GI _ _ Gw) as (s' & Gs & T).
    rewrite G in Gs. injection Gs as <-. apply GV in Gw. destruct Gw as (v & _ & V & ->).
    exists c, v. auto. }
  assert (SS : forall s, In s (nd_flat inds) -> exists pos, within cm ds pos /\ moved cm r name samples reverse trunc pos s).
  { intros s J. apply (nd_flat_in inds s WI) in J. destruct J as [ix G]. pose proof (nd_get_inb _ _ _ G) as IB.
    destruct (pos_of ds ix (wf_distinct _ W _ _ Ed)) as [pos Q].
    { rewrite (inb_length _ _ IB), SHI, SHV. symmetry. apply (Forall2_length _ _ _ F). }
    subst ix. rewrite SHI in IB. destruct (nd_get_total vals _ WV IB) as [w Gw]. destruct (proj1 (GV pos w) Gw) as (_ & WI' & _).
    exists pos. split; [exact WI'|]. apply GM; assumption. }
  assert (SI : forall s pos, within cm ds pos -> moved cm r name samples reverse trunc pos s -> In s (nd_flat inds)).
  { intros s pos WI' (m0 & v & E0 & V & T). rewrite Ec in E0. injection E0 as <-.
    assert (G : nd_get vals (map pos ds) = Some (shift_unit (r_kind r) (coord_kind c) samples * v)) by (apply GV; eauto).
    destruct (nd_get_zip vals inds _ SHI GI _ _ G) as (s' & Gs & T').
    assert (s' = s) as ->; [|apply nd_flat_in; eauto].
    destruct T as (x & -> & X0 & X), T' as (y & -> & Y0 & Y). f_equal. destruct samples; [congruence|]. destruct trunc; nia. }
  assert (HB : forall s, In s (nd_flat inds) -> s <= r_len r + hi).
  { pose proof Wr as (_ & Hn & _). intros s J. specialize (LMx s J). destruct m; cbn [mode_shifts] in EM; injection EM as <- <-; [lia| |].
    - assert (BB : Same <> Full) by discriminate. specialize (BI BB). rewrite Forall_forall in BI. specialize (BI s J). lia.
    - destruct (Z.ltb_spec 0 mx); lia. }
  assert (GA : gather_nat (nd_shape a) axs = Some (nd_shape inds)).
  { rewrite SHI, SHV. pose proof (wp_shape _ WP) as SP. cbn [p_cm p_data] in SP. clear - FX F SP.
    assert (LK : forall d n ax, nth_error (cm_dims cm) ax = Some d -> dim_len cm d n -> nth_error (nd_shape a) ax = Some n).
    { clear - SP. intros d n ax H (c & Ec & L). revert ax H. induction SP as [|d' n' ds' s' (c1 & E1 & L1) SP IH]; intros [|ax] H; try discriminate; cbn in *.
      - injection H as ->. congruence.
      - apply IH; exact H. }
    revert axs FX. induction F as [|d n ds s H F IH]; intros axs FX; inversion FX; subst; [reflexivity|].
    cbn [gather_nat]. rewrite (LK _ _ _ H2 H). rewrite (IH _ H4). reflexivity. }
  assert (NA : ~ In ax axs).
  { intros J. clear - J NX FX Mi. induction FX as [|d x ds axs H F IH]; [destruct J|]. destruct J as [->|J].
    - rewrite NX in H. injection H as ->. apply Mi. left; reflexivity.
    - apply IH; [intros X; apply Mi; right; exact X|exact J]. }
  destruct (apply_shifts_ok a inds ax axs (r_len r) lo hi fill (wp_nd _ WP) WI Sax GA NA S0 HB) as (b & EB & WB & SB & GB).
  rewrite EA in EB. injection EB as ->.
  destruct (resize_patch (mkPatch cm a) dim (CRange r) c' ax b WP PN NX Er KC RC WB) as (cm2 & EU2 & NP & RF).
  { cbn [p_data]. rewrite SB, LC. reflexivity. }
  cbn [p_cm] in EU2. rewrite EU in EU2. injection EU2 as <-. rewrite NP in H. injection H as <-.
  exists r, c', lo, hi, trunc.
  split; [exact Md|]. assert (DS : dims_of cm name = ds) by (unfold dims_of; rewrite Ed; reflexivity).
  rewrite DS. split; [exact Mi|]. split; [exact Mn|]. split; [reflexivity|]. split; [exact P|]. split.
  - split; [exact RF|exact S0|exact VC| |]; cbn [p_cm p_data]; rewrite ?DS.
    + assert (A1 : forall s, (exists pos, within cm ds pos /\ moved cm r name samples reverse trunc pos s) <-> In s (nd_flat inds)).
      { intros s. split; [intros (pos & X & Y); eapply SI; eauto|apply SS]. }
      destruct m; cbn [mode_shifts mode_span] in *; injection EM as <- <-.
      * rewrite !A1. repeat split; try assumption; intros s J; apply A1 in J; auto.
      * auto.
      * split.
        -- split; [destruct (Z.ltb_spec 0 mx); lia|]. split.
           ++ destruct (Z.ltb_spec 0 mx); [right; apply A1; exact InMx|left; reflexivity].
           ++ intros s J. apply A1 in J. specialize (LMx s J). destruct (Z.ltb_spec 0 mx); lia.
        -- split; [destruct (Z.ltb_spec mn 0); lia|]. split.
           ++ destruct (Z.ltb_spec mn 0); [right; apply A1; exact InMn|left; reflexivity].
           ++ intros s J. apply A1 in J. specialize (LMn s J). destruct (Z.ltb_spec mn 0); lia.
    + intros pos IP. pose proof (rf_dims _ _ _ _ _ RF) as DD. pose proof (rf_wf _ _ _ _ _ RF) as WF. cbn [p_cm] in DD.
      assert (IB : inb (nd_shape b) (map pos (cm_dims cm))).
      { unfold in_patch in IP. cbn [p_cm] in IP. rewrite DD in IP. pose proof (wp_shape _ WF) as FS. cbn [p_cm p_data] in FS. rewrite DD in FS.
        eapply within_inb; eauto. }
      assert (Ej : nth_error (map pos (cm_dims cm)) ax = Some (pos dim)) by (rewrite nth_error_map, NX; reflexivity).
      assert (EQ : gather_nat (map pos (cm_dims cm)) axs = Some (map pos ds)) by (apply (axes_gather _ pos (cm_dims cm)); auto).
      destruct (GB _ _ _ IB Ej EQ) as (s & Gs & G). exists s. split.
      * apply GM; [|exact Gs]. assert (IV : inb (nd_shape vals) (map pos ds)) by (rewrite <- SHI; eapply nd_get_inb; eauto).
        destruct (nd_get_total vals _ WV IV) as [w Gw]. destruct (proj1 (GV pos w) Gw) as (_ & WI' & _). exact WI'.
      * unfold data_at. cbn [p_cm p_data]. rewrite DD. cbv zeta. rewrite G.
        rewrite <- (at_dim_put (mkPatch cm a) pos dim ax) by (cbn [p_cm]; auto; apply (wf_dims _ W)). reflexivity.
  - intros ->. unfold trunc, truncating. split.
    + destruct m; try discriminate. intros X. split; [reflexivity|]. apply existsb_exists in X as (w & J & B).
      apply (nd_flat_in vals w WV) in J. destruct J as [ix G]. pose proof (nd_get_inb _ _ _ G) as IB.
      destruct (pos_of ds ix (wf_distinct _ W _ _ Ed)) as [pos Q].
      { rewrite (inb_length _ _ IB), SHV. symmetry. apply (Forall2_length _ _ _ F). }
      subst ix. apply GV in G. destruct G as (v & WI' & V & ->). exists c, pos, v. rewrite DS. repeat split; auto. lia.
    + intros [-> (c1 & pos & v & E1 & WI' & V & B)]. rewrite Ec in E1. injection E1 as <-. rewrite DS in WI'.
      apply existsb_exists. exists (shift_unit (r_kind r) (coord_kind c) false * v). split; [|lia].
      apply (nd_flat_in vals _ WV). exists (map pos ds). apply GV. eauto.
Qed.

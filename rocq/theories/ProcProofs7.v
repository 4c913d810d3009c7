(** Lemmas behind ProcProps.v: consequences for pad and rolling. *)
From Verif Require Import Base BaseFacts CoordModel CoordSpec CoordProofs CoordProofs2 CoordProofs3
  CoordProofs4 CoordProofs5 NdModel NdSpec NdProofs NdProofs2 NdProofs3 FrameModel FrameProofs5 ChunkModel ChunkProofs4 CmModel CmSpec
  CmProofs CmProofs2 CmProofs3 CmProofs4 CmProofs5 CmProofs8 CmProofs10 CmProofs12 CmProofs16 ProcModel ProcSpec ProcProofs ProcProofs2 ProcProofs3 ProcProofs4 ProcProofs5 ProcProofs6.
From Coq Require Import Strings.String ZifyBool.
Ltac Zify.zify_post_hook ::= Z.div_mod_to_equations.
Local Open Scope Z_scope.
Local Open Scope list_scope.

Lemma data_at_same {A} (p : patch A) f g : (forall d, f d = g d) -> data_at p f = data_at p g.
Proof. intros H. unfold data_at. f_equal. apply map_ext. exact H. Qed.

(** Every original sample is still there, under its own coordinate value. *)
Lemma padded_keeps {A} (p p' : patch A) fill w pos : wf_patch p -> padded p p' fill w -> in_patch p pos ->
  (forall d a b, w d = Some (a, b) -> 0 <= a /\ 0 <= b) ->
  in_patch p' (pad_pos w pos) /\ data_at p' (pad_pos w pos) = data_at p pos /\
  forall d a b, w d = Some (a, b) -> In d (cm_dims (p_cm p)) -> exists r r', assoc d (cm_coords (p_cm p)) = Some (M1 (CRange r)) /\
    assoc d (cm_coords (p_cm p')) = Some (M1 (CRange r')) /\ znth (r_values r') (pad_pos w pos d) = znth (r_values r) (pos d).
Proof.
  intros WP PD IP NN. pose proof (wp_cm _ WP) as W.
  assert (IP' : in_patch p' (pad_pos w pos)).
  { intros d J. rewrite (pd_dims _ _ _ _ PD) in J. destruct (IP d J) as (n & L & B). unfold pad_pos.
    destruct (w d) as [[a b]|] eqn:Wd.
    - destruct (pd_coords _ _ _ _ PD d a b Wd) as (r & r' & C & C' & _ & _ & _ & _ & RL). destruct L as (c & Ec & <-).
      rewrite C in Ec. injection Ec as <-. cbn [c_len] in B. destruct (NN d a b Wd).
      exists (r_len r'). split; [exists (CRange r'); auto|lia].
    - exists n. split; [|exact B]. destruct L as (c & Ec & <-). pose proof (pd_others _ _ _ _ PD d _ Wd Ec) as H.
      destruct (assoc d (cm_coords (p_cm p'))) as [m'|] eqn:E'.
      + destruct H as [CA _]. destruct CA as (c1 & ps & -> & Q & CA). injection Q as <-.
        exists c1. split; [exact E'|].
        pose proof (wf_vals _ (wp_cm _ (pd_wf _ _ _ _ PD)) _ _ E') as V'. cbn [wf_mcoord] in V'.
        pose proof (wf_vals _ W _ _ Ec) as V. cbn [wf_mcoord] in V.
        assert (CC : carried (M1 c) (M1 c1) [zrange (c_len c)]) by (exists c1, (zrange (c_len c)); auto).
        pose proof (carried_shape (M1 c) (M1 c1) _ (wf_okc _ V') CC) as SH. cbn in SH. rewrite zlen_zrange in SH.
        pose proof (c_len_nonneg c V). assert (c_len c1 = Z.max 0 (c_len c)) by congruence. lia.
      + destruct H as (d' & a & b & J' & Wd' & _). destruct (wf_dim_coord _ d W J) as (c0 & _ & _ & D0).
        unfold dims_of in J'. rewrite D0 in J'. destruct J' as [<-|[]]. congruence. }
  assert (UP : forall d, unpad w (pad_pos w pos) d = pos d).
  { intros d. unfold unpad, pad_pos. destruct (w d) as [[a b]|]; lia. }
  split; [exact IP'|]. split.
  - destruct (pd_data _ _ _ _ PD _ IP') as [H _]. rewrite H.
    + apply data_at_same. exact UP.
    + intros d J. rewrite UP. apply IP. exact J.
  - intros d a b Wd J. destruct (pd_coords _ _ _ _ PD d a b Wd) as (r & r' & C & C' & WR' & _ & RS & RA & RL). exists r, r'. split; [exact C|]. split; [exact C'|].
    pose proof (wf_vals _ W _ _ C) as WR. cbn in WR. destruct (IP d J) as (n & (c & Ec & <-) & B). rewrite C in Ec. injection Ec as <-. cbn [c_len] in B.
    destruct (NN d a b Wd). unfold pad_pos. rewrite Wd. rewrite !r_values_prog by assumption. rewrite !znth_progression by lia.
    f_equal. rewrite RA, RS. ring.
Qed.

Lemma fold_err {A} (fill : A) info e : fold_left (fun acc x => do a <- acc; let '(_, ax, w0, _) := x in nd_pad a ax (fst w0) (snd w0) fill)
  (info : list (string * nat * (Z * Z) * coord)) (Err e) = Err e.
Proof. induction info as [|x t IH]; [reflexivity|]. cbn [fold_left bind]. exact IH. Qed.

(** Negative widths never work. *)
Lemma pad_negative {A} (p : patch A) fast fill expand kw d a b : In (d, PadPair a b) kw -> a < 0 \/ b < 0 ->
  forall p', pt_pad fast p fill expand true kw <> Ok p'.
Proof.
  intros J N p'. unfold pt_pad. destruct (filter _ kw); [discriminate|]. destruct (negb _); [discriminate|].
  intros H. apply bind_ok in H as (info & EI & H). apply bind_ok in H as (dat & EF & _).
  apply map_result_Forall2 in EI.
  assert (exists ax c', In (d, ax, (a, b), c') info) as (ax & c' & JI).
  { clear - EI J. induction EI as [|e i l l' E F IH]; [destruct J|]. destruct J as [->|J].
    - cbn [fst snd] in E. apply bind_ok in E as (ax & _ & E). destruct (assoc d (cm_coords (p_cm p))) as [[c| |]|]; try discriminate.
      cbn [negb andb] in E. apply bind_ok in E as (w & PT & E). apply bind_ok in E as (c' & _ & E).
      cbn [pad_tuple] in PT. assert (w = (a, b)) as -> by congruence. exists ax, c'. left. congruence.
    - destruct (IH J) as (ax & c' & ?). exists ax, c'. right. assumption. }
  clear EI. revert EF. generalize (p_data p). induction info as [|[[[d1 ax1] w1] c1] t IH]; [destruct JI|]. intros z.
  cbn [fold_left bind]. destruct JI as [Q|JI].
  - injection Q as -> -> -> ->. cbn [fst snd]. assert (E : nd_pad z ax a b fill = Err ValueError).
    { unfold nd_pad. replace ((a <? 0) || (b <? 0)) with true by lia. reflexivity. }
    rewrite E, fold_err. discriminate.
  - destruct (nd_pad z ax1 (fst w1) (snd w1) fill) as [z'|e]; [apply IH; exact JI|]. rewrite fold_err. discriminate.
Qed.

Lemma pad_unknown {A} (p : patch A) fast fill expand samples kw d v : In (d, v) kw -> ~ In d (cm_dims (p_cm p)) ->
  (exists e, In e kw /\ In (fst e) (cm_dims (p_cm p))) ->
  pt_pad fast p fill expand samples kw = Err PatchCoordinateError.
Proof.
  intros J N (e & Je & Ie). unfold pt_pad. destruct (filter _ kw) as [|x t] eqn:F.
  { assert (In e []) as []. rewrite <- F. apply filter_In. split; [exact Je|]. apply mem_In'. exact Ie. }
  assert (forallb (fun e => mem (fst e) (cm_dims (p_cm p))) kw = false) as ->; [|reflexivity].
  destruct (forallb _ kw) eqn:B; [|reflexivity]. rewrite forallb_forall in B. specialize (B _ J). apply mem_In' in B. contradiction.
Qed.

(** ** Rolling *)
Lemma offsets_agree center w st : center = false \/ st = 1 -> label_offset ENumpy center w st = label_offset EPandas center w st.
Proof.
  intros [->| ->]; [reflexivity|]. destruct center; [|reflexivity]. unfold label_offset. rewrite Z.div_1_r.
  replace (w - 2 + 1) with (w - 1) by lia. lia.
Qed.

Lemma rolled_unique {A} (p p1 p2 : patch A) dim r w st off f nan c1 c2 pos :
  rolled p p1 dim r w st off f nan c1 -> rolled p p2 dim r w st off f nan c2 -> in_patch p1 pos -> in_patch p2 pos ->
  data_at p1 pos = data_at p2 pos.
Proof.
  intros [_ _ D1] [_ _ D2] I1 I2. specialize (D1 pos I1). specialize (D2 pos I2). cbv zeta in D1, D2.
  set (last := pos dim * st + off) in *.
  destruct (Z_lt_dec last (w - 1)) as [L|L]; [|destruct (Z_lt_dec last (r_len r)) as [U|U]].
  - rewrite (proj2 D1), (proj2 D2) by lia. reflexivity.
  - destruct (proj1 D1) as (v1 & L1 & V1 & ->); [lia|]. destruct (proj1 D2) as (v2 & L2 & V2 & ->); [lia|].
    do 2 f_equal. apply znth_ext. intros i. destruct (Z_lt_dec i 0) as [N|N]; [|destruct (Z_lt_dec i w) as [M|M]].
    + rewrite !(proj2 (znth_none _ _)) by lia. reflexivity.
    + destruct (V1 i ltac:(lia)) as [-> _]. destruct (V2 i ltac:(lia)) as [-> _]. reflexivity.
    + rewrite !(proj2 (znth_none _ _)) by lia. reflexivity.
  - rewrite (proj2 D1), (proj2 D2) by lia. reflexivity.
Qed.

(** Both engines give the same samples. *)
Lemma engines_agree {A} (p : patch A) dim r win overlap step center samples (f : list A -> A) nan w st :
  wf_patch p -> plain_names (p_cm p) -> In dim (cm_dims (p_cm p)) -> assoc dim (cm_coords (p_cm p)) = Some (M1 (CRange r)) ->
  samples = true \/ 0 < r_step r -> asks r samples win overlap step w st -> 1 <= w -> 1 <= st ->
  roller_fits p EPandas ((r_len r + st - 1) / st) -> center = false \/ st = 1 ->
  exists p1 p2, pt_rolling p dim win overlap step center samples (Some ENumpy) f nan = Ok p1 /\
    pt_rolling p dim win overlap step center samples (Some EPandas) f nan = Ok p2 /\
    p_cm p1 = p_cm p2 /\ p_data p1 = p_data p2.
Proof.
  intros WP PN I E SS ASK W1 S1 FIT CE.
  destruct (pt_rolling_ok p dim r win overlap step center samples (Some ENumpy) f nan w st WP PN I E SS ASK W1 S1 Logic.I) as (p1 & c1 & E1 & R1).
  destruct (pt_rolling_ok p dim r win overlap step center samples (Some EPandas) f nan w st WP PN I E SS ASK W1 S1 FIT) as (p2 & c2 & E2 & R2).
  cbn [get_engine] in *. exists p1, p2. split; [exact E1|]. split; [exact E2|].
  assert (CM : p_cm p1 = p_cm p2).
  { revert E1 E2. unfold pt_rolling. destruct (index_of dim (cm_dims (p_cm p))) as [ax|]; [|discriminate]. rewrite E.
    destruct (window_step r samples win overlap step) as [ws|]; [|discriminate]. cbn [bind]. destruct (_ || _); [discriminate|].
    set (st' := match snd ws with Some s => s | None => 1 end). cbn [get_engine].
    intros H1 H2. apply bind_ok in H1 as (w1 & _ & H1). apply bind_ok in H2 as (w2 & _ & H2).
    destruct (nd_windows _ _ _ w1 _ _) as [a1|]; [|discriminate]. destruct (nd_windows _ _ _ w2 _ _) as [a2|]; [|discriminate].
    apply bind_ok in H1 as (m1 & M1 & H1). apply bind_ok in H2 as (m2 & M2 & H2). injection H1 as <-. injection H2 as <-. cbn [p_cm]. congruence. }
  split; [exact CM|].
  pose proof (rf_wf _ _ _ _ _ (ro_refit _ _ _ _ _ _ _ _ _ _ R1)) as WP1. pose proof (rf_wf _ _ _ _ _ (ro_refit _ _ _ _ _ _ _ _ _ _ R2)) as WP2.
  assert (SH : nd_shape (p_data p1) = nd_shape (p_data p2)).
  { pose proof (wp_shape _ WP1) as F1. pose proof (wp_shape _ WP2) as F2. rewrite <- CM in F2. clear - F1 F2. revert F2.
    generalize (nd_shape (p_data p2)). induction F1 as [|d n l l' (c & Ec & L) F1 IH]; intros s F2; inversion F2 as [|? ? ? ? (c' & Ec' & L') F2']; subst; [reflexivity|].
    f_equal; [congruence|apply IH; exact F2']. }
  apply nd_ext; [apply (wp_nd _ WP1)|apply (wp_nd _ WP2)|exact SH|]. intros ix IB.
  set (ds := cm_dims (p_cm p1)).
  assert (ND : NoDup ds) by (apply (wf_dims _ (wp_cm _ WP1))).
  assert (LX : List.length ds = List.length ix).
  { unfold ds. rewrite (Forall2_length _ _ _ (wp_shape _ WP1)). symmetry. apply (inb_length _ _ IB). }
  set (pos := fun d => match index_of d ds with Some i => nth i ix 0 | None => 0 end).
  assert (MP : map pos ds = ix).
  { apply list_ext. intros i. rewrite nth_error_map. destruct (nth_error ds i) as [d|] eqn:N.
    - cbn [option_map]. unfold pos. assert (I0 : In d ds) by (eapply nth_error_In; eauto).
      destruct (index_of_some d ds I0) as (j & -> & NJ). assert (j = i).
      { apply (proj1 (NoDup_nth_error ds) ND); [apply nth_error_Some; congruence|congruence]. } subst j.
      symmetry. apply nth_error_nth'. rewrite <- LX. apply nth_error_Some. congruence.
    - apply nth_error_None in N. symmetry. apply nth_error_None. lia. }
  assert (IP1 : in_patch p1 pos).
  { intros d J. fold ds in J. apply In_nth_error in J. destruct J as [i Ni].
    pose proof (wp_shape _ WP1) as F1. fold ds in F1.
    assert (exists n, nth_error (nd_shape (p_data p1)) i = Some n /\ dim_len (p_cm p1) d n) as (n & Nn & DL).
    { revert i Ni. clear - F1. induction F1 as [|d0 n0 l l' H F1 IH]; intros [|i] Ni; try discriminate.
      - injection Ni as ->. cbn. eauto.
      - apply IH. exact Ni. }
    exists n. split; [exact DL|]. pose proof (proj1 (inb_nth _ _) IB) as [_ Q]. apply (Q i n (pos d) Nn).
    rewrite <- MP, nth_error_map, Ni. reflexivity. }
  assert (IP2 : in_patch p2 pos) by (unfold in_patch; rewrite <- CM; exact IP1).
  rewrite <- (offsets_agree center w st CE) in R2.
  pose proof (rolled_unique p p1 p2 _ _ _ _ _ _ _ _ _ pos R1 R2 IP1 IP2) as Q. unfold data_at in Q. rewrite <- CM in Q. fold ds in Q.
  rewrite MP in Q. exact Q.
Qed.

(** Requests that are refused. *)
Lemma rolling_refuses {A} (p : patch A) dim r win overlap step center samples e (f : list A -> A) nan :
  In dim (cm_dims (p_cm p)) -> assoc dim (cm_coords (p_cm p)) = Some (M1 (CRange r)) ->
  (overlap <> None /\ step <> None) \/
  (samples = true /\ (r_len r < win \/ win = 0 \/
     (exists s, step = Some s /\ (s <= 0 \/ r_len r < s)) \/ (exists o, overlap = Some o /\ (o < 0 \/ win <= o \/ r_len r < o)))) ->
  pt_rolling p dim win overlap step center samples e f nan = Err ParameterError.
Proof.
  intros I E H. destruct (index_of_some dim _ I) as (ax & IX & NX). unfold pt_rolling. rewrite IX, E. unfold window_step.
  destruct H as [[H1 H2]|[-> H]].
  - destruct overlap, step; try contradiction. reflexivity.
  - destruct overlap as [o|], step as [s|]; [reflexivity|..]; unfold count_of, sample_count_samples; cbn [andb];
      (destruct (Z.ltb_spec (r_len r) win); [reflexivity|]); cbn [bind].
    + destruct (Z.ltb_spec o 0); [reflexivity|]. destruct (Z.ltb_spec (r_len r) o); [reflexivity|]. cbn [bind].
      destruct (Z.leb_spec (win - o) 0); [reflexivity|]. cbn [bind fst snd].
      destruct H as [H|[H|[(s & Q & _)|(o' & Q & H)]]]; [lia| |discriminate|injection Q as <-; lia].
      replace (win =? 0) with true by lia. reflexivity.
    + destruct (Z.ltb_spec s 0); [reflexivity|]. destruct (Z.ltb_spec (r_len r) s); [reflexivity|]. cbn [bind].
      destruct (Z.leb_spec s 0); [reflexivity|]. cbn [bind fst snd].
      destruct H as [H|[H|[(s' & Q & H)|(o' & Q & H)]]]; [lia| |injection Q as <-; lia|discriminate].
      replace (win =? 0) with true by lia. reflexivity.
    + destruct H as [H|[H|[(s' & Q & H)|(o' & Q & H)]]]; try discriminate; [lia|]. cbn [bind fst snd].
      replace (win =? 0) with true by lia. reflexivity.
Qed.

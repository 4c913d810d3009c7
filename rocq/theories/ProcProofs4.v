(** Lemmas behind ProcProps.v: consequences of the alignment facts. *)
From Verif Require Import Base BaseFacts CoordModel CoordSpec CoordProofs CoordProofs2 CoordProofs3
  CoordProofs4 CoordProofs5 NdModel NdSpec NdProofs NdProofs2 FrameModel FrameProofs5 ChunkModel CmModel CmSpec
  CmProofs CmProofs2 CmProofs3 CmProofs4 CmProofs5 CmProofs8 CmProofs10 CmProofs12 CmProofs16 ProcModel ProcSpec ProcProofs ProcProofs2 ProcProofs3.
From Coq Require Import Strings.String ZifyBool.
Ltac Zify.zify_post_hook ::= Z.div_mod_to_equations.
Local Open Scope Z_scope.
Local Open Scope list_scope.

Lemma change_length_form r n c : change_length r n = Ok c -> (exists r', c = CRange r') \/ (exists k, c = CPart k).
Proof.
  unfold change_length. destruct (n <? 0); [discriminate|]. destruct (r_len r =? n); [intros [= <-]; eauto|].
  destruct (n =? 0); [intros [= <-]; eauto|]. cbv zeta.
  destruct (_ =? n); [|discriminate]. intros [= <-]. destruct (all_close _ _ _); [eauto|].
  unfold r_new. destruct (mk_range _ _ _ _); eauto.
Qed.
Lemma get_coord_data_form k v c : get_coord_data k v = Ok c ->
  (exists r', c = CRange r') \/ (exists k, c = CPart k) \/ c = CMono k v \/ c = CArr k v.
Proof.
  unfold get_coord_data. destruct v as [|x [|y v]]; [intros [= <-]; eauto|intros [= <-]; auto|]. cbv zeta.
  destruct (is_monotonic _); [|intros [= <-]; auto]. destruct (_ || _); [|intros [= <-]; auto].
  intros H. step H. apply change_length_form in H. tauto.
Qed.
Lemma recoord_settled m m' : recoord m = Ok m' -> settled m'.
Proof.
  unfold settled. destruct m as [[r|k v|k v|n]|k a|s]; cbn [recoord].
  - intros [= <-]. reflexivity.
  - intros H. step H. injection H as <-. destruct (get_coord_data_form _ _ _ E) as [(r & ->)|[(n & ->)|[->| ->]]]; try reflexivity;
      cbn [recoord]; rewrite E; reflexivity.
  - intros H. step H. injection H as <-. destruct (get_coord_data_form _ _ _ E) as [(r & ->)|[(n & ->)|[->| ->]]]; try reflexivity;
      cbn [recoord]; rewrite E; reflexivity.
  - intros [= <-]. reflexivity.
  - intros [= <-]. unfold get_coord_nd. destruct (size (nd_shape a) =? 0) eqn:Z; [reflexivity|]. cbn [recoord]. unfold get_coord_nd. rewrite Z. reflexivity.
  - intros [= <-]. reflexivity.
Qed.

(** ** Positions under [refit] *)
Lemma refit_len {A} (p p' : patch A) dim c c' d n : wf_patch p -> refit p p' dim c c' ->
  In d (cm_dims (p_cm p)) -> d <> dim -> (dim_len (p_cm p') d n <-> dim_len (p_cm p) d n).
Proof.
  intros WP RF J N. pose proof (wp_cm _ WP) as W. destruct (wf_dim_coord _ d W J) as (c0 & E0 & _ & D0).
  pose proof (rf_coords _ _ _ _ _ RF d _ N E0) as C.
  destruct (assoc d (cm_coords (p_cm p'))) as [m'|] eqn:E1.
  - destruct C as [C _]. pose proof (wf_vals _ (wp_cm _ (rf_wf _ _ _ _ _ RF)) _ _ E1) as W1.
    pose proof (carried_shape _ _ _ (wf_okm _ W1) C) as SH. destruct C as (c2 & ps & -> & FS & _). cbn [m_shape full map] in SH, FS.
    injection FS as <-. assert (L : c_len c2 = c_len c0).
    { injection SH as SH. rewrite SH, zlen_zrange. pose proof (c_len_nonneg c0 (wf_vals _ W _ _ E0)). lia. }
    unfold dim_len. rewrite E0, E1. split; intros (x & [= <-] & <-); eexists; (split; [reflexivity|]); congruence.
  - destruct C as [C _]. unfold dims_of in C. rewrite D0 in C. destruct C as [->|[]]. contradiction.
Qed.
Lemma refit_within {A} (p p' : patch A) dim c c' ds pos : wf_patch p -> refit p p' dim c c' ->
  (forall d, In d ds -> In d (cm_dims (p_cm p)) /\ d <> dim) -> (within (p_cm p') ds pos <-> within (p_cm p) ds pos).
Proof.
  intros WP RF H. unfold within. split; intros G d J; destruct (G d J) as (n & L & B); exists n; (split; [|exact B]);
    destruct (H d J); apply (refit_len p p' dim c c' d n); auto.
Qed.
(** A position of [p] with another index along [dim]. *)
Lemma refit_at {A} (p p' : patch A) dim c c' pos j : wf_patch p -> refit p p' dim c c' -> in_patch p pos ->
  0 <= j < c_len c' -> in_patch p' (at_dim pos dim j).
Proof.
  intros WP RF IP B d J. rewrite (rf_dims _ _ _ _ _ RF) in J. unfold at_dim. destruct (String.eqb_spec d dim) as [->|N].
  - exists (c_len c'). split; [exists c'; split; [apply (rf_dim _ _ _ _ _ RF)|reflexivity]|exact B].
  - destruct (IP d J) as (n & L & B'). exists n. split; [|exact B']. apply (refit_len p p' dim c c' d n); auto.
Qed.
Lemma refit_back {A} (p p' : patch A) dim c c' pos j : wf_patch p -> refit p p' dim c c' -> in_patch p' pos ->
  assoc dim (cm_coords (p_cm p)) = Some (M1 c) ->
  0 <= j < c_len c -> in_patch p (at_dim pos dim j).
Proof.
  intros WP RF IP E B d J. unfold at_dim. destruct (String.eqb_spec d dim) as [->|N].
  - exists (c_len c). split; [exists c; split; [exact E|reflexivity]|exact B].
  - destruct (IP d) as (n & L & B'). { rewrite (rf_dims _ _ _ _ _ RF); exact J. }
    exists n. split; [|exact B']. apply (refit_len p p' dim c c' d n); auto.
Qed.

Lemma coord_value_at cm name pos dim j v : ~ In dim (dims_of cm name) ->
  (coord_value cm name (at_dim pos dim j) v <-> coord_value cm name pos v).
Proof.
  intros N. unfold coord_value. destruct (assoc name (cm_coords cm)) as [[c|k a|s]|]; try tauto.
  - destruct (dims_of cm name) as [|d [|]]; try tauto. unfold at_dim. destruct (String.eqb_spec d dim) as [->|]; [|tauto].
    exfalso; apply N; left; reflexivity.
  - assert (map (at_dim pos dim j) (dims_of cm name) = map pos (dims_of cm name)) as ->; [|tauto].
    apply map_ext_in. intros d J. unfold at_dim. destruct (String.eqb_spec d dim) as [->|]; [contradiction|reflexivity].
Qed.
Lemma moved_at cm r name samples reverse trunc pos dim j s : ~ In dim (dims_of cm name) ->
  (moved cm r name samples reverse trunc (at_dim pos dim j) s <-> moved cm r name samples reverse trunc pos s).
Proof.
  intros N. unfold moved. split; intros (m & v & E & V & T); exists m, v; (split; [exact E|split; [|exact T]]);
    apply (coord_value_at cm name pos dim j v N); exact V.
Qed.
Lemma coord_value_unique cm name pos v w : coord_value cm name pos v -> coord_value cm name pos w -> v = w.
Proof.
  unfold coord_value. destruct (assoc name (cm_coords cm)) as [[c|k a|s]|]; try tauto.
  - destruct (dims_of cm name) as [|d [|]]; try tauto. congruence.
  - congruence.
Qed.
Lemma moved_unique cm r name samples reverse trunc pos s t : 0 < r_step r ->
  moved cm r name samples reverse trunc pos s -> moved cm r name samples reverse trunc pos t -> s = t.
Proof.
  intros P (m & v & E & V & x & -> & X0 & X) (m' & v' & E' & V' & y & -> & Y0 & Y). rewrite E in E'. injection E' as <-.
  pose proof (coord_value_unique _ _ _ _ _ V V') as <-. f_equal. destruct samples; [congruence|]. destruct trunc; nia.
Qed.
Lemma at_dim_twice pos dim i j x : at_dim (at_dim pos dim i) dim j x = at_dim pos dim j x.
Proof. unfold at_dim. destruct (String.eqb x dim); reflexivity. Qed.
Lemma data_at_ext {A} (p : patch A) f g : (forall x, f x = g x) -> data_at p f = data_at p g.
Proof. intros H. unfold data_at. f_equal. apply map_ext. exact H. Qed.
Lemma at_dim_self pos dim x : at_dim pos dim (pos dim) x = pos x.
Proof. unfold at_dim. destruct (String.eqb_spec x dim) as [->|]; reflexivity. Qed.

Lemma c_len_prog c' a s n : okc c' -> 0 <= n -> c_values c' = map Some (progression a s n) -> c_len c' = n.
Proof. intros K N V. rewrite <- (c_len_values c' K), V, zlen_map, zlen_progression. lia. Qed.

(** ** Consequences *)
Section align.
Context {A : Type}.
Variables (p p' : patch A) (m : amode) (samples reverse trunc : bool) (fill : A) (dim name : string)
  (r : crange) (c' : coord) (lo hi : Z).
Hypothesis (WP : wf_patch p) (ND : ~ In dim (dims_of (p_cm p) name))
  (ID : In dim (cm_dims (p_cm p))) (Er : assoc dim (cm_coords (p_cm p)) = Some (M1 (CRange r))) (P : 0 < r_step r)
  (AL : aligned p p' m samples reverse trunc fill dim name r c' lo hi).

Lemma al_len : c_len c' = r_len r + hi - lo.
Proof.
  destruct AL as [RF S0 VC _ _]. apply (c_len_prog _ _ _ _ (wf_okc _ (wf_vals _ (wp_cm _ (rf_wf _ _ _ _ _ RF)) _ _ (rf_dim _ _ _ _ _ RF))) S0 VC).
Qed.
Lemma name_dims d : In d (dims_of (p_cm p) name) -> In d (cm_dims (p_cm p)) /\ d <> dim.
Proof.
  intros J. split; [|intros ->; contradiction]. unfold dims_of in J. destruct (assoc name (cm_dmap (p_cm p))) as [ds|] eqn:E; [|destruct J].
  destruct (con_coord _ (wf_con _ (wp_cm _ WP)) _ _ E) as (c0 & _ & S & _). apply S; exact J.
Qed.
Lemma in_patch_within pos : in_patch p' pos -> within (p_cm p) (dims_of (p_cm p) name) pos.
Proof.
  intros IP d J. destruct (name_dims d J) as [J' N]. destruct AL as [RF _ _ _ _].
  destruct (IP d) as (n & L & B); [rewrite (rf_dims _ _ _ _ _ RF); exact J'|]. exists n. split; [|exact B].
  apply (refit_len p p' dim (CRange r) c' d n); auto.
Qed.

Lemma valid_no_fill pos : m = Valid -> in_patch p' pos ->
  exists s, moved (p_cm p) r name samples reverse trunc pos s /\ 0 <= pos dim + lo - s < r_len r /\
    data_at p' pos = data_at p (at_dim pos dim (pos dim + lo - s)).
Proof.
  intros Hm IP. pose proof AL as [RF S0 VC SP DA]. rewrite Hm in SP. destruct (DA pos IP) as (s & M & D). exists s. split; [exact M|].
  cbn [mode_span] in SP. destruct SP as [(_ & _ & H1) (_ & _ & H2)].
  assert (SS : exists q, within (p_cm p) (dims_of (p_cm p) name) q /\ moved (p_cm p) r name samples reverse trunc q s).
  { exists pos. split; [apply in_patch_within; exact IP|exact M]. }
  specialize (H1 s SS). specialize (H2 s SS).
  destruct (IP dim) as (n & (c0 & E0 & <-) & B); [rewrite (rf_dims _ _ _ _ _ RF); exact ID|].
  rewrite (rf_dim _ _ _ _ _ RF) in E0. injection E0 as <-. rewrite al_len in B.
  cbv zeta in D. replace ((0 <=? pos dim + lo - s) && (pos dim + lo - s <? r_len r)) with true in D by lia.
  split; [lia|exact D].
Qed.

Lemma full_keeps pos v : m = Full -> in_patch p pos -> znth (c_values (CRange r)) (pos dim) = Some (Some v) ->
  exists s j, moved (p_cm p) r name samples reverse trunc pos s /\ in_patch p' (at_dim pos dim j) /\
    data_at p' (at_dim pos dim j) = data_at p pos /\
    znth (c_values c') j = Some (Some (v + s * r_step r)).
Proof.
  intros Hm IP V. pose proof AL as [RF S0 VC SP DA]. rewrite Hm in SP. cbn [mode_span] in SP. destruct SP as [[_ H1] [_ H2]].
  destruct (IP dim ID) as (n & (c0 & E0 & <-) & B). rewrite Er in E0. injection E0 as <-. cbn [c_len] in B.
  pose proof (wf_vals _ (wp_cm _ WP) _ _ Er) as Wr. cbn [wf_mcoord wf_coord] in Wr. pose proof Wr as (_ & Hn & _).
  assert (SZ : lo <= hi).
  { assert (X : exists s, (exists q, within (p_cm p) (dims_of (p_cm p) name) q /\ moved (p_cm p) r name samples reverse trunc q s)).
    { pose proof AL as [_ _ _ SP' _]. rewrite Hm in SP'. cbn [mode_span] in SP'. exists lo. apply SP'. }
    destruct X as [s X]. specialize (H1 s X). specialize (H2 s X). lia. }
  assert (I0 : in_patch p' (at_dim pos dim 0)) by (apply (refit_at p p' dim (CRange r) c'); auto; rewrite al_len; lia).
  destruct (DA _ I0) as (s & M & _). rewrite moved_at in M by exact ND.
  assert (SS : exists q, within (p_cm p) (dims_of (p_cm p) name) q /\ moved (p_cm p) r name samples reverse trunc q s).
  { exists pos. split; [|exact M]. intros d J. apply IP. apply name_dims; exact J. }
  specialize (H1 s SS). specialize (H2 s SS).
  exists s, (pos dim + s - lo). split; [exact M|].
  assert (IJ : in_patch p' (at_dim pos dim (pos dim + s - lo))) by (apply (refit_at p p' dim (CRange r) c'); auto; rewrite al_len; lia).
  split; [exact IJ|]. split.
  - destruct (DA _ IJ) as (s' & M' & D). rewrite moved_at in M' by exact ND. rewrite <- (moved_unique _ _ _ _ _ _ _ _ _ P M M') in D.
    rewrite D. cbv zeta. assert (at_dim pos dim (pos dim + s - lo) dim = pos dim + s - lo) as -> by (unfold at_dim; rewrite String.eqb_refl; reflexivity).
    replace ((0 <=? pos dim + s - lo + lo - s) && (pos dim + s - lo + lo - s <? r_len r)) with true by lia.
    apply data_at_ext. intros x. rewrite at_dim_twice. replace (pos dim + s - lo + lo - s) with (pos dim) by lia. apply at_dim_self.
  - rewrite VC, znth_map, znth_progression by lia. cbn [option_map].
    cbn [c_values] in V. rewrite r_values_prog in V by exact Wr. rewrite znth_map, znth_progression in V by exact B. cbn [option_map] in V.
    injection V as <-. do 2 f_equal. ring.
Qed.
End align.

Lemma align_round_trip {A} (p p1 p2 : patch A) reverse fill dim name m0 : wf_patch p -> plain_names (p_cm p) ->
  assoc name (cm_coords (p_cm p)) = Some m0 -> settled m0 ->
  pt_align p Full true reverse fill dim name = Ok p1 ->
  pt_align p1 Full true (negb reverse) fill dim name = Ok p2 -> plain_names (p_cm p1) ->
  exists r c2 w, assoc dim (cm_coords (p_cm p)) = Some (M1 (CRange r)) /\ 0 <= w /\
    cm_dims (p_cm p2) = cm_dims (p_cm p) /\ assoc dim (cm_coords (p_cm p2)) = Some (M1 c2) /\
    c_values c2 = map Some (progression (r_start r - w * r_step r) (r_step r) (r_len r + 2 * w)) /\
    forall pos, in_patch p2 pos ->
      data_at p2 pos = let i := pos dim - w in
        if (0 <=? i) && (i <? r_len r) then data_at p (at_dim pos dim i) else Some fill.
Proof.
  intros WP PN EN ST H1 H2 PN1.
  destruct (pt_align_ok p p1 Full true reverse fill dim name WP PN (or_introl eq_refl) H1)
    as (r & c1 & lo & hi & t1 & ID & ND & NN & Er & P & AL & _).
  pose proof AL as [RF S0 VC SP DA]. pose proof (rf_wf _ _ _ _ _ RF) as WP1.
  destruct (pt_align_ok p1 p2 Full true (negb reverse) fill dim name WP1 PN1 (or_introl eq_refl) H2)
    as (r1 & c2 & lo2 & hi2 & t2 & ID1 & ND1 & NN1 & Er1 & P1 & AL2 & _).
  pose proof AL2 as [RF2 S2 VC2 SP2 DA2]. cbn [mode_span] in SP, SP2.
  pose proof (al_len p p1 Full true reverse t1 fill dim name r c1 lo hi AL) as L1.
  pose proof (wf_vals _ (wp_cm _ WP) _ _ Er) as Wr. cbn [wf_mcoord wf_coord] in Wr. pose proof Wr as (_ & Hn & _).
  pose proof (wf_vals _ (wp_cm _ WP1) _ _ Er1) as Wr1. cbn [wf_mcoord wf_coord] in Wr1. pose proof Wr1 as (_ & Hn1 & _).
  rewrite (rf_dim _ _ _ _ _ RF) in Er1. injection Er1 as ->. cbn [c_len] in L1. cbn [c_values] in VC.
  (* start and step of the intermediate coordinate *)
  rewrite r_values_prog in VC by exact Wr1.
  assert (ST1 : r_start r1 = r_start r + lo * r_step r).
  { apply (f_equal (fun l => znth l 0)) in VC. rewrite !znth_map, !znth_progression in VC by lia. cbn [option_map] in VC. injection VC as VC. lia. }
  assert (NZ : name <> dim) by (intros ->; contradiction).
  assert (EN1 : assoc name (cm_coords (p_cm p1)) = Some m0).
  { apply (rf_same _ _ _ _ _ RF name m0 NZ EN ST). tauto. }
  assert (DM : dims_of (p_cm p1) name = dims_of (p_cm p) name).
  { pose proof (rf_coords _ _ _ _ _ RF name m0 NZ EN) as C. rewrite EN1 in C. unfold dims_of. rewrite (proj2 C). reflexivity. }
  assert (CV : forall pos v, coord_value (p_cm p1) name pos v <-> coord_value (p_cm p) name pos v).
  { intros pos v. unfold coord_value. rewrite EN1, EN, DM. tauto. }
  assert (MV : forall pos s, moved (p_cm p1) r1 name true (negb reverse) t2 pos s <-> moved (p_cm p) r name true reverse t1 pos (- s)).
  { intros pos s. unfold moved, trace_shift. split; intros (m & v & E & V & a & E1 & A0 & E2); exists m, v.
    - rewrite EN1 in E. split; [congruence|]. split; [apply CV; exact V|]. exists a. cbn [shift_unit] in *.
      split; [rewrite E1; destruct reverse; cbn [negb]; ring|]. auto.
    - rewrite EN in E. split; [congruence|]. split; [apply CV; exact V|]. exists a. cbn [shift_unit] in *.
      split; [replace s with (- - s) by ring; rewrite E1; destruct reverse; cbn [negb]; ring|]. auto. }
  assert (WI : forall pos, within (p_cm p1) (dims_of (p_cm p1) name) pos <-> within (p_cm p) (dims_of (p_cm p) name) pos).
  { intros pos. rewrite DM. apply (refit_within p p1 dim (CRange r) (CRange r1)); auto.
    intros d J. apply (name_dims p dim name WP ND d J). }
  assert (L2 : lo2 = - hi /\ hi2 = - lo).
  { destruct SP as [[A1 A2] [B1 B2]], SP2 as [[C1 C2] [D1 D2]].
    assert (X : forall s, (exists pos, within (p_cm p1) (dims_of (p_cm p1) name) pos /\ moved (p_cm p1) r1 name true (negb reverse) t2 pos s) <->
                (exists pos, within (p_cm p) (dims_of (p_cm p) name) pos /\ moved (p_cm p) r name true reverse t1 pos (- s))).
    { intros s. split; intros (pos & Y & Z); exists pos; (split; [apply WI; exact Y|apply MV; exact Z]). }
    apply X in C1. apply X in D1. apply A2 in D1 as U1. apply B2 in C1 as U2. 
    assert (Y1 : lo2 <= - hi) by (apply C2, X; rewrite Z.opp_involutive; exact B1).
    assert (Y2 : - lo <= hi2) by (apply D2, X; rewrite Z.opp_involutive; exact A1). lia. }
  destruct L2 as [-> ->].
  assert (LH : lo <= hi) by (destruct SP as [[A1 A2] [B1 B2]]; apply A2; exact B1).
  assert (T1 : r_step r1 = r_step r).
  { destruct (Z.eq_dec (r_len r1) 1) as [L|L].
    - assert (hi = lo /\ r_len r = 1) as [-> Lr] by lia.
      (* both have a single sample: the step comes from the alignment itself *)
      revert H1. clear - WP PN Er Wr EN VC Hn L RF ID. intros H1. unfold pt_align in H1.
      rewrite (proj2 (mem_In' _ _) ID), EN, Er in H1. cbn [negb] in H1.
      destruct (assoc name (cm_dmap (p_cm p))); [|discriminate]. destruct (mem name _); [discriminate|]. destruct (mem dim _); [discriminate|].
      do 4 step H1. destruct (list_min _); [|discriminate]. destruct (list_max _); [|discriminate].
      destruct (mode_shifts _ _ _) as [l2 h2]. do 3 step H1.
      pose proof (rf_dim _ _ _ _ _ RF) as RD. unfold new_patch in H1. step H1. destruct (zlist_eqb _ _); [|discriminate]. injection H1 as <-.
      cbn [p_cm] in RD.
      assert (K : okc a4 /\ recf (M1 a4) = M1 a4 /\ forall r', a4 = CRange r' -> r_step r' = r_step r).
      { unfold aligned_coord in E4. rewrite update_limits_min in E4 by (auto; discriminate). cbn [bind] in E4. cbv zeta in E4.
        match type of E4 with change_length ?x _ = _ => assert (Wx : wf_range x) by (destruct Wr as (? & ? & ?); unfold wf_range; cbn; lia) end.
        destruct (change_length_ok _ _ _ Wx E4) as (N0 & [(_ & ->)|(r' & -> & W' & _ & _ & T' & _)]).
        - split; [cbn; lia|]. split; [reflexivity|]. intros; discriminate.
        - split; [exact W'|]. split; [reflexivity|]. intros r'' [= <-]. exact T'. }
      destruct K as (K1 & K2 & K3).
      destruct (one_update (p_cm p) dim (CRange r) a4 (wp_cm _ WP) PN ID Er K1) as (cm2 & EU & _ & _ & U0 & _).
      rewrite E5 in EU. injection EU as ->. rewrite U0, K2 in RD. injection RD as ->. apply K3. reflexivity.
    - apply (f_equal (fun l => znth l 1)) in VC. rewrite !znth_map, !znth_progression in VC by lia. cbn [option_map] in VC.
      assert (r_start r1 + 1 * r_step r1 = r_start r + lo * r_step r + 1 * r_step r) by congruence. lia. }
  exists r, c2, (hi - lo). split; [exact Er|]. split; [lia|].
  split; [rewrite (rf_dims _ _ _ _ _ RF2); apply (rf_dims _ _ _ _ _ RF)|].
  split; [apply (rf_dim _ _ _ _ _ RF2)|]. split.
  { rewrite VC2, ST1, T1, L1. f_equal. f_equal; ring. }
  intros pos IP. destruct (DA2 pos IP) as (s2 & M2 & D2). cbv zeta in *.
  pose proof (in_patch_within p1 p2 Full true (negb reverse) t2 fill dim name r1 c2 (- hi) (- lo) WP1 ND1 AL2 pos IP) as WI2.
  apply WI in WI2. apply MV in M2. rewrite D2. rewrite L1.
  assert (B1 : lo <= - s2 <= hi).
  { destruct SP as [[A1 A2] [B1 B2]]. split; [apply A2|apply B2]; exists pos; auto. }
  destruct ((0 <=? pos dim + - hi - s2) && (pos dim + - hi - s2 <? r_len r + hi - lo)) eqn:C.
  - assert (IQ : in_patch p1 (at_dim pos dim (pos dim + - hi - s2))).
    { apply (refit_back p1 p2 dim (CRange r1) c2); auto; [apply (rf_dim _ _ _ _ _ RF)|]. cbn [c_len]. lia. }
    destruct (DA _ IQ) as (s1 & M1 & D1). cbv zeta in D1.
    rewrite moved_at in M1 by exact ND. pose proof (moved_unique _ _ _ _ _ _ _ _ _ P M1 M2) as ->.
    rewrite D1. assert (at_dim pos dim (pos dim + - hi - s2) dim = pos dim + - hi - s2) as -> by (unfold at_dim; rewrite String.eqb_refl; reflexivity).
    replace (pos dim + - hi - s2 + lo - - s2) with (pos dim - (hi - lo)) by ring.
    destruct ((0 <=? pos dim - (hi - lo)) && (pos dim - (hi - lo) <? r_len r)); [|reflexivity].
    apply data_at_ext. intros x. apply at_dim_twice.
  - destruct ((0 <=? pos dim - (hi - lo)) && (pos dim - (hi - lo) <? r_len r)) eqn:C2; [lia|reflexivity].
Qed.

(** ** When alignment succeeds *)
Lemma pt_align_total {A} (p : patch A) m samples reverse fill dim name r c : wf_patch p -> plain_names (p_cm p) ->
  (samples = true \/ r_step r < 20000000000) ->
  In dim (cm_dims (p_cm p)) -> assoc dim (cm_coords (p_cm p)) = Some (M1 (CRange r)) -> 0 < r_step r -> r_kind r = KTime ->
  assoc name (cm_coords (p_cm p)) = Some c -> has_values c -> ~ In name (cm_dims (p_cm p)) ->
  dims_of (p_cm p) name <> [] -> ~ In dim (dims_of (p_cm p) name) -> kinds_fit (r_kind r) (coord_kind c) samples ->
  (m <> Full -> forall pos v, within (p_cm p) (dims_of (p_cm p) name) pos -> coord_value (p_cm p) name pos v ->
     Z.abs (shift_unit (r_kind r) (coord_kind c) samples * v) <= (if samples then r_len r - 1 else r_max r - r_min r)) ->
  (m = Valid -> forall q1 q2 s1 s2, within (p_cm p) (dims_of (p_cm p) name) q1 -> within (p_cm p) (dims_of (p_cm p) name) q2 ->
     moved (p_cm p) r name samples reverse false q1 s1 -> moved (p_cm p) r name samples reverse false q2 s2 -> s1 - s2 <= r_len r) ->
  exists p', pt_align p m samples reverse fill dim name = Ok p'.
Proof.
  intros WP PN SM ID Er P KT Ec HV NN DN ND KF BD VD. destruct p as [cm a]. cbn [p_cm p_data] in *.
  pose proof (wp_cm _ WP) as W. cbn [p_cm] in W. pose proof (wf_vals _ W _ _ Er) as Wr. cbn [wf_mcoord wf_coord] in Wr.
  pose proof Wr as (_ & Hn & Hstop).
  assert (ED : exists ds, assoc name (cm_dmap cm) = Some ds) by (unfold dims_of in DN; destruct (assoc name (cm_dmap cm)); [eauto|congruence]).
  destruct ED as [ds Ed]. assert (DS : dims_of cm name = ds) by (unfold dims_of; rewrite Ed; reflexivity). rewrite DS in *.
  destruct (con_coord _ (wf_con _ W) name ds Ed) as (c0 & Ec0 & SUB & SHP). rewrite Ec in Ec0. injection Ec0 as <-.
  destruct SHP as [SHP|F]; [contradiction|].
  unfold pt_align. cbn [p_cm p_data]. rewrite (proj2 (mem_In' _ _) ID), Ec, Ed, (proj2 (mem_false _ _) NN), (proj2 (mem_false _ _) ND), Er.
  cbn [negb].
  assert (EV : exists vals, align_values (r_kind r) c samples = Ok vals /\ nd_flat vals <> []).
  { pose proof (wf_vals _ W _ _ Ec) as Wc. unfold align_values.
    assert (MA : exists x, m_array c = Ok (coord_kind c, x) /\ nd_flat x <> []).
    { destruct c as [[r0|k0 v0|k0 v0|]|k0 a0|]; try destruct HV; cbn [m_array coord_kind c_kind]; eexists; (split; [reflexivity|]); cbn [nd_flat].
      - cbn in Wc. pose proof (zlen_r_values r0 Wc) as L. destruct Wc as (_ & ? & _). intros Q. rewrite Q in L. cbn in L. lia.
      - apply Wc.
      - apply Wc.
      - destruct Wc as ((_ & L) & _ & S). intros Q. rewrite Q in L. cbn in L. lia. }
    destruct MA as (x & -> & NE). cbn [bind]. unfold kinds_fit in KF.
    destruct samples, (r_kind r), (coord_kind c); try destruct KF; eexists; (split; [reflexivity|]); auto.
    cbn [nd_flat]. destruct (nd_flat x); [congruence|discriminate]. }
  destruct EV as (vals & EV & NE). rewrite EV. cbn [bind].
  destruct (axis_of_in cm dim ID) as (ax & EX & NX). rewrite EX. cbn [bind].
  destruct (axes_of_in cm ds SUB) as (axs & EXS & FX). rewrite EXS. cbn [bind].
  destruct (align_values_ok cm (r_kind r) name c samples vals ds W Ec Ed F EV) as (SHV & WV & GV).
  assert (SB : m = Full \/ forall v, In v (nd_flat vals) -> bounded r samples v).
  { destruct m; [left; reflexivity| |]; right; intros w J; apply (nd_flat_in vals w WV) in J; destruct J as [ix G];
      pose proof (nd_get_inb _ _ _ G) as IB;
      (destruct (pos_of ds ix (wf_distinct _ W _ _ Ed)) as [pos Q]; [rewrite (inb_length _ _ IB), SHV; symmetry; apply (Forall2_length _ _ _ F)|]);
      subst ix; apply GV in G; destruct G as (v & WI & V & ->); unfold bounded; apply (BD ltac:(discriminate) pos v WI V). }
  destruct (shift_indices_total r vals reverse samples m Wr P SM SB) as [inds EI]. rewrite EI. cbn [bind].
  destruct (shift_indices_ok r vals reverse samples m inds Wr SM (proj2 WV) EI) as (_ & SHI & LI & GI & BI).
  assert (WI : wf_nd inds) by (split; [rewrite SHI; apply WV|rewrite LI, SHI; apply WV]).
  assert (NI : nd_flat inds <> []).
  { intros Q. rewrite Q in LI. destruct (nd_flat vals); [congruence|]. rewrite zlen_cons in LI. pose proof (zlen_nonneg l). change (zlen (@nil Z)) with 0 in LI. lia. }
  destruct (list_min_ok _ NI) as [mn Emn]. destruct (list_max_ok _ NI) as [mx Emx]. rewrite Emn, Emx.
  pose proof (list_min_least _ _ Emn) as [InMn LMn]. pose proof (list_max_greatest _ _ Emx) as [InMx LMx].
  destruct (mode_shifts m mn mx) as [lo hi] eqn:EM.
  assert (SIZE : 0 <= r_len r + hi - lo).
  { destruct m; cbn [mode_shifts] in EM; injection EM as <- <-.
    - specialize (LMx mn InMn). lia.
    - lia.
    - specialize (BI ltac:(discriminate)). rewrite Forall_forall in BI. pose proof (BI mn InMn). pose proof (BI mx InMx).
      assert (mx - mn <= r_len r); [|destruct (Z.ltb_spec 0 mx), (Z.ltb_spec mn 0); lia].
      assert (MV : forall s, In s (nd_flat inds) -> exists q, within cm ds q /\ moved cm r name samples reverse false q s).
      { intros s J. apply (nd_flat_in inds s WI) in J. destruct J as [ix G]. pose proof (nd_get_inb _ _ _ G) as IB.
        destruct (pos_of ds ix (wf_distinct _ W _ _ Ed)) as [pos Q].
        { rewrite (inb_length _ _ IB), SHI, SHV. symmetry. apply (Forall2_length _ _ _ F). }
        subst ix. rewrite SHI in IB. destruct (nd_get_total vals _ WV IB) as [w Gw]. destruct (proj1 (GV pos w) Gw) as (v & WI' & V & ->).
        exists pos. split; [exact WI'|]. destruct (nd_get_zip vals inds _ SHI GI _ _ Gw) as (s' & Gs & T).
        rewrite G in Gs. injection Gs as <-. exists c, v. auto. }
      destruct (MV mx InMx) as (q1 & W1 & M1). destruct (MV mn InMn) as (q2 & W2 & M2). apply (VD eq_refl q1 q2); auto. }
  assert (HB : forall s, In s (nd_flat inds) -> s <= r_len r + hi).
  { intros s J. specialize (LMx s J). destruct m; cbn [mode_shifts] in EM; injection EM as <- <-; [lia| |].
    - specialize (BI ltac:(discriminate)). rewrite Forall_forall in BI. specialize (BI s J). lia.
    - destruct (Z.ltb_spec 0 mx); lia. }
  pose proof (axis_shape (mkPatch cm a) dim (CRange r) ax WP Er NX) as Sax. cbn [p_data p_cm c_len] in Sax.
  assert (GA : gather_nat (nd_shape a) axs = Some (nd_shape inds)).
  { rewrite SHI, SHV. pose proof (wp_shape _ WP) as SP. cbn [p_cm p_data] in SP. clear - FX F SP.
    assert (LK : forall d n ax, nth_error (cm_dims cm) ax = Some d -> dim_len cm d n -> nth_error (nd_shape a) ax = Some n).
    { clear - SP. intros d n ax H (c & Ec & L). revert ax H. induction SP as [|d' n' ds' s' (c1 & E1 & L1) SP IH]; intros [|ax] H; try discriminate; cbn in *.
      - injection H as ->. congruence.
      - apply IH; exact H. }
    revert axs FX. induction F as [|d n ds s H F IH]; intros axs FX; inversion FX; subst; [reflexivity|].
    cbn [gather_nat]. rewrite (LK _ _ _ H2 H). rewrite (IH _ H4). reflexivity. }
  assert (NA : ~ In ax axs).
  { intros J. clear - J NX FX ND. induction FX as [|d x ds axs H F IH]; [destruct J|]. destruct J as [->|J].
    - rewrite NX in H. injection H as ->. apply ND. left; reflexivity.
    - apply IH; [intros X; apply ND; right; exact X|exact J]. }
  destruct (apply_shifts_ok a inds ax axs (r_len r) lo hi fill (wp_nd _ WP) WI Sax GA NA SIZE HB) as (b & EB & WB & SHB & _).
  rewrite EB. cbn [bind].
  assert (EC : exists c', aligned_coord r lo hi = Ok c').
  { unfold aligned_coord. rewrite update_limits_min by (auto; discriminate). cbn [bind]. cbv zeta.
    match goal with |- context [change_length ?x _] => assert (Wx : wf_range x) by (unfold wf_range; cbn; lia) end.
    destruct (Z.eq_dec (r_len r - lo + hi) 0) as [->|N0].
    - eexists. apply change_length_zero; exact Wx.
    - eexists. apply change_length_wf; [exact Wx|lia|left; exact KT]. }
  destruct EC as [c' EC]. rewrite EC. cbn [bind].
  destruct (aligned_coord_ok r lo hi c' Wr P EC) as (_ & KC & RC & LC & _).
  destruct (resize_patch (mkPatch cm a) dim (CRange r) c' ax b WP PN NX Er KC RC WB) as (cm2 & EU2 & NP & _).
  { cbn [p_data]. rewrite SHB, LC. reflexivity. }
  cbn [p_cm] in EU2. rewrite EU2. cbn [bind]. rewrite NP. eauto.
Qed.

(** Shifts beyond the dimension are refused unless the output may grow. *)
Lemma pt_align_refuses {A} (p : patch A) m samples reverse fill dim name r c pos v : wf_patch p ->
  In dim (cm_dims (p_cm p)) -> assoc dim (cm_coords (p_cm p)) = Some (M1 (CRange r)) -> 0 < r_step r ->
  assoc name (cm_coords (p_cm p)) = Some c -> has_values c -> ~ In name (cm_dims (p_cm p)) ->
  dims_of (p_cm p) name <> [] -> ~ In dim (dims_of (p_cm p) name) -> kinds_fit (r_kind r) (coord_kind c) samples ->
  m <> Full -> within (p_cm p) (dims_of (p_cm p) name) pos -> coord_value (p_cm p) name pos v ->
  (if samples then r_len r - 1 else r_max r - r_min r) < Z.abs (shift_unit (r_kind r) (coord_kind c) samples * v) ->
  pt_align p m samples reverse fill dim name = Err ParameterError.
Proof.
  intros WP ID Er P Ec HV NN DN ND KF MF WI V B. destruct p as [cm a]. cbn [p_cm p_data] in *.
  pose proof (wp_cm _ WP) as W. cbn [p_cm] in W. pose proof (wf_vals _ W _ _ Er) as Wr. cbn [wf_mcoord wf_coord] in Wr.
  assert (ED : exists ds, assoc name (cm_dmap cm) = Some ds) by (unfold dims_of in DN; destruct (assoc name (cm_dmap cm)); [eauto|congruence]).
  destruct ED as [ds Ed]. assert (DS : dims_of cm name = ds) by (unfold dims_of; rewrite Ed; reflexivity). rewrite DS in *.
  destruct (con_coord _ (wf_con _ W) name ds Ed) as (c0 & Ec0 & SUB & SHP). rewrite Ec in Ec0. injection Ec0 as <-.
  destruct SHP as [SHP|F]; [contradiction|].
  unfold pt_align. cbn [p_cm p_data]. rewrite (proj2 (mem_In' _ _) ID), Ec, Ed, (proj2 (mem_false _ _) NN), (proj2 (mem_false _ _) ND), Er.
  cbn [negb].
  assert (EV : exists vals, align_values (r_kind r) c samples = Ok vals).
  { unfold align_values. assert (MA : exists x, m_array c = Ok (coord_kind c, x)).
    { destruct c as [[r0|k0 v0|k0 v0|]|k0 a0|]; try destruct HV; cbn [m_array coord_kind c_kind]; eauto. }
    destruct MA as (x & ->). cbn [bind]. unfold kinds_fit in KF.
    destruct samples, (r_kind r), (coord_kind c); try destruct KF; eauto. }
  destruct EV as (vals & EV). rewrite EV. cbn [bind].
  destruct (axis_of_in cm dim ID) as (ax & EX & NX). rewrite EX. cbn [bind].
  destruct (axes_of_in cm ds SUB) as (axs & EXS & FX). rewrite EXS. cbn [bind].
  destruct (align_values_ok cm (r_kind r) name c samples vals ds W Ec Ed F EV) as (SHV & WV & GV).
  rewrite (shift_indices_bad r vals reverse samples m (shift_unit (r_kind r) (coord_kind c) samples * v) Wr P MF); [reflexivity| |].
  - apply (nd_flat_in vals _ WV). exists (map pos ds). apply GV. eauto.
  - unfold bounded. destruct samples; lia.
Qed.

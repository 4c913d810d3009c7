(** Lemmas behind CalcProps.v: strain rates. *)
From Verif Require Import Base BaseFacts CoordModel CoordSpec CoordProofs CoordProofs2 CoordProofs5 NdModel NdSpec NdProofs NdProofs2 FrameModel FrameProofs ChunkModel ChunkProofs2
  CmModel CmSpec CmProofs CmProofs2 CmProofs3 CmProofs5 CmProofs6 CmProofs10 CmProofs12 TaperProofs2 MergeModel MergeProofs7 AggModel AggSpec AggProofs AggProofs2 ConcatSpec ConcatProofs2 MuteModel
  NaProofs ReadProofs ProcProofs2 CalcModel CalcSpec CalcProofs CalcProofs2 CalcProofs3.
From Coq Require Import Strings.String ZifyBool QArith Lqa.
Local Open Scope Z_scope.
Local Open Scope list_scope.

(** ** Parts of a line *)
Lemma pick_put ps : forall s ax ix jx, pick_ix (put (full s) ax ps) ix = Some jx -> (ax < List.length s)%nat ->
  exists i j, nth_error ix ax = Some i /\ znth ps i = Some j /\ jx = put ix ax j.
Proof.
  induction s as [|n s IH]; intros ax ix jx P L; cbn in L; [lia|]. destruct ax as [|ax]; destruct ix as [|i ix]; try discriminate; cbn [full map put pick_ix] in P; fold (full s) in P.
  - destruct (znth ps i) as [j|] eqn:Z0; [|discriminate]. destruct (pick_ix (full s) ix) as [q|] eqn:Q; [|discriminate]. injection P as <-.
    exists i, j. split; [reflexivity|]. split; [exact Z0|]. cbn [put]. f_equal.
    clear - Q. revert ix q Q. induction s as [|n s IH]; intros [|i ix] q Q; cbn in Q; try discriminate; [congruence|]. fold (full s) in Q.
    rewrite znth_zrange in Q. destruct ((0 <=? i) && (i <? n)); [|discriminate]. destruct (pick_ix (full s) ix) as [t|] eqn:E; [|discriminate]. injection Q as <-. f_equal. apply IH, E.
  - rewrite znth_zrange in P. destruct ((0 <=? i) && (i <? n)); [|discriminate]. destruct (pick_ix (put (full s) ax ps) ix) as [q|] eqn:Q; [|discriminate]. injection P as <-.
    destruct (IH ax ix q Q) as (i' & j & N & Z0 & ->); [lia|]. exists i', j. auto.
Qed.
Lemma map_zlen_put s ax (ps : list Z) : Forall (fun n => 0 <= n) s -> map zlen (put (full s) ax ps) = put s ax (zlen ps).
Proof.
  intros P. revert ax. induction P as [|n s N P IH]; intros [|ax]; cbn; try reflexivity; fold (full s).
  - rewrite map_zlen_full by exact P. reflexivity.
  - rewrite IH, zlen_zrange. f_equal. lia.
Qed.
Lemma select_line {A} (p : patch A) d ax c ps arg : wf_patch p -> plain_names (p_cm p) -> nth_error (cm_dims (p_cm p)) ax = Some d ->
  assoc d (cm_coords (p_cm p)) = Some (M1 c) -> asks c false true arg ps ->
  exists p', pt_select p false true [(d, arg)] = Ok p' /\ wf_nd (p_data p') /\ nd_shape (p_data p') = put (nd_shape (p_data p)) ax (zlen ps) /\
    forall ix, inb (nd_shape (p_data p')) ix -> exists i j y, nth_error ix ax = Some i /\ znth ps i = Some j /\
      nd_get (p_data p) (put ix ax j) = Some y /\ nd_get (p_data p') ix = Some y.
Proof.
  intros W PN X E AS. pose proof (wp_cm _ W) as Wc. destruct (wf_dim_coord (p_cm p) d Wc (nth_error_In _ _ X)) as (c0 & E0 & _ & Dd).
  destruct (pt_select_one p false true (fun _ => ps) [(d, arg)] W PN) as (p' & pick & own & ES & (WP' & _ & ND) & (P1 & _ & P3 & _)).
  - unfold separate. cbn. constructor; [intros []|constructor].
  - intros n a [Q|[]]. injection Q as <- <-. exists c. auto.
  - intros n [<-|[]] Q. cbn in Q. congruence.
  - cbn [map fst] in *. exists p'. split; [exact ES|].
    assert (PK : map pick (cm_dims (p_cm p)) = put (full (nd_shape (p_data p))) ax ps).
    { rewrite <- (picks_put (p_cm p) _ d ax ps (wf_dims _ Wc) (wp_shape _ W) X). apply map_ext_in. intros e J. destruct (String.eqb_spec e d) as [->|N].
      - apply (P1 d d); [left; reflexivity|exact Dd].
      - apply P3. intros n [<-|[]] Q. congruence. }
    rewrite PK in ND. destruct ND as (Wd & S & _ & G). rewrite map_zlen_put in S, G by apply (wp_nd _ W). split; [exact Wd|]. split; [exact S|].
    rewrite S. intros ix I. destruct (G ix I) as (jx & x & P & Y & Z0). destruct (pick_put _ _ _ _ _ P) as (i & j & N & Zi & ->).
    { rewrite <- (f2_len (wp_shape _ W)). apply nth_error_Some. congruence. }
    exists i, j, x. auto.
Qed.
Lemma slice_from n k : 0 <= k <= n -> slice_positions n (mkSlice (Some k) None None) = Some (map (fun i => k + i) (zrange (n - k))).
Proof.
  intros H. unfold slice_positions, slice_indices. cbn [sl_start sl_stop sl_step]. change (1 =? 0) with false. change (1 <? 0) with false. cbv iota zeta.
  unfold clip_index. cbn [Z.ltb Z.compare]. assert ((k <? 0) = false) as -> by lia. rewrite ?(proj2 (Z.ltb_ge k 0)) by lia. f_equal. destruct (n <=? k) eqn:Q.
  - assert (n - k = 0) as -> by lia. rewrite Z.ltb_irrefl. reflexivity.
  - destruct (k <? n) eqn:Q2; [|lia]. rewrite Z.div_1_r. replace (n - k - 1 + 1) with (n - k) by lia. apply map_ext. intros; lia.
Qed.
Lemma slice_upto n k : 0 < k < n -> slice_positions n (mkSlice None (Some (- k)) None) = Some (zrange (n - k)).
Proof.
  intros H. unfold slice_positions, slice_indices. cbn [sl_start sl_stop sl_step]. change (1 =? 0) with false. change (1 <? 0) with false. cbv iota zeta.
  unfold clip_index. cbn [Z.ltb Z.compare]. assert ((- k <? 0) = true) as -> by lia. assert ((- k + n <? 0) = false) as -> by lia. assert ((n <=? - k + n) = false) as -> by lia.
  assert ((0 <? - k + n) = true) as -> by lia. rewrite Z.div_1_r. f_equal. replace (- k + n - 0 - 1 + 1) with (n - k) by lia.
  transitivity (map (fun i => i) (zrange (n - k))); [apply map_ext; intros; lia|apply map_id].
Qed.

(** ** Midpoints *)
Definition mids_of (k : Z) (r : crange) : list Z :=
  let v := r_values r in map (fun xy => (fst xy + snd xy) / 2) (combine (skipn (Z.to_nat k) v) (firstn (Z.to_nat (zlen v - k)) v)).
Lemma mids_len k r : wf_range r -> 0 < k < r_len r -> zlen (mids_of k r) = r_len r - k.
Proof.
  intros W K. unfold mids_of. cbv zeta. rewrite zlen_map, zlen_combine, zlen_skipn, zlen_firstn, (zlen_r_values r W) by (rewrite ?(zlen_r_values r W); lia). lia.
Qed.
Lemma mids_at k r i : wf_range r -> 0 < k < r_len r -> Z.odd (k * r_step r) = false -> 0 <= i < r_len r - k ->
  exists z, znth (mids_of k r) i = Some z /\ 2 * z = 2 * r_start r + (2 * i + k) * r_step r.
Proof.
  intros W K O I. exists ((r_start r + (k + i) * r_step r + (r_start r + i * r_step r)) / 2).
  rewrite Zodd_even_bool in O. apply Bool.negb_false_iff, Zeven_bool_iff, Zeven_ex in O. destruct O as [m O]. split.
  - unfold mids_of. cbv zeta. rewrite znth_map, znth_combine, znth_skipn, znth_firstn by lia. rewrite (zlen_r_values r W), (r_values_prog r W).
    rewrite !znth_progression by lia. destruct (i <? r_len r - k) eqn:Q; [reflexivity|lia].
  - replace (r_start r + (k + i) * r_step r + (r_start r + i * r_step r)) with ((r_start r + i * r_step r + m) * 2) by nia. rewrite Z.div_mul by lia. nia.
Qed.
Lemma mids_coord k r : wf_range r -> 0 < k < r_len r -> Z.odd (k * r_step r) = false ->
  exists c, get_coord_data KInt (mids_of k r) = Ok c /\ wf_coord c /\ c_len c = r_len r - k /\ c_ints c = mids_of k r.
Proof.
  intros W K O. destruct (get_coord_represents KInt (mids_of k r)) as (c & G & (R1 & _ & R3) & Wc). exists c. split; [exact G|]. split; [exact Wc|].
  pose proof (mids_len k r W K) as ML. split; [rewrite <- (c_len_values c (wf_okc _ Wc)); lia|].
  apply (values_ints c _ (wf_okc _ Wc)); [|intros Q; rewrite Q in ML; cbn in ML; lia]. apply R3.
  assert (GP : forall d, gap (mids_of k r) d -> d = r_step r).
  { intros d (i & x & y & X & Y & ->). pose proof (znth_some _ _ _ X) as B1. pose proof (znth_some _ _ _ Y) as B2. rewrite ML in B1, B2.
    destruct (mids_at k r i W K O B1) as (x' & X' & EX). destruct (mids_at k r (i + 1) W K O B2) as (y' & Y' & EY). rewrite X in X'. rewrite Y in Y'. injection X' as <-. injection Y' as <-. nia. }
  intros m2 _ d d' H H'. rewrite (GP d H), (GP d' H'). reflexivity.
Qed.

(** ** Errors *)
Lemma strain_errors ints dt k (p : patch Q) : wf_patch p ->
  (~ In "distance"%string (cm_dims (p_cm p)) -> pt_strain_rate ints dt k p = Err PatchCoordinateError /\ pt_strain_edgeless dt k p = Err PatchCoordinateError) /\
  (In "distance"%string (cm_dims (p_cm p)) ->
    (dt <> "velocity"%string -> pt_strain_rate ints dt k p = Err PatchAttributeError /\ pt_strain_edgeless dt k p = Err PatchAttributeError) /\
    (dt = "velocity"%string ->
      (k <= 0 -> pt_strain_rate ints dt k p = Err ParameterError /\ pt_strain_edgeless dt k p = Err ParameterError) /\
      (~ (2 | k) -> pt_strain_rate ints dt k p = Err ParameterError) /\
      (0 < k -> (forall r, assoc "distance"%string (cm_coords (p_cm p)) <> Some (M1 (CRange r))) ->
         pt_strain_edgeless dt k p = Err CoordError /\ ((2 | k) -> pt_strain_rate ints dt k p = Err CoordError)))).
Proof.
  intros W. unfold pt_strain_rate, pt_strain_edgeless, velocity_step. split; [|intros J; split].
  - intros N. destruct (mem "distance" (cm_dims (p_cm p))) eqn:M; [apply mem_In' in M; contradiction|]. auto.
  - intros N. rewrite (proj2 (mem_In' _ _) J). cbn [negb]. destruct (String.eqb_spec dt "velocity") as [->|_]; [congruence|]. auto.
  - intros ->. rewrite (proj2 (mem_In' _ _) J). cbn [negb String.eqb Ascii.eqb Bool.eqb]. split; [|split].
    + intros K. destruct (k <=? 0) eqn:Q; [|lia]. auto.
    + intros K. destruct (k <=? 0); [reflexivity|]. destruct (k mod 2 =? 0) eqn:Q; [|reflexivity]. exfalso. apply K. apply Z.mod_divide; lia.
    + intros K H. destruct (k <=? 0) eqn:Q; [lia|].
      assert (VE : (match assoc "distance"%string (cm_coords (p_cm p)) with Some (M1 (CRange r)) => Ok r | _ => Err CoordError end) = Err CoordError).
      { destruct (assoc "distance"%string (cm_coords (p_cm p))) as [[[r| | |]| |]|]; try reflexivity. destruct (H r eq_refl). }
      rewrite VE. split; [reflexivity|]. intros D. apply Z.mod_divide in D; [|lia]. rewrite D. reflexivity.
Qed.
Lemma strain_ok ints s (p : patch Q) r : wf_patch p -> In "distance"%string (cm_dims (p_cm p)) ->
  assoc "distance"%string (cm_coords (p_cm p)) = Some (M1 (CRange r)) -> 1 <= s -> 3 * s <= r_len r ->
  exists out, pt_strain_rate ints "velocity" (2 * s) p = Ok (out, r_step r * (2 * s)) /\ p_cm out = p_cm p /\
    derivative (ints && (1 <? s)) s (p_cm p) "distance" (p_data p) (p_data out) /\ wf_patch out.
Proof.
  intros W J E S1 L. unfold pt_strain_rate, velocity_step. rewrite (proj2 (mem_In' _ _) J). cbn [negb String.eqb Ascii.eqb Bool.eqb].
  destruct (2 * s <=? 0) eqn:Q; [lia|]. rewrite (Z.mul_comm 2 s), Z.mod_mul, Z.div_mul by lia. cbn [Z.eqb negb]. rewrite E. cbn [bind].
  assert (SD : sorted_dim p "distance") by (split; [exact J|exists (CRange r); split; [exact E|exact I]]).
  assert (LN : length_of "distance" p = r_len r) by (unfold length_of; rewrite E; reflexivity).
  destruct (Z.eq_dec s 1) as [->|N].
  - destruct (differentiate_ok ints (Some ["distance"%string]) 1 p W) as (out & EO & C & St & Wo); [lia|intros d [<-|[]]; split; [exact SD|lia]|].
    rewrite EO. cbn [bind]. exists out. split; [reflexivity|]. split; [exact C|]. split; [|exact Wo]. cbn [asked] in St. inversion St as [|? ? ? b ? D St']; subst. inversion St'; subst.
    rewrite Bool.andb_false_r. exact D.
  - destruct (strided_patch ints (Some ["distance"%string]) s p "distance" W) as (out & EO & C & D & Wo); [lia|reflexivity|exact SD|lia|].
    rewrite EO. cbn [bind]. exists out. destruct (1 <? s) eqn:Q1; [|lia]. rewrite Bool.andb_true_r. auto.
Qed.
Lemma strain_short ints s (p : patch Q) r : wf_patch p -> In "distance"%string (cm_dims (p_cm p)) ->
  assoc "distance"%string (cm_coords (p_cm p)) = Some (M1 (CRange r)) -> 1 <= s -> r_len r < 3 * s ->
  pt_strain_rate ints "velocity" (2 * s) p = Err ValueError.
Proof.
  intros W J E S1 L. unfold pt_strain_rate, velocity_step. rewrite (proj2 (mem_In' _ _) J). cbn [negb String.eqb Ascii.eqb Bool.eqb].
  destruct (2 * s <=? 0) eqn:Q; [lia|]. rewrite (Z.mul_comm 2 s), Z.mod_mul, Z.div_mul by lia. cbn [Z.eqb negb]. rewrite E. cbn [bind].
  assert (SD : sorted_dim p "distance") by (split; [exact J|exists (CRange r); split; [exact E|exact I]]).
  assert (LN : length_of "distance" p = r_len r) by (unfold length_of; rewrite E; reflexivity).
  destruct (Z.eq_dec s 1) as [->|N].
  - rewrite differentiate_short; [reflexivity|exact W|lia|intros d [<-|[]]; exact SD|]. exists "distance"%string. split; [left; reflexivity|lia].
  - rewrite (strided_short ints (Some ["distance"%string]) s p "distance"); [reflexivity|exact W|lia|reflexivity|exact SD|lia].
Qed.

(** ** Without edges *)
Lemma edgeless_ok k (p : patch Q) r : wf_patch p -> plain_names (p_cm p) -> In "distance"%string (cm_dims (p_cm p)) ->
  assoc "distance"%string (cm_coords (p_cm p)) = Some (M1 (CRange r)) -> r_kind r = KInt -> 0 < k < r_len r -> (2 | k * r_step r) ->
  exists out, pt_strain_edgeless "velocity" k p = Ok (out, r_step r * k) /\ edgeless k r p out.
Proof.
  intros W PN J E KI K EV. set (d := "distance"%string) in *. pose proof (wp_cm _ W) as Wc. pose proof (wf_vals _ Wc _ _ E) as Wr. cbn in Wr.
  assert (O : Z.odd (k * r_step r) = false). { destruct EV as [m ->]. rewrite Z.odd_mul. apply Bool.andb_false_r. }
  pose proof (In_nth_error _ _ J) as [ax X]. destruct (MergeProofs7.shape_at (cm_dims (p_cm p)) p ax d W eq_refl X) as (c' & E' & N). rewrite E in E'. injection E' as <-. cbn [c_len] in N.
  destruct (select_line p d ax (CRange r) (map (fun i => k + i) (zrange (r_len r - k))) (SelPair (Some k) None) W PN X E) as (p1 & S1 & W1 & H1 & G1).
  { cbn [asks andb negb c_len]. apply slice_from. lia. }
  destruct (select_line p d ax (CRange r) (zrange (r_len r - k)) (SelPair None (Some (- k))) W PN X E) as (p2 & S2 & W2 & H2 & G2).
  { cbn [asks andb negb c_len]. apply slice_upto. lia. }
  rewrite zlen_map, zlen_zrange in H1. rewrite zlen_zrange in H2. replace (Z.max 0 (r_len r - k)) with (r_len r - k) in H1, H2 by lia.
  set (s := put (nd_shape (p_data p)) ax (r_len r - k)) in *.
  set (f := fun ix => match nd_get (p_data p1) ix, nd_get (p_data p2) ix with Some x, Some y => Some ((x - y) / inject_Z (k * r_step r))%Q | _, _ => None end).
  assert (Ps : Forall (fun n => 0 <= n) s) by (rewrite <- H1; apply W1).
  destruct (nd_build_total s f Ps) as [a Ea].
  { intros ix I. rewrite <- H1 in I. destruct (G1 ix I) as (_ & _ & y & _ & _ & _ & Y). rewrite H1, <- H2 in I. destruct (G2 ix I) as (_ & _ & z & _ & _ & _ & Z0). unfold f. rewrite Y, Z0. eauto. }
  destruct (nd_build_spec s f a Ps Ea) as (Sa & Wa & Ga).
  assert (NS : nd_sub_over (p_data p1) (p_data p2) (inject_Z (k * r_step r)) = Ok a).
  { unfold nd_sub_over. rewrite H1, H2, (proj2 (CmProofs.zlist_eqb_eq _ _) eq_refl). fold f. rewrite Ea. reflexivity. }
  destruct (mids_coord k r Wr K O) as (c & Gc & Wcc & Lc & Ic). pose proof (mids_len k r Wr K) as ML.
  destruct (one_update (p_cm p) d (CRange r) (CArr KInt (mids_of k r)) Wc PN J E I) as (cm' & EU & W' & D' & Nd & Gone & Kept & Dm).
  assert (RC : recf (M1 (CArr KInt (mids_of k r))) = M1 c) by (unfold recf; cbn [recoord]; rewrite Gc; reflexivity).
  assert (EU' : cm_update (p_cm p) [(d, KSimple (VArr KInt (mids_of k r)))] = Ok cm').
  { rewrite (cm_update_cong _ d _ (VCoord (M1 (CArr KInt (mids_of k r))))); [exact EU| |cbn [cval_coord recoord]; reflexivity]. apply PN, assoc_In. eauto. }
  assert (LEN : c_len (CRange r) <> c_len (CArr KInt (mids_of k r))) by (cbn [c_len]; lia).
  assert (KeptE : forall e, In e (cm_dims (p_cm p)) -> e <> d -> forall m, dim_len (p_cm p) e m -> dim_len cm' e m).
  { intros e Ie Ne m (ce & Ee & Le). destruct (recf_M1 ce) as (ce2 & Q1 & Q2 & _); [apply wf_okc; exact (wf_vals _ Wc _ _ Ee)|].
    exists ce2. rewrite (Kept e Ne), Ee; [cbn [option_map]; rewrite Q1; split; [reflexivity|lia]|].
    intros [Q _]. destruct (wf_dim_coord _ e Wc Ie) as (? & _ & _ & De). unfold dims_of in Q. rewrite De in Q. destruct Q as [Q|[]]; congruence. }
  assert (SH : Forall2 (dim_len cm') (cm_dims cm') (nd_shape a)).
  { rewrite D', Sa. unfold s. apply (put_Forall2 (dim_len (p_cm p)) (dim_len cm') (cm_dims (p_cm p)) (nd_shape (p_data p)) ax d _ (wp_shape _ W)).
    - apply (wf_dims _ Wc).
    - exact X.
    - exists c. rewrite Nd, RC. auto.
    - intros e m Ie Ne. apply KeptE; assumption. }
  assert (NE : cm_dims cm' <> []) by (rewrite D'; apply (wp_some _ W)).
  destruct (new_patch_ok cm' a W' Wa NE SH) as [EN WP].
  exists (mkPatch cm' a). split.
  - unfold pt_strain_edgeless, velocity_step. fold d. rewrite (proj2 (mem_In' _ _) J). cbn [negb String.eqb Ascii.eqb Bool.eqb].
    destruct (k <=? 0) eqn:Q; [lia|]. rewrite E. cbn [bind]. rewrite S1. cbn [bind]. rewrite S2. cbn [bind]. rewrite NS. cbn [bind]. rewrite KI, O. cbv zeta.
    change (map _ (combine _ _)) with (mids_of k r). rewrite EU'. cbn [bind]. rewrite EN. reflexivity.
  - split; cbn [p_cm p_data]; fold d; auto.
    + exists ax. split; [exact X|]. split; [exact Sa|]. rewrite Sa. intros ix i I Ni. destruct (Ga ix I) as (q & F & G). unfold f in F.
      pose proof I as I1. rewrite <- H1 in I1. destruct (G1 ix I1) as (i1 & j1 & y1 & N1 & Z1 & L1 & Y1).
      pose proof I as I2. rewrite <- H2 in I2. destruct (G2 ix I2) as (i2 & j2 & y2 & N2 & Z2 & L2 & Y2).
      rewrite Ni in N1, N2. injection N1 as <-. injection N2 as <-.
      pose proof (znth_some _ _ _ Z2) as B. rewrite zlen_zrange in B. rewrite znth_map, znth_zrange in Z1. rewrite znth_zrange in Z2.
      destruct ((0 <=? i) && (i <? r_len r - k)) eqn:Q; [|lia]. cbn [option_map] in Z1. injection Z1 as <-. injection Z2 as <-.
      rewrite Y1, Y2 in F. injection F as F. exists y2, y1, q. unfold on_line. rewrite (Z.add_comm i k). repeat split; auto. rewrite F. reflexivity.
    + exists c. rewrite Nd, RC. split; [reflexivity|]. split; [exact Lc|]. rewrite Ic. intros i z Z0. pose proof (znth_some _ _ _ Z0) as B. rewrite ML in B.
      destruct (mids_at k r i Wr K O B) as (z' & Z1 & H). congruence.
    + intros n m Nn Em ND. assert (NQ : ~ (In d (dims_of (p_cm p) n) /\ c_len (CRange r) <> c_len (CArr KInt (mids_of k r)))) by tauto.
      exists m, (recf m). cbn [p_cm]. rewrite (Kept n Nn NQ), (Dm n (or_intror NQ)), Em. split; [reflexivity|]. split; [reflexivity|].
      pose proof (wf_vals _ Wc _ _ Em) as Wm. split; [|reflexivity]. apply carried_recf; [apply wf_okm, Wm|apply carried_refl, Wm].
    + intros n Nn ND. apply (Gone n Nn ND LEN).
Qed.

(** ** Both agree *)
Lemma even_slope x0 y0 x1 y1 x2 y2 m h : (x1 == x0 + h)%Q -> (x2 == x0 + 2 * h)%Q -> ~ (h == 0)%Q -> slope_of_fit x0 y0 x1 y1 x2 y2 x1 m -> (m == (y2 - y0) / (2 * h))%Q.
Proof.
  intros E1 E2 N (a & b & c & P0 & P1 & P2 & M). unfold parabola in *. rewrite M, <- P0, <- P2, E1, E2. field. exact N.
Qed.
Lemma strain_agree s (p : patch Q) r out out' : wf_patch p -> assoc "distance"%string (cm_coords (p_cm p)) = Some (M1 (CRange r)) -> r_kind r = KInt -> 1 <= s ->
  2 * s < r_len r ->
  derivative false s (p_cm p) "distance" (p_data p) (p_data out) -> edgeless (2 * s) r p out' ->
  exists ax, nth_error (cm_dims (p_cm p)) ax = Some "distance"%string /\
  forall ix i, inb (nd_shape (p_data out')) ix -> nth_error ix ax = Some i ->
    exists q q', nd_get (p_data out') ix = Some q /\ nd_get (p_data out) (put ix ax (i + s)) = Some q' /\ (q == q')%Q.
Proof.
  intros W E KI S1 LN (_ & _ & ax & c & X & E' & H) ED. pose proof (wp_cm _ W) as Wc. rewrite E in E'. injection E' as <-. pose proof (wf_vals _ Wc _ _ E) as Wr. cbn in Wr.
  exists ax. split; [exact X|]. intros ix i I Ni. destruct (ed_data _ _ _ _ ED) as (ax' & X' & Sh & G).
  assert (ax' = ax) as -> by (eapply NoDup_nth_error; [exact (wf_dims _ Wc)|apply nth_error_Some; congruence|congruence]).
  destruct (G ix i I Ni) as (y & y' & q & L1 & L2 & Gq & Q). pose proof I as I'. rewrite Sh in I'.
  destruct (MergeProofs7.shape_at (cm_dims (p_cm p)) p ax "distance"%string W eq_refl X) as (c' & E' & N). rewrite E in E'. injection E' as <-. cbn [c_len] in N.
  assert (LX : (ax < List.length (nd_shape (p_data p)))%nat) by (apply nth_error_Some; congruence).
  assert (B : 0 <= i < r_len r - 2 * s). { destruct (TaperProofs2.inb_axis _ _ ax (r_len r - 2 * s) I') as (i' & Ni' & B); [apply nth_put_same, LX|]. congruence. }
  assert (IB : inb (nd_shape (p_data p)) (put ix ax (i + s))).
  { apply (inb_put _ _ ax _ _ I' (r_len r) N). lia. }
  assert (LI : (ax < List.length ix)%nat) by (apply nth_error_Some; congruence).
  destruct (H (put ix ax (i + s)) (i + s) IB) as (x0 & y0 & x1 & y1 & x2 & y2 & x & m & q' & A0 & A1 & A2 & Ax & O0 & O1 & O2 & F & G' & Hd); [apply nth_put_same, LI|].
  exists q, q'. split; [exact Gq|]. split; [exact G'|]. cbn [held] in Hd. rewrite Hd, Q. cbn [c_len] in *.
  assert (KM : middle s (r_len r) (i + s) = i + s). { unfold middle. destruct (i + s <? s) eqn:Q1; [lia|]. destruct (r_len r - s <=? i + s) eqn:Q2; [lia|]. reflexivity. }
  rewrite KM in *. unfold on_line in O0, O2, L1, L2. rewrite put_put in O0, O2. replace (i + s - s) with i in * by lia. replace (i + s + s) with (i + 2 * s) in * by lia.
  rewrite L1 in O0. rewrite L2 in O2. injection O0 as <-. injection O2 as <-.
  assert (LB : forall j z, 0 <= j < r_len r -> label (CRange r) j z -> z = inject_Z (r_start r + j * r_step r)).
  { intros j z Bj (w & Zw & ->). cbn [c_ints c_kind] in *. rewrite (r_values_prog r Wr), znth_progression in Zw by exact Bj. injection Zw as <-. rewrite KI. reflexivity. }
  apply LB in A0; [|lia]. apply LB in A1; [|lia]. apply LB in A2; [|lia]. apply LB in Ax; [|lia]. subst x0 x1 x2 x.
  assert (M : (m == (y' - y) / (2 * inject_Z (s * r_step r)))%Q).
  { eapply even_slope; [| | |exact F].
    - rewrite <- inject_Z_plus. apply inject_Z_injective. ring.
    - change 2%Q with (inject_Z 2). rewrite <- inject_Z_mult, <- inject_Z_plus. apply inject_Z_injective. ring.
    - change 0%Q with (inject_Z 0). rewrite inject_Z_injective. destruct Wr as (Hs & _). nia. }
  rewrite M. replace (2 * s * r_step r) with (2 * (s * r_step r)) by ring. rewrite inject_Z_mult. reflexivity.
Qed.

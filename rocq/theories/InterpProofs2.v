(** Proofs for interpolated patches (C94): coordinates and consequences. *)
From Verif Require Import Base BaseFacts CoordModel CoordSpec CoordProofs CoordProofs2 CoordProofs3 CoordProofs4 CoordProofs5 NdModel NdSpec NdProofs FrameModel FrameProofs5 ChunkModel CmModel CmSpec CmProofs CmProofs2 CmProofs3 CmProofs10 CmProofs13
  TaperProofs2 CalcProofs EdgeProofs MoveModel MoveSpec MoveProofs TrendProofs2 WaterProofs CmSpec2 CmProofs21 InterpModel InterpSpec InterpProofs.
From Coq Require Import Strings.String QArith Lqa Lia Sorted Permutation.
Local Open Scope Z_scope.
Local Open Scope list_scope.

Lemma get_coord_again k w c : get_coord_data k w = Ok c -> recoord (M1 c) = Ok (M1 c).
Proof.
  intros E. pose proof (get_coord_cases k w) as H. destruct w as [|x0 [|x1 t]].
  - rewrite E in H. injection H as ->. reflexivity.
  - rewrite E in H. injection H as ->. cbn [recoord]. rewrite E. reflexivity.
  - destruct H as [[_ F]|[[_ [F _]]|(_ & _ & s & _ & _ & _ & F)]]; rewrite E in F; injection F as ->; cbn [recoord]; rewrite ?E; reflexivity.
Qed.
Lemma concrete_kind c : concrete c -> exists k, kind_of c = Some k.
Proof. destruct c; cbn; intros H; eauto; destruct H. Qed.
Lemma rep_len c w : wf_coord c -> represents c w -> c_len c = zlen w.
Proof. intros W [L _]. rewrite <- L. symmetry. apply c_len_values, wf_okc, W. Qed.

Lemma f2_put {X Y} (P P' : X -> Y -> Prop) : forall (l : list X) (s : list Y) n m, Forall2 P l s ->
  (forall i x y, nth_error l i = Some x -> nth_error s i = Some y -> P x y -> i <> n -> P' x y) ->
  (forall x, nth_error l n = Some x -> P' x m) -> Forall2 P' l (put s n m).
Proof.
  intros l s n m F. revert n. induction F as [|x y l s A F IH]; intros n H K; [destruct n; constructor|]. destruct n as [|n]; cbn [put].
  - constructor; [apply K; reflexivity|]. clear IH K A. assert (H' : forall i x y, nth_error l i = Some x -> nth_error s i = Some y -> P x y -> P' x y) by (intros i u v Eu Ev A; apply (H (S i)); [exact Eu|exact Ev|exact A|discriminate]).
    clear H. induction F as [|u v l s A F IH]; constructor; [apply (H' 0%nat); auto|]. apply IH. intros i a b Ea Eb. apply (H' (S i)); assumption.
  - constructor; [apply (H 0%nat); auto|]. apply IH; [intros i u v Eu Ev A' N; apply (H (S i)); [exact Eu|exact Ev|exact A'|congruence]|exact K].
Qed.

Lemma f2_at {X Y} (R : X -> Y -> Prop) a b i x : Forall2 R a b -> nth_error a i = Some x -> exists y, nth_error b i = Some y /\ R x y.
Proof. intros F. revert i. induction F as [|u v a b H F IH]; intros [|i] E; try discriminate; cbn [nth_error] in *; [|apply IH, E]. injection E as <-. eauto. Qed.
Theorem interpolate_spec (p : patch Q) d ax c v w : wf_patch p -> plain_names (p_cm p) -> nth_error (cm_dims (p_cm p)) ax = Some d ->
  assoc d (cm_coords (p_cm p)) = Some (M1 c) -> c_values c = map Some v -> concrete c -> NoDup v -> 2 <= zlen v ->
  exists q, pt_interpolate d (Some w) p = Ok q /\ wf_patch q /\ relabelled (p_cm p) (p_cm q) d w (zlen w = zlen v) /\
    by_line_to (follows v w) (zlen w) ax (p_data p) (p_data q).
Proof.
  intros W PN E C V CC ND L2. pose proof (wp_cm _ W) as Wc.
  assert (Id : In d (cm_dims (p_cm p))) by (eapply nth_error_In, E).
  destruct (wf_dim_coord _ _ Wc Id) as (c0 & C0 & Wd & D). rewrite C in C0. injection C0 as <-.
  assert (Ev : c_ints c = v). { revert V CC; clear; destruct c; cbn; intros V CC; try (now destruct CC); apply map_Some_inj in V; exact V. }
  assert (Lc : zlen v = c_len c) by (rewrite <- Ev; apply wf_len; assumption).
  destruct (concrete_kind c CC) as [k K]. destruct (get_coord_represents k w) as (c' & G & R & Wc').
  pose proof (rep_len _ _ Wc' R) as Lw. pose proof (get_coord_again _ _ _ G) as RC.
  assert (RF : recf (M1 c') = M1 c') by (unfold recf; rewrite RC; reflexivity).
  destruct (axis_shape p ax d W E) as (n & En).
  assert (Nn : n = zlen v).
  { destruct (f2_at _ _ _ _ _ (wp_shape _ W) E) as (n' & En' & c1 & A1 & A2). rewrite En in En'. injection En' as <-. rewrite C in A1. injection A1 as <-. congruence. }
  subst n. pose proof (zlen_nonneg w) as Zw.
  destruct (along_to_ok (interp_line v w) (zlen w) ax (p_data p) (zlen v) (wp_nd _ W) En ltac:(lia) Zw) as (b & Eb & B).
  { intros vs _. unfold interp_line. apply EdgeProofs.zlen_map. }
  set (newf := fun x => if String.eqb x d then Some (M1 c') else None).
  assert (Nd : newf d = Some (M1 c')) by (unfold newf; rewrite String.eqb_refl; reflexivity).
  assert (No : forall x, x <> d -> newf x = None) by (intros x X; unfold newf; destruct (String.eqb_spec x d); [contradiction|reflexivity]).
  destruct (cm_update_sub (p_cm p) [(d, KTuple [d] (VCoord (M1 c')))] newf Wc PN) as (cm' & U & Wu & Du & U1 & U2 & U3).
  { split; [constructor; [intros []|constructor]|]. intros x. cbn [assoc]. destruct (String.eqb_spec x d) as [->|X].
    - cbn. exists (M1 c'), [d]. split; [exact Nd|]. split; [apply wf_okc, Wc'|]. split; [exact D|]. left. reflexivity.
    - destruct (String.eqb_spec d x); [congruence|]. apply No, X. }
  { intros x m _ Nx. destruct (String.eqb_spec x d) as [->|X]; [rewrite Nd in Nx; injection Nx as <-; eauto|rewrite No in Nx by exact X; discriminate]. }
  { intros x m ds Nx Dx _. destruct (String.eqb_spec x d) as [->|X]; [|rewrite No in Nx by exact X; discriminate]. rewrite Nd in Nx. injection Nx as <-. rewrite D in Dx. injection Dx as <-.
    constructor; [|constructor]. exists c'. unfold latest. rewrite Nd. split; reflexivity. }
  destruct (U1 d _ Nd) as [Cd Dd]. rewrite RF in Cd.
  assert (OTH : forall x m, x <> d -> assoc x (cm_coords (p_cm p)) = Some m -> ~ resized (p_cm p) newf x -> recoord m = Ok (recf m) /\ assoc x (cm_coords cm') = Some (recf m) /\ m_shape (recf m) = m_shape m).
  { intros x m X M NR. destruct (U3 x (No x X) NR) as [Q1 _]. rewrite M in Q1. cbn in Q1. destruct (recf_spec m) as (Q2 & Q3 & _); [apply wf_okm, (wf_vals _ Wc _ _ M)|]. auto. }
  assert (DIM : forall x n, In x (cm_dims (p_cm p)) -> x <> d -> dim_len (p_cm p) x n -> dim_len cm' x n).
  { intros x n Ix X (cx & Ax & Lx). destruct (wf_dim_coord _ _ Wc Ix) as (cx' & Ax' & Wx & Dx). rewrite Ax in Ax'. injection Ax' as <-.
    destruct (OTH x _ X Ax) as (_ & Q2 & _).
    { intros (ds & y & u & u' & Q1 & Q2 & Q3 & _). rewrite Dx in Q1. injection Q1 as <-. destruct Q2 as [<-|[]]. rewrite No in Q3 by exact X. discriminate. }
    destruct (recf_M1 cx (wf_okc _ Wx)) as (cy & Qy & Ly & _). exists cy. rewrite Q2, Qy. split; [reflexivity|congruence]. }
  destruct (new_patch_ok cm' b Wu) as [NP WP].
  { apply (proj1 B). }
  { rewrite Du. apply (wp_some _ W). }
  { rewrite Du, (proj1 (proj2 B)). apply (f2_put (dim_len (p_cm p))); [apply (wp_shape _ W)| |].
    - intros i x y Ex Ey H N. apply DIM; [eapply nth_error_In, Ex| |exact H]. intros ->. apply N. eapply (proj1 (NoDup_nth_error _) (wf_dims _ Wc)); [apply nth_error_Some; congruence|congruence].
    - intros x Ex. rewrite E in Ex. injection Ex as <-. exists c'. split; [exact Cd|exact Lw]. }
  exists (mkPatch cm' b). split; [|split; [exact WP|split]].
  - unfold pt_interpolate. rewrite (axis_index p ax d W E), C, D, K, Ev. cbn [bind].
    rewrite (proj2 (Z.leb_le _ _) L2), (nodup_distinct _ ND). cbn [andb]. rewrite Eb. cbn [opt_result bind]. rewrite G. cbn [bind]. rewrite U. exact NP.
  - split; [exact Du|]. split; [exists c'; split; [exact Cd|exact R]|]. intros x ds X Dx.
    destruct (con_coord _ (wf_con _ Wc) x ds Dx) as (m & M & _). split.
    + intros [Ix NL]. apply (U2 x (No x X)). exists ds, d, c, c'. split; [exact Dx|]. split; [exact Ix|]. split; [exact Nd|]. split; [exact C|]. intro. apply NL. congruence.
    + intros H. assert (NR : ~ resized (p_cm p) newf x).
      { intros (ds' & y & u & u' & Q1 & Q2 & Q3 & Q4 & Q5). rewrite Dx in Q1. injection Q1 as <-. destruct (String.eqb_spec y d) as [->|Y]; [|rewrite No in Q3 by exact Y; discriminate].
        rewrite Nd in Q3. injection Q3 as <-. rewrite C in Q4. injection Q4 as <-. destruct H as [H|H]; [contradiction|]. apply Q5. congruence. }
      destruct (OTH x m X M NR) as (Q1 & Q2 & _). exists m, (recf m). split; [exact M|]. split; [exact Q1|]. split; [exact Q2|]. cbn [p_cm]. rewrite (proj2 (U3 x (No x X) NR)). exact Dx.
  - destruct B as (B1 & B2 & B3). split; [exact B1|]. split; [exact B2|]. intros ix f I Lf. destruct (B3 ix f I Lf) as (g & Lg & ->). exists (interp_line v w f). split; [exact Lg|].
    apply interp_ok; [exact ND|exact L2|]. destruct Lf as [Lf _]. congruence.
Qed.

Lemma valued_eq v f a y y' : NoDup v -> valued v f a y -> valued v f a y' -> y = y'.
Proof.
  intros N (i & A & B) (j & A' & B'). assert (i = j); [|congruence].
  assert (H : forall (l : list Z) i, znth l i = Some a -> 0 <= i /\ nth_error l (Z.to_nat i) = Some a).
  { intros l k H. unfold znth in H. destruct (k <? 0) eqn:K; [discriminate|]. split; [lia|exact H]. }
  destruct (H _ _ A) as [P Q0], (H _ _ A') as [P' Q']. assert (Z.to_nat i = Z.to_nat j); [|lia].
  apply (proj1 (NoDup_nth_error _) N); [apply nth_error_Some; congruence|congruence].
Qed.
Lemma valued_in v f a y : valued v f a y -> In a v.
Proof. intros (i & A & _). unfold znth in A. destruct (i <? 0); [discriminate|]. eapply nth_error_In, A. Qed.
Lemma pos_q a b : a < b -> (0 < inject_Z (b - a))%Q.
Proof. intros H. change 0%Q with (inject_Z 0). rewrite <- Zlt_Qlt. lia. Qed.
Lemma cancel (a b c : Q) : (0 < c -> a * c == b * c -> a == b)%Q.
Proof. intros P H. apply (Qmult_inj_r _ _ c); [|exact H]. intro Z0. rewrite Z0 in P. discriminate P. Qed.
Lemma inj_sub a b : (inject_Z (a - b) == inject_Z a - inject_Z b)%Q.
Proof. unfold Z.sub. rewrite inject_Z_plus, inject_Z_opp. reflexivity. Qed.

Lemma line_kept v f x y y0 : NoDup v -> on_line v f x y -> valued v f x y0 -> (y == y0)%Q.
Proof.
  intros N (a & b & ya & yb & A & B & L & G & E & R) V. pose proof (pos_q _ _ L) as P. pose proof (valued_in _ _ _ _ V) as I.
  assert (H : x = a \/ x = b). { destruct (G x I); destruct R as [R|[[R K]|[R K]]]; try lia; specialize (K x I); lia. }
  apply (cancel _ _ _ P). destruct H as [-> | ->].
  - rewrite (valued_eq _ _ _ _ _ N V A). rewrite Z.sub_diag in E. change (inject_Z 0) with 0%Q in E. lra.
  - rewrite (valued_eq _ _ _ _ _ N V B). lra.
Qed.
Lemma line_straight v f x y s t : on_line v f x y -> (forall a z, valued v f a z -> z == s * inject_Z a + t)%Q -> (y == s * inject_Z x + t)%Q.
Proof.
  intros (a & b & ya & yb & A & B & L & _ & E & _) H. pose proof (pos_q _ _ L) as P. apply (cancel _ _ _ P).
  pose proof (H _ _ A) as Ha. pose proof (H _ _ B) as Hb. rewrite Ha, Hb in E. rewrite !inj_sub in *. 
  setoid_replace (y * (inject_Z b - inject_Z a))%Q with ((y - (s * inject_Z a + t)) * (inject_Z b - inject_Z a) + (s * inject_Z a + t) * (inject_Z b - inject_Z a))%Q by ring.
  rewrite E. ring.
Qed.
Lemma line_between v f x y lo hi : on_line v f x y -> In lo v -> In hi v -> lo <= x <= hi ->
  exists a b ya yb, valued v f a ya /\ valued v f b yb /\ a <= x <= b /\ (forall c, In c v -> c <= a \/ b <= c) /\ (ya <= y <= yb \/ yb <= y <= ya)%Q.
Proof.
  intros (a & b & ya & yb & A & B & L & G & E & R) Il Ih X. pose proof (pos_q _ _ L) as P.
  assert (Rx : a <= x <= b) by (destruct R as [R|[[R K]|[R K]]]; [exact R|specialize (K lo Il); lia|specialize (K hi Ih); lia]).
  exists a, b, ya, yb. split; [exact A|]. split; [exact B|]. split; [exact Rx|]. split; [exact G|].
  assert (P1 : (0 <= inject_Z (x - a))%Q) by (change 0%Q with (inject_Z 0); rewrite <- Zle_Qle; lia).
  assert (P2 : (inject_Z (x - a) <= inject_Z (b - a))%Q) by (rewrite <- Zle_Qle; lia).
  set (h := inject_Z (b - a)) in *. set (k := inject_Z (x - a)) in *. clearbody h k.
  destruct (Qlt_le_dec ya yb) as [M|M]; [left|right]; split; apply (Qmult_le_r _ _ h P); nra.
Qed.

Lemma even_samples (p : patch Q) d c : In d (cm_dims (p_cm p)) -> wf_patch p -> assoc d (cm_coords (p_cm p)) = Some (M1 c) -> concrete c -> can_snap c ->
  exists c' w, snapped (M1 c) (M1 c') /\ c_values c' = map Some w /\ zlen w = c_len c /\ pt_interpolate d None p = pt_interpolate d (Some w) p.
Proof.
  intros I W C CC CS. destruct (m_snap_can c CS) as (o & Eo & Sn & c' & Ec & Lc). unfold snapm in *. rewrite Eo in *.
  assert (V : forall c', concrete c' -> c_values c' = map Some (c_ints c')) by (intros [ | | | ]; cbn; tauto).
  destruct (wf_dim_coord _ _ (wp_cm _ W) I) as (c0 & C0 & Wd & _). rewrite C in C0. injection C0 as <-.
  assert (O : pt_interpolate d None p = pt_interpolate d (Some (c_ints c')) p).
  { unfold pt_interpolate. rewrite C. rewrite Eo. cbn [bind]. destruct o as [c1|]; injection Ec as <-; reflexivity. }
  assert (CC' : concrete c' /\ okc c').
  { destruct o as [c1|]; injection Ec as <-; [|split; [exact CC|apply wf_okc, Wd]]. destruct c as [r|[] v|[] v|n]; cbn [m_snap can_snap] in Eo, CS; try discriminate; try contradiction.
    - destruct (snap_can true v CS) as (r & Es & _ & Ev). rewrite Es in Eo. injection Eo as <-. split; [exact Logic.I|]. destruct Ev as (r' & mn & mx & Er & Ev). injection Er as <-. cbn. apply Ev.
    - destruct (snap_can false v CS) as (r & Es & _ & Ev). rewrite Es in Eo. injection Eo as <-. split; [exact Logic.I|]. destruct Ev as (r' & mn & mx & Er & Ev). injection Er as <-. cbn. apply Ev. }
  exists c', (c_ints c'). rewrite Ec in Sn. split; [exact Sn|]. split; [apply V, CC'|]. split; [|exact O].
  rewrite <- Lc, <- (c_len_values c' (proj2 CC')), (V _ (proj1 CC')). symmetry. apply EdgeProofs.zlen_map.
Qed.

Theorem interpolate_ok (p : patch Q) d ax v w : wf_patch p -> plain_names (p_cm p) -> labelled p d ax v ->
  exists q, pt_interpolate d (Some w) p = Ok q /\ wf_patch q /\ relabelled (p_cm p) (p_cm q) d w (zlen w = zlen v) /\
    by_line_to (follows v w) (zlen w) ax (p_data p) (p_data q).
Proof. intros W PN (E & N & L & c & C & V & CC). eapply interpolate_spec; eassumption. Qed.
Lemma lines_follow (p q : patch Q) d ax v w ix f g : wf_patch p -> plain_names (p_cm p) -> labelled p d ax v -> pt_interpolate d (Some w) p = Ok q ->
  inb (nd_shape (p_data p)) ix -> line (p_data p) ax ix f -> line (p_data q) ax ix g -> follows v w f g /\ zlen f = zlen v.
Proof.
  intros W PN LB E I Lf Lg. destruct (interpolate_ok p d ax v w W PN LB) as (q' & E' & _ & _ & _ & _ & B). rewrite E in E'. injection E' as <-.
  destruct (B ix f I Lf) as (g' & Lg' & F). rewrite (line_eq _ _ _ _ _ Lg Lg'). split; [exact F|].
  destruct LB as (Ed & _ & _ & c & C & V & CC). destruct (f2_at _ _ _ _ _ (wp_shape _ W) Ed) as (n & En & c1 & A1 & A2). rewrite C in A1. injection A1 as <-.
  destruct Lf as [Lf _]. rewrite Lf in En. injection En as ->. rewrite <- A2, <- (c_len_values c), V by (apply wf_okc; eapply (wf_vals _ (wp_cm _ W) d (M1 c)), C). apply EdgeProofs.zlen_map.
Qed.
Lemma at_new v w f g j x : follows v w f g -> znth w j = Some x -> exists y, znth g j = Some y /\ on_line v f x y.
Proof.
  intros [L F] X. destruct (proj2 (znth_range g j)) as [y Y]; [rewrite L; eapply znth_lt, X|]. exists y. split; [exact Y|]. eapply F; eassumption.
Qed.
Theorem interpolate_kept (p q : patch Q) d ax v w ix f g i j x : wf_patch p -> plain_names (p_cm p) -> labelled p d ax v -> pt_interpolate d (Some w) p = Ok q ->
  inb (nd_shape (p_data p)) ix -> line (p_data p) ax ix f -> line (p_data q) ax ix g -> znth v i = Some x -> znth w j = Some x ->
  exists y z, znth f i = Some y /\ znth g j = Some z /\ (z == y)%Q.
Proof.
  intros W PN LB E I Lf Lg Vi Wj. destruct (lines_follow _ _ _ _ _ _ _ _ _ W PN LB E I Lf Lg) as [F L]. destruct (at_new _ _ _ _ _ _ F Wj) as (z & Z1 & O).
  destruct (proj2 (znth_range f i)) as [y Y]; [rewrite L; eapply znth_lt, Vi|]. exists y, z. split; [exact Y|]. split; [exact Z1|]. eapply line_kept; [apply LB|exact O|]. exists i. split; assumption.
Qed.
Theorem interpolate_straight (p q : patch Q) d ax v w ix f g s t : wf_patch p -> plain_names (p_cm p) -> labelled p d ax v -> pt_interpolate d (Some w) p = Ok q ->
  inb (nd_shape (p_data p)) ix -> line (p_data p) ax ix f -> line (p_data q) ax ix g ->
  (forall i x y, znth v i = Some x -> znth f i = Some y -> y == s * inject_Z x + t)%Q ->
  forall j x, znth w j = Some x -> exists y, znth g j = Some y /\ (y == s * inject_Z x + t)%Q.
Proof.
  intros W PN LB E I Lf Lg H j x Wj. destruct (lines_follow _ _ _ _ _ _ _ _ _ W PN LB E I Lf Lg) as [F L]. destruct (at_new _ _ _ _ _ _ F Wj) as (z & Z1 & O).
  exists z. split; [exact Z1|]. eapply line_straight; [exact O|]. intros a y (i & A1 & A2). eapply H; eassumption.
Qed.
Theorem interpolate_between (p q : patch Q) d ax v w ix f g : wf_patch p -> plain_names (p_cm p) -> labelled p d ax v -> pt_interpolate d (Some w) p = Ok q ->
  inb (nd_shape (p_data p)) ix -> line (p_data p) ax ix f -> line (p_data q) ax ix g ->
  forall j x lo hi, znth w j = Some x -> In lo v -> In hi v -> lo <= x <= hi ->
  exists y a b ya yb, znth g j = Some y /\ valued v f a ya /\ valued v f b yb /\ a <= x <= b /\ (forall c, In c v -> c <= a \/ b <= c) /\ (ya <= y <= yb \/ yb <= y <= ya)%Q.
Proof.
  intros W PN LB E I Lf Lg j x lo hi Wj Il Ih X. destruct (lines_follow _ _ _ _ _ _ _ _ _ W PN LB E I Lf Lg) as [F L]. destruct (at_new _ _ _ _ _ _ F Wj) as (z & Z1 & O).
  exists z. destruct (line_between _ _ _ _ _ _ O Il Ih X) as (a & b & ya & yb & H). exists a, b, ya, yb. split; [exact Z1|exact H].
Qed.
Theorem interpolate_even (p : patch Q) d ax v c : wf_patch p -> labelled p d ax v -> assoc d (cm_coords (p_cm p)) = Some (M1 c) -> can_snap c ->
  exists c' w, snapped (M1 c) (M1 c') /\ c_values c' = map Some w /\ zlen w = zlen v /\ pt_interpolate d None p = pt_interpolate d (Some w) p.
Proof.
  intros W (E & _ & _ & c1 & C1 & V & CC) C CS. rewrite C in C1. injection C1 as <-. destruct (even_samples p d c (nth_error_In _ _ E) W C CC CS) as (c' & w & S & Vw & Lw & Ew).
  exists c', w. split; [exact S|]. split; [exact Vw|]. split; [|exact Ew]. rewrite Lw, <- (c_len_values c), V by (apply wf_okc; eapply (wf_vals _ (wp_cm _ W) d (M1 c)), C). apply EdgeProofs.zlen_map.
Qed.
Theorem interpolate_refused (p : patch Q) d s : ~ In d (cm_dims (p_cm p)) -> pt_interpolate d s p = Err ParameterError.
Proof. intros H. unfold pt_interpolate. rewrite (proj2 (index_of_None _ _) H). reflexivity. Qed.

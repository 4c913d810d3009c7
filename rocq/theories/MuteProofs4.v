(** Facts behind MuteProps.v: slopes. *)
From Verif Require Import Base BaseFacts CoordModel CoordSpec CoordProofs NdModel NdSpec FrameModel
  ChunkModel CmModel CmSpec ProcModel MuteModel MuteSpec MuteProofs MuteProofs2 MuteProofs3.
From Coq Require Import Strings.String QArith Qabs Lqa Setoid Qfield Lia ZifyBool.
Local Open Scope Q_scope.

Definition same (d e : point) : Prop := fst d == fst e /\ snd d == snd e.
Lemma along_same rx ry d d' e e' : same d d' -> same e e' -> along rx ry d e == along rx ry d' e'.
Proof. intros [A B] [C D]. unfold along. rewrite A, B, C, D. reflexivity. Qed.
Lemma area_same d d' e e' : same d d' -> same e e' -> area d e == area d' e'.
Proof. intros [A B] [C D]. unfold area. rewrite A, B, C, D. reflexivity. Qed.

(** Above a slope is negative, below it positive. *)
Definition side (s : slope) (x y : Q) : Q := match s with SFin q => q * y - x | SInf => y end.
Definition forward (d : point) : Prop := 0 <= fst d /\ 0 <= snd d /\ 0 < fst d + snd d.

Lemma segment_side w s : 0 < w -> slope_ok s ->
  forward (segment w s) /\ exists k, 0 < k /\ forall x y, fst (segment w s) * y - snd (segment w s) * x == k * side s x y.
Proof.
  intros W O. destruct s as [q|]; cbn [segment side].
  - destruct (Qeq_bool q 0) eqn:E.
    + apply Qeq_bool_iff in E. split; [unfold forward; cbn; lra|]. exists 1. split; [lra|]. intros x y. cbn [fst snd]. rewrite E. ring.
    + assert (N : ~ q == 0) by (intros H; apply Qeq_bool_iff in H; congruence).
      assert (Q : 0 < q) by (destruct O; [contradiction|lra]).
      assert (K : 0 < w / q) by (apply Qlt_shift_div_l; lra).
      split; [unfold forward; cbn [fst snd]; lra|]. exists (w / q). split; [exact K|]. intros x y. cbn [fst snd]. field. exact N.
  - split; [unfold forward; cbn; lra|]. exists 1. split; [lra|]. intros x y. cbn [fst snd]. ring.
Qed.

Lemma between_side s1 s2 x y : 0 <= x -> 0 <= y -> (slope_between s1 s2 (x, y) <-> side s1 x y * side s2 x y < 0).
Proof.
  intros X Y. assert (A : forall s, above s x y <-> side s x y < 0).
  { intros [q|]; cbn; [split; intros; lra|]. split; [contradiction|lra]. }
  assert (B : forall s, below s x y <-> 0 < side s x y) by (intros [q|]; cbn; split; intros; lra).
  unfold slope_between. cbn [fst snd]. rewrite !A, !B. set (a := side s1 x y). set (b := side s2 x y).
  split; [intros [[H K]|[H K]]; nra|]. intros H. destruct (Qlt_le_dec a 0) as [L|L]; [left; split; [exact L|nra]|].
  assert (B0 : b < 0) by nra. right. split; [exact B0|].
  destruct (Qlt_le_dec 0 a) as [P|P]; [exact P|]. assert (Z : a == 0) by lra. rewrite Z in H. lra.
Qed.

Section Two.
Variables rx ry : Q.
Hypothesis Rx : 0 < rx.
Hypothesis Ry : 0 < ry.
Local Notation nx := (nz_x rx Rx).
Local Notation ny := (nz_y ry Ry).

Lemma slope_inside w s1 s2 d1 d2 o1 o2 par x y : 0 < w -> slope_ok s1 -> slope_ok s2 ->
  same d1 (segment w s1) -> same d2 (segment w s2) -> same o1 (0, 0) -> same o2 (0, 0) -> 0 <= x -> 0 <= y ->
  (inside (mkGeo (Some o1) (Some o2) (scale rx ry d1) (scale rx ry d2) par) rx ry (x, y) = true <-> slope_between s1 s2 (x, y)).
Proof.
  intros W K1 K2 [D1x D1y] [D2x D2y] [O1x O1y] [O2x O2y] X Y.
  destruct (segment_side w s1 W K1) as ((F1 & G1 & H1) & k1 & P1 & E1).
  destruct (segment_side w s2 W K2) as ((F2 & G2 & H2) & k2 & P2 & E2).
  rewrite (between_side s1 s2 x y X Y).
  set (a1 := fst (segment w s1)) in *. set (b1 := snd (segment w s1)) in *.
  set (a2 := fst (segment w s2)) in *. set (b2 := snd (segment w s2)) in *. specialize (E1 x y). specialize (E2 x y).
  cbn [fst snd] in *.
  set (t1 := side s1 x y) in *. set (t2 := side s2 x y) in *.
  unfold inside. cbn [g_o1 g_o2 g_v1 g_v2 g_parallel]. rewrite Bool.andb_true_iff, Bool.orb_true_iff, Bool.andb_true_iff, !Qltb_lt.
  unfold cross, dot, scale, sub. cbn [fst snd]. rewrite D1x, D1y, D2x, D2y, O1x, O1y, O2x, O2y.
  assert (C1 : a1 / rx * ((y - 0) / ry) - b1 / ry * ((x - 0) / rx) == k1 * t1 / (rx * ry)) by (rewrite <- E1; field; split; (exact nx || exact ny)).
  assert (C2 : a2 / rx * ((y - 0) / ry) - b2 / ry * ((x - 0) / rx) == k2 * t2 / (rx * ry)) by (rewrite <- E2; field; split; (exact nx || exact ny)).
  rewrite C1, C2.
  assert (M : 0 < rx * ry) by nra.
  set (m := k1 * k2 / (rx * ry * (rx * ry))).
  assert (Mp : 0 < m) by (unfold m; apply Qlt_shift_div_l; nra).
  assert (C3 : k1 * t1 / (rx * ry) * (k2 * t2 / (rx * ry)) == m * (t1 * t2)) by (unfold m; field; split; (exact nx || exact ny)).
  rewrite C3. split; [intros [H _]; nra|]. intros H. split; [nra|]. right.
  assert (Z : (a1 * y - b1 * x) * (a2 * y - b2 * x) < 0) by (rewrite E1, E2; assert (0 < k1 * k2) by nra; nra).
  assert (Xp : 0 < x).
  { destruct (Qlt_le_dec 0 x); [assumption|]. exfalso. assert (x == 0) as X0 by lra. rewrite X0 in Z. assert (0 <= a1 * a2) by nra. nra. }
  assert (Yp : 0 < y).
  { destruct (Qlt_le_dec 0 y); [assumption|]. exfalso. assert (y == 0) as Y0 by lra. rewrite Y0 in Z. assert (0 <= b1 * b2) by nra. nra. }
  assert (U : forall a b, 0 <= a -> 0 <= b -> 0 < a + b -> 0 < a / rx * ((x - 0) / rx) + b / ry * ((y - 0) / ry)).
  { intros a b A B S. set (p := x / (rx * rx)). set (q := y / (ry * ry)).
    assert (Pp : 0 < p) by (unfold p; apply Qlt_shift_div_l; nra). assert (Qp : 0 < q) by (unfold q; apply Qlt_shift_div_l; nra).
    assert (E : a / rx * ((x - 0) / rx) + b / ry * ((y - 0) / ry) == a * p + b * q) by (unfold p, q; field; split; (exact nx || exact ny)).
    rewrite E. destruct (Qlt_le_dec 0 a); nra. }
  split; apply U; assumption.
Qed.

Lemma forward_along d e : forward d -> forward e -> 0 <= along rx ry d e.
Proof.
  intros (A & B & _) (C & D & _). unfold along.
  assert (0 <= fst d * fst e / (rx * rx)) by (apply Qle_shift_div_l; nra).
  assert (0 <= snd d * snd e / (ry * ry)) by (apply Qle_shift_div_l; nra). lra.
Qed.

Lemma segment_long w s : 0 < w -> rx <= 2 * w -> slope_ok s -> rx <= 1000000000 -> ry <= 1000000000 -> ~ too_short rx ry (segment w s).
Proof.
  intros W L O Bx By. unfold too_short, along.
  assert (Sq : forall u v, 0 < v -> 0 <= u * u / (v * v)) by (intros u v V; apply Qle_shift_div_l; nra).
  destruct s as [q|]; cbn [segment].
  - destruct (Qeq_bool q 0); cbn [fst snd].
    + pose proof (Sq 0 rx Rx). assert (1 # 1000000000000000000 <= 1 * 1 / (ry * ry)) by (apply Qle_shift_div_l; nra). lra.
    + pose proof (Sq (w / q) ry Ry). assert (1 # 1000000000000000000 <= w * w / (rx * rx)) by (apply Qle_shift_div_l; nra). lra.
  - cbn [fst snd]. pose proof (Sq 0 ry Ry). assert (1 # 1000000000000000000 <= 1 * 1 / (rx * rx)) by (apply Qle_shift_div_l; nra). lra.
Qed.

Lemma slope_geometry w s1 s2 l1 l2 f : 0 < w -> rx <= 2 * w -> slope_ok s1 -> slope_ok s2 -> rx <= 1000000000 -> ry <= 1000000000 ->
  same (fst l1) (0, 0) -> same (fst l2) (0, 0) -> same (dir l1) (segment w s1) -> same (dir l2) (segment w s2) ->
  near_parallel rx ry (segment w s1) (segment w s2) \/ 1 # 100000000 < Qabs (area (segment w s1) (segment w s2)) ->
  exists g, get_geometry rx ry l1 l2 f = Ok g /\
    forall x y, 0 <= x -> 0 <= y -> (inside g rx ry (x, y) = true <-> slope_between s1 s2 (x, y)).
Proof.
  intros W L K1 K2 Bx By O1 O2 D1 D2 C.
  assert (T1 : ~ too_short rx ry (dir l1)).
  { unfold too_short. rewrite (along_same rx ry _ _ _ _ D1 D1). apply segment_long; assumption. }
  assert (T2 : ~ too_short rx ry (dir l2)).
  { unfold too_short. rewrite (along_same rx ry _ _ _ _ D2 D2). apply segment_long; assumption. }
  assert (A : 0 <= along rx ry (dir l1) (dir l2)).
  { rewrite (along_same rx ry _ _ _ _ D1 D2). apply forward_along; apply segment_side; assumption. }
  assert (Np : near_parallel rx ry (dir l1) (dir l2) <-> near_parallel rx ry (segment w s1) (segment w s2)).
  { unfold near_parallel. rewrite (along_same rx ry _ _ _ _ D1 D2), (along_same rx ry _ _ _ _ D1 D1), (along_same rx ry _ _ _ _ D2 D2). reflexivity. }
  assert (V : forall o1 o2 v1 v2 d1 d2, v1 = scale rx ry d1 -> v2 = scale rx ry d2 -> d1 = dir l1 -> d2 = dir l2 -> same o1 (0, 0) -> same o2 (0, 0) ->
     forall par x y, 0 <= x -> 0 <= y -> (inside (mkGeo (Some o1) (Some o2) v1 v2 par) rx ry (x, y) = true <-> slope_between s1 s2 (x, y))).
  { intros o1 o2 v1 v2 d1 d2 -> -> -> -> H1 H2 par x y X Y. apply (slope_inside w); assumption. }
  destruct (Qlt_le_dec ((999999999 # 1000000000) * (999999999 # 1000000000) *
     (along rx ry (dir l1) (dir l1) * along rx ry (dir l2) (dir l2))) (along rx ry (dir l1) (dir l2) * along rx ry (dir l1) (dir l2))) as [P|P].
  - unfold get_geometry. change (sub (snd l1) (fst l1)) with (dir l1). change (sub (snd l2) (fst l2)) with (dir l2).
    cbv zeta. rewrite (not_true _ _ (short_test rx ry Rx Ry _) T1), (not_true _ _ (short_test rx ry Rx Ry _) T2). cbn [orb].
    rewrite (proj2 (parallel_test rx ry Rx Ry _ _) P). cbn [fst snd].
    assert (E : Qle_bool 0 (dot (scale rx ry (dir l1)) (scale rx ry (dir l2))) = true)
      by (apply Qle_bool_iff; rewrite (dot_scale rx ry Rx Ry); exact A).
    rewrite E. eexists. split; [reflexivity|].
    apply (V _ _ _ _ (dir l1) (dir l2)); auto.
  - assert (P' : ~ near_parallel rx ry (dir l1) (dir l2)) by (unfold near_parallel; lra).
    rewrite (geometry_plain rx ry Rx Ry l1 l2 f T1 T2 P'), (proj2 (Qle_bool_iff _ _) A).
    destruct C as [C|C]; [destruct P'; apply Np; exact C|]. rewrite <- (area_same _ _ _ _ D1 D2) in C.
    destruct (intersection_spec l1 l2 (0, 0)) as (o & X & Ox & Oy); [| |exact C|].
    + unfold on_line, area. destruct O1 as [O1x O1y]. cbn [fst snd] in *. rewrite O1x, O1y. ring.
    + unfold on_line, area. destruct O2 as [O2x O2y]. cbn [fst snd] in *. rewrite O2x, O2y. ring.
    + rewrite X. eexists. split; [reflexivity|]. apply (V _ _ _ _ (dir l1) (dir l2)); auto; split; assumption.
Qed.
End Two.

(** ** The patch function *)
Lemma number_add r a b : number r a + number r b == number r (a + b).
Proof. unfold number, inject_Z, Qeq, Qplus. destruct (r_kind r); cbn; lia. Qed.

Lemma up_lowest r : wf_range r -> (0 < r_step r)%Z -> lowest r = r_start r.
Proof. intros (_ & Hn & _) Hs. unfold lowest. nia. Qed.
Lemma up_highest r : wf_range r -> (0 < r_step r)%Z -> highest r = (r_start r + (r_len r - 1) * r_step r)%Z.
Proof. intros (_ & Hn & _) Hs. unfold highest. nia. Qed.
Lemma up_ends r : wf_range r -> (0 < r_step r)%Z ->
  ends (CRange r) = Ok (number r (r_start r), number r ((r_len r - 1) * r_step r)).
Proof.
  intros W Hs. unfold ends. cbn [c_ints]. rewrite (r_values_prog r W), zlen_progression.
  destruct W as (_ & Hn & _). rewrite Z.max_r by lia. rewrite !znth_progression by lia.
  replace (r_start r + 0 * r_step r)%Z with (r_start r) by lia.
  replace (r_start r + (r_len r - 1) * r_step r - r_start r)%Z with ((r_len r - 1) * r_step r)%Z by lia. reflexivity.
Qed.
Lemma up_sample r i : wf_range r -> (0 < r_step r)%Z -> (0 <= i)%Z -> 0 <= sample_at r i.
Proof.
  intros W Hs Hi. unfold sample_at. rewrite num_sub, (up_lowest r W Hs). apply num_nonneg. nia.
Qed.
Lemma up_sorted {A} (p : patch A) d r : assoc d (cm_coords (p_cm p)) = Some (M1 (CRange r)) -> (0 < r_step r)%Z ->
  sorted_coord p d = Ok (CRange r).
Proof.
  intros E H. unfold sorted_coord, coord_of. rewrite E. cbn [bind c_sorted]. unfold r_sorted.
  rewrite (proj2 (Z.leb_le _ _)) by lia. reflexivity.
Qed.

Lemma slope_bounds r1 r2 w s b : wf_range r1 -> wf_range r2 -> (0 < r_step r1)%Z -> (0 < r_step r2)%Z -> slope_ok s ->
  b = slope_line (number r1 (r_start r1)) (number r2 (r_start r2)) w s ->
  exists l, bound_line r1 r2 false (fst b) (snd b) l false /\ same (fst l) (0, 0) /\ same (dir l) (segment w s).
Proof.
  intros W1 W2 H1 H2 O ->. destruct s as [q|]; cbn [slope_line segment].
  - destruct (Qle_bool (Qabs q) (1 # 100000000)) eqn:E.
    + apply Qle_bool_iff in E. assert (Z : q == 0) by (destruct O as [O|O]; [exact O|]; rewrite Qabs_pos in E by lra; lra).
      rewrite (proj2 (Qeq_bool_iff _ _) Z). eexists. split; [apply bl_pair|]. unfold same, dir, place.
      rewrite (up_lowest r1 W1 H1), (up_lowest r2 W2 H2). cbn [fst snd]. repeat split; ring.
    + assert (N : Qeq_bool q 0 = false).
      { destruct (Qeq_bool q 0) eqn:Z; [|reflexivity]. apply Qeq_bool_iff in Z.
        assert (Qabs q <= 1 # 100000000) by (rewrite Z; discriminate). apply Qle_bool_iff in H. congruence. }
      rewrite N. eexists. split; [apply bl_pair|]. unfold same, dir, place.
      rewrite (up_lowest r1 W1 H1), (up_lowest r2 W2 H2). cbn [fst snd]. repeat split; ring.
  - eexists. split; [apply bl_pair|]. unfold same, dir, place.
    rewrite (up_lowest r1 W1 H1), (up_lowest r2 W2 H2). cbn [fst snd]. repeat split; ring.
Qed.

Lemma slope_region {A} (mul : A -> Q -> A) p s1 s2 invert d1 d2 ds r1 r2 : wf_patch p ->
  cm_dims (p_cm p) = d1 :: d2 :: ds ->
  assoc d1 (cm_coords (p_cm p)) = Some (M1 (CRange r1)) -> assoc d2 (cm_coords (p_cm p)) = Some (M1 (CRange r2)) ->
  (0 < r_step r1)%Z -> (0 < r_step r2)%Z -> (2 <= r_len r1)%Z -> slope_ok s1 -> slope_ok s2 ->
  extent r1 <= 1000000000 -> extent r2 <= 1000000000 ->
  (let w := number r1 ((r_len r1 - 1) * r_step r1) in
   near_parallel (extent r1) (extent r2) (segment w s1) (segment w s2) \/
   1 # 100000000 < Qabs (area (segment w s1) (segment w s2))) ->
  exists q, pt_slope_mute mul p s1 s2 d1 d2 invert = Ok q /\
    muted mul p q invert (sample_in r1 r2 0 1 (slope_between s1 s2)).
Proof.
  intros W D E1 E2 H1 H2 N K1 K2 X1 X2 C. cbv zeta in C. set (w := number r1 ((r_len r1 - 1) * r_step r1)) in *.
  assert (W1 : wf_range r1) by apply (wf_vals _ (wp_cm _ W) _ _ E1).
  assert (W2 : wf_range r2) by apply (wf_vals _ (wp_cm _ W) _ _ E2).
  unfold pt_slope_mute.
  assert (Ne : existsb (fun s => match s with SFin q => Qltb q 0 | SInf => false end) [s1; s2] = false).
  { assert (G : forall s, slope_ok s -> match s with SFin q => Qltb q 0 | SInf => false end = false).
    { intros [q|] O; [|reflexivity]. apply Qltb_ge. destruct O; lra. }
    cbn [existsb]. rewrite (G s1 K1), (G s2 K2). reflexivity. }
  rewrite Ne, (up_sorted p d1 r1 E1 H1), (up_sorted p d2 r2 E2 H2). cbn [bind].
  rewrite (up_ends r1 W1 H1), (up_ends r2 W2 H2). cbn [bind fst snd]. fold w.
  destruct (slope_bounds r1 r2 w s1 _ W1 W2 H1 H2 K1 eq_refl) as (l1 & B1 & O1 & D1).
  destruct (slope_bounds r1 r2 w s2 _ W1 W2 H1 H2 K2 eq_refl) as (l2 & B2 & O2 & D2).
  set (b1 := slope_line (number r1 (r_start r1)) (number r2 (r_start r2)) w s1) in *.
  set (b2 := slope_line (number r1 (r_start r1)) (number r2 (r_start r2)) w s2) in *.
  destruct (mute2_eq mul p invert false d1 d2 0 1 d1 d2 ds r1 r2 r1 r2 (fst b1, fst b2) (snd b1, snd b2) l1 l2 false false W D)
    as (f & _ & _ & M); try (rewrite D; reflexivity); try assumption.
  destruct (slope_geometry (extent r1) (extent r2) (extent_pos r1 W1) (extent_pos r2 W2) w s1 s2 l1 l2 f) as (g & G & I); try assumption.
  - apply num_pos. nia.
  - unfold extent. rewrite (up_lowest r1 W1 H1), (up_highest r1 W1 H1).
    assert (E : 2 * w == number r1 ((r_len r1 - 1) * r_step r1 + (r_len r1 - 1) * r_step r1)) by (rewrite <- number_add; fold w; ring).
    rewrite E. assert (P : 0 <= number r1 ((r_len r1 - 1) * r_step r1 + (r_len r1 - 1) * r_step r1) - number r1 (r_start r1 + (r_len r1 - 1) * r_step r1 - r_start r1 + Z.abs (r_step r1)))
      by (rewrite num_sub; apply num_nonneg; nia). lra.
  - apply (M g); [exact G|]. intros i j Hi Hj. apply I; apply up_sample; (assumption || lia).
Qed.

Lemma slope_negative {A} (mul : A -> Q -> A) p s1 s2 invert d1 d2 q : q < 0 -> s1 = SFin q \/ s2 = SFin q ->
  pt_slope_mute mul p s1 s2 d1 d2 invert = Err ParameterError.
Proof.
  intros Q H. unfold pt_slope_mute. cbn [existsb].
  assert (E : Qltb q 0 = true) by (apply Qltb_lt; exact Q).
  destruct H as [->| ->]; rewrite E; [reflexivity|]. rewrite Bool.orb_true_r. reflexivity.
Qed.
Lemma slope_unsorted {A} (mul : A -> Q -> A) p s1 s2 invert d1 d2 k v : slope_ok s1 -> slope_ok s2 ->
  assoc d1 (cm_coords (p_cm p)) = Some (M1 (CArr k v)) ->
  pt_slope_mute mul p s1 s2 d1 d2 invert = Err CoordError.
Proof.
  intros K1 K2 E. unfold pt_slope_mute.
  assert (G : forall s, slope_ok s -> match s with SFin q => Qltb q 0 | SInf => false end = false).
  { intros [q|] O; [|reflexivity]. apply Qltb_ge. destruct O; lra. }
  cbn [existsb]. rewrite (G s1 K1), (G s2 K2). cbn [orb]. unfold sorted_coord, coord_of. rewrite E. reflexivity.
Qed.

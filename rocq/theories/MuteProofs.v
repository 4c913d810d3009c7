(** Facts behind MuteProps.v: plane geometry with rationals. *)
From Verif Require Import Base BaseFacts CoordModel CoordSpec NdModel NdSpec ChunkModel CmModel CmSpec MuteModel MuteSpec.
From Coq Require Import Strings.String QArith Qabs Lqa Setoid Qfield.
Local Open Scope Q_scope.

Lemma Qltb_lt a b : Qltb a b = true <-> a < b.
Proof.
  unfold Qltb. split.
  - intros H. apply Qnot_le_lt. intros L. apply Qle_bool_iff in L. rewrite L in H. discriminate.
  - intros H. destruct (Qle_bool b a) eqn:E; [|reflexivity]. apply Qle_bool_iff in E. lra.
Qed.
Lemma Qltb_ge a b : Qltb a b = false <-> b <= a.
Proof.
  unfold Qltb. rewrite Bool.negb_false_iff. apply Qle_bool_iff.
Qed.

(** ** Two rays *)
Lemma wedge_core x1 y1 x2 y2 u v : ~ x1 * y2 - y1 * x2 == 0 -> 0 <= x1 * x2 + y1 * y2 ->
  ((x1 * v - y1 * u) * (x2 * v - y2 * u) < 0 /\ 0 < x1 * u + y1 * v /\ 0 < x2 * u + y2 * v) <->
  exists a b, 0 < a /\ 0 < b /\ u == a * x1 + b * x2 /\ v == a * y1 + b * y2.
Proof.
  intros C D. set (c := x1 * y2 - y1 * x2) in *. split.
  - intros (P & Q1 & Q2).
    set (a := - (x2 * v - y2 * u) / c). set (b := (x1 * v - y1 * u) / c).
    assert (U : u == a * x1 + b * x2) by (unfold a, b, c in *; field; exact C).
    assert (V : v == a * y1 + b * y2) by (unfold a, b, c in *; field; exact C).
    assert (A : a * c == - (x2 * v - y2 * u)) by (unfold a; field; exact C).
    assert (B : b * c == x1 * v - y1 * u) by (unfold b; field; exact C).
    assert (AB : 0 < a * b * (c * c)).
    { assert (E : a * b * (c * c) == (a * c) * (b * c)) by ring. rewrite E, A, B. lra. }
    assert (CC : 0 < c * c) by (destruct (Qlt_le_dec c 0); [nra|]; assert (0 < c) by (destruct (Qle_lt_or_eq _ _ q); [assumption|]; exfalso; apply C; symmetry; assumption); nra).
    assert (AB' : 0 < a * b) by nra.
    exists a, b. destruct (Qlt_le_dec 0 a) as [Ha|Ha].
    + assert (0 < b) by nra. auto.
    + exfalso. assert (Hb : b <= 0) by nra.
      assert (S : 0 <= x1 * x1 + y1 * y1) by nra.
      assert (E : x1 * u + y1 * v == a * (x1 * x1 + y1 * y1) + b * (x1 * x2 + y1 * y2)) by (rewrite U, V; ring).
      rewrite E in Q1. nra.
  - intros (a & b & Ha & Hb & U & V).
    assert (E1 : x1 * v - y1 * u == b * c) by (rewrite U, V; unfold c; ring).
    assert (E2 : x2 * v - y2 * u == - a * c) by (rewrite U, V; unfold c; ring).
    assert (CC : 0 < c * c) by (destruct (Qlt_le_dec c 0); [nra|]; assert (0 < c) by (destruct (Qle_lt_or_eq _ _ q); [assumption|]; exfalso; apply C; symmetry; assumption); nra).
    assert (AB : 0 < a * b) by nra.
    split; [rewrite E1, E2; nra|].
    assert (S1 : 0 < x1 * x1 + y1 * y1).
    { destruct (Qlt_le_dec 0 (x1 * x1 + y1 * y1)) as [H|H]; [exact H|]. exfalso. apply C.
      assert (x1 * x1 == 0) by nra. assert (y1 * y1 == 0) by nra.
      assert (x1 == 0) by (destruct (Qmult_integral _ _ H0); assumption).
      assert (y1 == 0) by (destruct (Qmult_integral _ _ H1); assumption).
      unfold c. rewrite H2, H3. ring. }
    assert (S2 : 0 < x2 * x2 + y2 * y2).
    { destruct (Qlt_le_dec 0 (x2 * x2 + y2 * y2)) as [H|H]; [exact H|]. exfalso. apply C.
      assert (x2 * x2 == 0) by nra. assert (y2 * y2 == 0) by nra.
      assert (x2 == 0) by (destruct (Qmult_integral _ _ H0); assumption).
      assert (y2 == 0) by (destruct (Qmult_integral _ _ H1); assumption).
      unfold c. rewrite H2, H3. ring. }
    split.
    + assert (E : x1 * u + y1 * v == a * (x1 * x1 + y1 * y1) + b * (x1 * x2 + y1 * y2)) by (rewrite U, V; ring). rewrite E. nra.
    + assert (E : x2 * u + y2 * v == a * (x1 * x2 + y1 * y2) + b * (x2 * x2 + y2 * y2)) by (rewrite U, V; ring). rewrite E. nra.
Qed.

(** ** Two parallel lines *)
Lemma strip_core x1 y1 x2 y2 px py qx qy u v : x1 * y2 - y1 * x2 == 0 -> 0 < x1 * x1 + y1 * y1 ->
  0 < x1 * x2 + y1 * y2 -> ~ x1 * (qy - py) - y1 * (qx - px) == 0 ->
  ((x1 * (v - py) - y1 * (u - px)) * (x2 * (v - qy) - y2 * (u - qx)) < 0 <->
   exists t s, 0 < t /\ t < 1 /\ u == px + t * (qx - px) + s * x1 /\ v == py + t * (qy - py) + s * y1).
Proof.
  intros C N D H0. set (n := x1 * x1 + y1 * y1) in *. set (k := (x1 * x2 + y1 * y2) / n).
  assert (N0 : ~ n == 0) by lra.
  assert (K : 0 < k) by (unfold k; apply Qlt_shift_div_l; lra).
  assert (X2 : x2 == k * x1).
  { assert (E : x2 * n == (x1 * x2 + y1 * y2) * x1 - y1 * (x1 * y2 - y1 * x2)) by (unfold n; ring).
    rewrite C in E. unfold k. transitivity (x2 * n / n); [field; exact N0|]. rewrite E. field. exact N0. }
  assert (Y2 : y2 == k * y1).
  { assert (E : y2 * n == (x1 * x2 + y1 * y2) * y1 + x1 * (x1 * y2 - y1 * x2)) by (unfold n; ring).
    rewrite C in E. unfold k. transitivity (y2 * n / n); [field; exact N0|]. rewrite E. field. exact N0. }
  set (f := x1 * (v - py) - y1 * (u - px)). set (h := x1 * (qy - py) - y1 * (qx - px)).
  assert (E : f * (x2 * (v - qy) - y2 * (u - qx)) == k * (f * (f - h)))
    by (rewrite X2, Y2; unfold f, h; ring).
  change (~ h == 0) in H0.
  assert (HH : 0 < h * h) by (destruct (Qlt_le_dec h 0); [nra|]; assert (0 < h) by (destruct (Qle_lt_or_eq _ _ q); [assumption|]; exfalso; apply H0; symmetry; assumption); nra).
  rewrite E. split.
  - intros P. assert (P' : f * (f - h) < 0) by nra.
    set (t := f / h). assert (T : f == t * h) by (unfold t; field; exact H0).
    assert (T2 : f * (f - h) == t * (t - 1) * (h * h)) by (rewrite T; ring).
    rewrite T2 in P'. assert (T3 : t * (t - 1) < 0) by nra.
    assert (0 < t /\ t < 1) as [T4 T5] by (destruct (Qlt_le_dec 0 t); split; nra).
    set (wx := u - px - t * (qx - px)). set (wy := v - py - t * (qy - py)).
    assert (W : x1 * wy - y1 * wx == 0).
    { assert (Ew : x1 * wy - y1 * wx == f - t * h) by (unfold wx, wy, f, h; ring). rewrite Ew, T. ring. }
    set (s := (x1 * wx + y1 * wy) / n). exists t, s. split; [exact T4|]. split; [exact T5|].
    assert (Wx : wx == s * x1).
    { assert (Ew : wx * n == (x1 * wx + y1 * wy) * x1 - y1 * (x1 * wy - y1 * wx)) by (unfold n; ring).
      rewrite W in Ew. unfold s. transitivity (wx * n / n); [field; exact N0|]. rewrite Ew. field. exact N0. }
    assert (Wy : wy == s * y1).
    { assert (Ew : wy * n == (x1 * wx + y1 * wy) * y1 + x1 * (x1 * wy - y1 * wx)) by (unfold n; ring).
      rewrite W in Ew. unfold s. transitivity (wy * n / n); [field; exact N0|]. rewrite Ew. field. exact N0. }
    unfold wx in Wx. unfold wy in Wy. split; lra.
  - intros (t & s & T1 & T2 & U & V).
    assert (F : f == t * h) by (unfold f, h; rewrite U, V; ring).
    assert (T3 : f * (f - h) == - (t * (1 - t)) * (h * h)) by (rewrite F; ring). rewrite T3.
    assert (0 < t * (1 - t)) by nra. assert (0 < t * (1 - t) * (h * h)) by nra. nra.
Qed.

(** ** Scaled vectors *)
Section Scaled.
Variables rx ry : Q.
Hypothesis Rx : 0 < rx.
Hypothesis Ry : 0 < ry.

Lemma nz_x : ~ rx == 0. Proof. lra. Qed.
Lemma nz_y : ~ ry == 0. Proof. lra. Qed.

Lemma dot_scale d e : dot (scale rx ry d) (scale rx ry e) == along rx ry d e.
Proof. unfold dot, scale, along. cbn [fst snd]. field. split; (apply nz_x || apply nz_y). Qed.
Lemma pos_xy : 0 < rx * ry. Proof. nra. Qed.

(** [v] is [d] measured in ranges. *)
Definition is_scaled (v d : point) : Prop := fst v == fst d / rx /\ snd v == snd d / ry.
Lemma scaled_scale d : is_scaled (scale rx ry d) d.
Proof. split; reflexivity. Qed.
Lemma scaled_neg d : is_scaled (neg (scale rx ry d)) (back d).
Proof. unfold is_scaled, neg, scale, back. cbn [fst snd]. split; field; [apply nz_x|apply nz_y]. Qed.

Lemma along_area d e : area d e == 0 -> along rx ry d e * along rx ry d e == along rx ry d d * along rx ry e e.
Proof.
  intros H. assert (E : along rx ry d d * along rx ry e e - along rx ry d e * along rx ry d e ==
     (area d e * area d e) / (rx * rx * (ry * ry))).
  { unfold along, area. field. split; (apply nz_x || apply nz_y). }
  rewrite H in E. assert (E2 : 0 * 0 / (rx * rx * (ry * ry)) == 0) by (field; split; (apply nz_x || apply nz_y)). rewrite E2 in E. lra.
Qed.

Lemma inside_wedge o o' d e v1 v2 pt : fst o' == fst o -> snd o' == snd o -> is_scaled v1 d -> is_scaled v2 e ->
  ~ area d e == 0 -> 0 <= along rx ry d e ->
  inside (mkGeo (Some o') (Some o') v1 v2 false) rx ry pt = true <-> in_wedge o d e pt.
Proof.
  intros Ox Oy [V1x V1y] [V2x V2y] C D. unfold inside. cbn [g_o1 g_o2 g_v1 g_v2 g_parallel orb].
  rewrite !andb_true_iff, !Qltb_lt. unfold cross, dot, scale, sub. cbn [fst snd].
  destruct v1 as [a1 b1], v2 as [a2 b2], d as [dx dy], e as [ex ey], o as [ox oy], o' as [ox' oy'], pt as [x y]. cbn [fst snd] in *.
  unfold area, along in *. cbn [fst snd] in *.
  assert (C' : ~ a1 * b2 - b1 * a2 == 0).
  { rewrite V1x, V1y, V2x, V2y. intros H. apply C.
    assert (E : dx * ey - dy * ex == (dx / rx * (ey / ry) - dy / ry * (ex / rx)) * (rx * ry)) by (field; split; (apply nz_x || apply nz_y)).
    rewrite E, H. ring. }
  assert (D' : 0 <= a1 * a2 + b1 * b2).
  { rewrite V1x, V1y, V2x, V2y. assert (E : dx / rx * (ex / rx) + dy / ry * (ey / ry) == dx * ex / (rx * rx) + dy * ey / (ry * ry))
      by (field; split; (apply nz_x || apply nz_y)). rewrite E. exact D. }
  rewrite (wedge_core a1 b1 a2 b2 ((x - ox') / rx) ((y - oy') / ry) C' D').
  unfold in_wedge. cbn [fst snd]. split; intros (a & b & Ha & Hb & U & V); exists a, b; (split; [exact Ha|]); (split; [exact Hb|]).
  - rewrite V1x, V2x, Ox in U. rewrite V1y, V2y, Oy in V. split.
    + assert (E : x - ox == (x - ox) / rx * rx) by (field; apply nz_x). rewrite U in E.
      assert (E' : (a * (dx / rx) + b * (ex / rx)) * rx == a * dx + b * ex) by (field; apply nz_x). rewrite E' in E. lra.
    + assert (E : y - oy == (y - oy) / ry * ry) by (field; apply nz_y). rewrite V in E.
      assert (E' : (a * (dy / ry) + b * (ey / ry)) * ry == a * dy + b * ey) by (field; apply nz_y). rewrite E' in E. lra.
  - rewrite V1x, V2x, Ox, V1y, V2y, Oy, U, V. split; field; [apply nz_x|apply nz_y].
Qed.

Lemma inside_strip o o' d e v1 v2 pt : is_scaled v1 d -> is_scaled v2 e -> area d e == 0 ->
  0 < along rx ry d d -> 0 < along rx ry d e -> ~ area d (fst o' - fst o, snd o' - snd o) == 0 ->
  inside (mkGeo (Some o) (Some o') v1 v2 true) rx ry pt = true <-> in_strip o o' d pt.
Proof.
  intros [V1x V1y] [V2x V2y] C N D H. unfold inside. cbn [g_o1 g_o2 g_v1 g_v2 g_parallel orb].
  rewrite !andb_true_iff, !Qltb_lt. unfold cross, dot, scale, sub. cbn [fst snd].
  destruct v1 as [a1 b1], v2 as [a2 b2], d as [dx dy], e as [ex ey], o as [ox oy], o' as [px py], pt as [x y]. cbn [fst snd] in *.
  unfold area, along in *. cbn [fst snd] in *.
  assert (C' : a1 * b2 - b1 * a2 == 0).
  { rewrite V1x, V1y, V2x, V2y. assert (E : dx / rx * (ey / ry) - dy / ry * (ex / rx) == (dx * ey - dy * ex) / (rx * ry)) by (field; split; (apply nz_x || apply nz_y)).
    rewrite E, C. field. split; (apply nz_x || apply nz_y). }
  assert (N' : 0 < a1 * a1 + b1 * b1).
  { rewrite V1x, V1y. assert (E : dx / rx * (dx / rx) + dy / ry * (dy / ry) == dx * dx / (rx * rx) + dy * dy / (ry * ry))
      by (field; split; (apply nz_x || apply nz_y)). rewrite E. exact N. }
  assert (D' : 0 < a1 * a2 + b1 * b2).
  { rewrite V1x, V1y, V2x, V2y. assert (E : dx / rx * (ex / rx) + dy / ry * (ey / ry) == dx * ex / (rx * rx) + dy * ey / (ry * ry))
      by (field; split; (apply nz_x || apply nz_y)). rewrite E. exact D. }
  assert (H' : ~ a1 * (py / ry - oy / ry) - b1 * (px / rx - ox / rx) == 0).
  { rewrite V1x, V1y. intros K. apply H.
    assert (E : dx * (py - oy) - dy * (px - ox) == (dx / rx * (py / ry - oy / ry) - dy / ry * (px / rx - ox / rx)) * (rx * ry)) by (field; split; (apply nz_x || apply nz_y)).
    rewrite E, K. ring. }
  pose proof (strip_core a1 b1 a2 b2 (ox / rx) (oy / ry) (px / rx) (py / ry) (x / rx) (y / ry) C' N' D' H') as S.
  assert (F : forall k z w, ~ k == 0 -> (z - w) / k == z / k - w / k) by (intros k z w Hk; field; exact Hk).
  rewrite !F by (apply nz_x || apply nz_y). split.
  - intros [P _]. apply S in P. destruct P as (t & s & T1 & T2 & U & V). exists t, s. cbn [fst snd]. split; [exact T1|]. split; [exact T2|].
    rewrite V1x in U. rewrite V1y in V. split.
    + assert (E : x == x / rx * rx) by (field; apply nz_x). rewrite E, U. field. apply nz_x.
    + assert (E : y == y / ry * ry) by (field; apply nz_y). rewrite E, V. field. apply nz_y.
  - intros (t & s & T1 & T2 & U & V). cbn [fst snd] in U, V. split; [|reflexivity]. apply S. exists t, s. split; [exact T1|]. split; [exact T2|].
    rewrite V1x, V1y, U, V. split; field; [apply nz_x|apply nz_y].
Qed.
End Scaled.

(** The intersection is the point on both lines. *)
Lemma intersection_spec l1 l2 o : on_line o l1 -> on_line o l2 -> 1 # 100000000 < Qabs (area (dir l1) (dir l2)) ->
  exists o', intersection l1 l2 = Some o' /\ fst o' == fst o /\ snd o' == snd o.
Proof.
  destruct l1 as [[x1 y1] [x2 y2]], l2 as [[x3 y3] [x4 y4]], o as [ox oy].
  unfold on_line, area, dir, intersection. cbn [fst snd]. intros E1 E2 C.
  set (denom := (x1 - x2) * (y3 - y4) - (y1 - y2) * (x3 - x4)).
  assert (Dn : denom == (x2 - x1) * (y4 - y3) - (y2 - y1) * (x4 - x3)) by (unfold denom; ring).
  rewrite <- Dn in C.
  destruct (Qle_bool (Qabs denom) (1 # 100000000)) eqn:B; [apply Qle_bool_iff in B; lra|].
  assert (Z : ~ denom == 0) by (intros H; rewrite H in C; cbn in C; lra).
  eexists. split; [reflexivity|]. cbn [fst snd]. split.
  - apply Qmult_inj_r with denom; [exact Z|].
    set (e1 := (ox - x1) * (y2 - y1) - (oy - y1) * (x2 - x1)) in *. set (e2 := (ox - x3) * (y4 - y3) - (oy - y3) * (x4 - x3)) in *.
    assert (L : ((x1 * y2 - y1 * x2) * (x3 - x4) - (x1 - x2) * (x3 * y4 - y3 * x4)) / denom * denom ==
       ox * denom - (e2 * (x2 - x1) - e1 * (x4 - x3))) by (transitivity ((x1 * y2 - y1 * x2) * (x3 - x4) - (x1 - x2) * (x3 * y4 - y3 * x4)); [field; exact Z|unfold e1, e2, denom; ring]).
    rewrite L, E1, E2. ring.
  - apply Qmult_inj_r with denom; [exact Z|].
    set (e1 := (ox - x1) * (y2 - y1) - (oy - y1) * (x2 - x1)) in *. set (e2 := (ox - x3) * (y4 - y3) - (oy - y3) * (x4 - x3)) in *.
    assert (L : ((x1 * y2 - y1 * x2) * (y3 - y4) - (y1 - y2) * (x3 * y4 - y3 * x4)) / denom * denom ==
       oy * denom - (e2 * (y2 - y1) - e1 * (y4 - y3))) by (transitivity ((x1 * y2 - y1 * x2) * (y3 - y4) - (y1 - y2) * (x3 * y4 - y3 * x4)); [field; exact Z|unfold e1, e2, denom; ring]).
    rewrite L, E1, E2. ring.
Qed.

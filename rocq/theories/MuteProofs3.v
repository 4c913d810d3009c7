(** Facts behind MuteProps.v: the region between two lines. *)
From Verif Require Import Base BaseFacts CoordModel CoordSpec NdModel NdSpec FrameModel
  ChunkModel CmModel CmSpec ProcModel MuteModel MuteSpec MuteProofs MuteProofs2.
From Coq Require Import Strings.String QArith Qabs Lqa Setoid Qfield Lia.
Local Open Scope Q_scope.

Section Two.
Variables rx ry : Q.
Hypothesis Rx : 0 < rx.
Hypothesis Ry : 0 < ry.
Local Notation nx := (nz_x rx Rx).
Local Notation ny := (nz_y ry Ry).

Lemma short_test d : Qltb (dot (scale rx ry d) (scale rx ry d)) (tol * tol) = true <-> too_short rx ry d.
Proof. rewrite Qltb_lt, (dot_scale rx ry Rx Ry). reflexivity. Qed.
Lemma parallel_test d e :
  Qltb ((1 - tol) * (1 - tol) * (dot (scale rx ry d) (scale rx ry d) * dot (scale rx ry e) (scale rx ry e)))
       (dot (scale rx ry d) (scale rx ry e) * dot (scale rx ry d) (scale rx ry e)) = true <-> near_parallel rx ry d e.
Proof.
  rewrite Qltb_lt, !(dot_scale rx ry Rx Ry). unfold near_parallel.
  assert (E : (1 - tol) * (1 - tol) == (999999999 # 1000000000) * (999999999 # 1000000000)) by reflexivity. rewrite E. reflexivity.
Qed.
Lemma not_true b (P : Prop) : (b = true <-> P) -> ~ P -> b = false.
Proof. intros H N. destruct b; [destruct N; apply H; reflexivity|reflexivity]. Qed.

Lemma along_sym d e : along rx ry d e == along rx ry e d.
Proof. unfold along. field. split; (exact nx || exact ny). Qed.
Lemma along_back_l d e : along rx ry (back d) e == - along rx ry d e.
Proof. unfold along, back. cbn [fst snd]. field. split; (exact nx || exact ny). Qed.
Lemma along_back_r d e : along rx ry d (back e) == - along rx ry d e.
Proof. unfold along, back. cbn [fst snd]. field. split; (exact nx || exact ny). Qed.
Lemma area_back_l d e : area (back d) e == - area d e.
Proof. unfold area, back. cbn [fst snd]. ring. Qed.
Lemma area_back_r d e : area d (back e) == - area d e.
Proof. unfold area, back. cbn [fst snd]. ring. Qed.

(** The geometry is determined by these four tests. *)
Lemma geometry_plain l1 l2 f : ~ too_short rx ry (dir l1) -> ~ too_short rx ry (dir l2) -> ~ near_parallel rx ry (dir l1) (dir l2) ->
  get_geometry rx ry l1 l2 f =
  (if Qle_bool 0 (along rx ry (dir l1) (dir l2)) then
     Ok (mkGeo (intersection l1 l2) (intersection l1 l2) (scale rx ry (dir l1)) (scale rx ry (dir l2)) false)
   else match f with
        | Some true => Ok (mkGeo (intersection l1 l2) (intersection l1 l2) (scale rx ry (dir l1)) (neg (scale rx ry (dir l2))) false)
        | Some false => Ok (mkGeo (intersection l1 l2) (intersection l1 l2) (neg (scale rx ry (dir l1))) (scale rx ry (dir l2)) false)
        | None => Err ParameterError
        end).
Proof.
  intros S1 S2 P. unfold get_geometry. change (sub (snd l1) (fst l1)) with (dir l1). change (sub (snd l2) (fst l2)) with (dir l2).
  cbv zeta. rewrite (not_true _ _ (short_test _) S1), (not_true _ _ (short_test _) S2). cbn [orb].
  rewrite (not_true _ _ (parallel_test _ _) P). cbn [fst snd].
  assert (E : Qle_bool 0 (dot (scale rx ry (dir l1)) (scale rx ry (dir l2))) = Qle_bool 0 (along rx ry (dir l1) (dir l2)))
    by (rewrite (dot_scale rx ry Rx Ry); reflexivity).
  rewrite E. destruct f as [[|]|]; reflexivity.
Qed.
Lemma geometry_parallel l1 l2 f : ~ too_short rx ry (dir l1) -> ~ too_short rx ry (dir l2) -> near_parallel rx ry (dir l1) (dir l2) ->
  exists v1 v2 d1 d2, get_geometry rx ry l1 l2 f = Ok (mkGeo (Some (fst l1)) (Some (fst l2)) v1 v2 true) /\
    is_scaled rx ry v1 d1 /\ is_scaled rx ry v2 d2 /\ 0 <= along rx ry d1 d2 /\
    ((0 <= along rx ry (dir l1) (dir l2) /\ d1 = dir l1 /\ d2 = dir l2) \/
     (along rx ry (dir l1) (dir l2) < 0 /\ ((d1 = dir l1 /\ d2 = back (dir l2)) \/ (d1 = back (dir l1) /\ d2 = dir l2)))).
Proof.
  intros S1 S2 P. unfold get_geometry. change (sub (snd l1) (fst l1)) with (dir l1). change (sub (snd l2) (fst l2)) with (dir l2).
  cbv zeta. rewrite (not_true _ _ (short_test _) S1), (not_true _ _ (short_test _) S2). cbn [orb].
  rewrite (proj2 (parallel_test _ _) P). cbn [fst snd].
  assert (E : Qle_bool 0 (dot (scale rx ry (dir l1)) (scale rx ry (dir l2))) = Qle_bool 0 (along rx ry (dir l1) (dir l2)))
    by (rewrite (dot_scale rx ry Rx Ry); reflexivity).
  rewrite E. destruct (Qle_bool 0 (along rx ry (dir l1) (dir l2))) eqn:B.
  - apply Qle_bool_iff in B. do 4 eexists. split; [reflexivity|]. split; [apply scaled_scale|]. split; [apply scaled_scale|].
    split; [exact B|]. left. auto.
  - assert (L : along rx ry (dir l1) (dir l2) < 0).
    { apply Qnot_le_lt. intros K. apply Qle_bool_iff in K. congruence. }
    destruct f as [[|]|]; do 4 eexists; (split; [reflexivity|]).
    + split; [apply scaled_scale|]. split; [apply (scaled_neg rx ry Rx Ry)|]. split; [rewrite along_back_r; lra|]. right. split; [exact L|]. left. auto.
    + split; [apply (scaled_neg rx ry Rx Ry)|]. split; [apply scaled_scale|]. split; [rewrite along_back_l; lra|]. right. split; [exact L|]. right. auto.
    + split; [apply (scaled_neg rx ry Rx Ry)|]. split; [apply scaled_scale|]. split; [rewrite along_back_l; lra|]. right. split; [exact L|]. right. auto.
Qed.

(** ** Crossing lines *)
Lemma geometry_wedge l1 l2 i1 i2 f o d e : fill_index i1 i2 f -> on_line o l1 -> on_line o l2 ->
  1 # 100000000 < Qabs (area (dir l1) (dir l2)) ->
  ~ too_short rx ry (dir l1) -> ~ too_short rx ry (dir l2) -> ~ near_parallel rx ry (dir l1) (dir l2) ->
  turned rx ry (dir l1) (dir l2) i1 i2 d e ->
  exists g, get_geometry rx ry l1 l2 f = Ok g /\ forall pt, inside g rx ry pt = true <-> in_wedge o d e pt.
Proof.
  intros I O1 O2 C S1 S2 P T. destruct (intersection_spec l1 l2 o O1 O2 C) as (o' & X & Xx & Xy).
  rewrite (geometry_plain l1 l2 f S1 S2 P), X.
  assert (N : ~ area (dir l1) (dir l2) == 0) by (intros H; rewrite H in C; cbn in C; lra).
  destruct T as [(A & -> & ->)|[(A & -> & -> & -> & ->)|(A & -> & -> & -> & ->)]].
  - rewrite (proj2 (Qle_bool_iff _ _) A). eexists. split; [reflexivity|]. intros pt.
    apply (inside_wedge rx ry Rx Ry); auto using scaled_scale.
  - destruct (Qle_bool 0 (along rx ry (dir l1) (dir l2))) eqn:B; [apply Qle_bool_iff in B; lra|].
    destruct I as (_ & _ & I & _). rewrite (I eq_refl eq_refl). eexists. split; [reflexivity|]. intros pt.
    apply (inside_wedge rx ry Rx Ry); auto using scaled_scale, (scaled_neg rx ry Rx Ry).
    + rewrite area_back_r. intros H. apply N. lra.
    + rewrite along_back_r. lra.
  - destruct (Qle_bool 0 (along rx ry (dir l1) (dir l2))) eqn:B; [apply Qle_bool_iff in B; lra|].
    destruct I as (_ & I & _). rewrite (I eq_refl eq_refl). eexists. split; [reflexivity|]. intros pt.
    apply (inside_wedge rx ry Rx Ry); auto using scaled_scale, (scaled_neg rx ry Rx Ry).
    + rewrite area_back_l. intros H. apply N. lra.
    + rewrite along_back_l. lra.
Qed.

(** The intersection is lost if the product of the directions is small. *)
Lemma geometry_lost l1 l2 f : Qabs (area (dir l1) (dir l2)) <= 1 # 100000000 -> 0 <= along rx ry (dir l1) (dir l2) \/ f <> None ->
  ~ too_short rx ry (dir l1) -> ~ too_short rx ry (dir l2) -> ~ near_parallel rx ry (dir l1) (dir l2) ->
  exists g, get_geometry rx ry l1 l2 f = Ok g /\ forall pt, inside g rx ry pt = true <-> False.
Proof.
  intros C F S1 S2 P. rewrite (geometry_plain l1 l2 f S1 S2 P).
  assert (X : intersection l1 l2 = None).
  { destruct l1 as [[x1 y1] [x2 y2]], l2 as [[x3 y3] [x4 y4]]. unfold area, dir, intersection in *. cbn [fst snd] in *.
    set (denom := (x1 - x2) * (y3 - y4) - (y1 - y2) * (x3 - x4)).
    assert (Dn : denom == (x2 - x1) * (y4 - y3) - (y2 - y1) * (x4 - x3)) by (unfold denom; ring).
    rewrite <- Dn in C. rewrite (proj2 (Qle_bool_iff _ _) C). reflexivity. }
  rewrite X. destruct (Qle_bool 0 (along rx ry (dir l1) (dir l2))) eqn:B.
  - eexists. split; [reflexivity|]. intros pt. cbn. split; [discriminate|contradiction].
  - destruct F as [F|F]; [apply Qle_bool_iff in F; congruence|].
    destruct f as [[|]|]; [| |congruence]; (eexists; split; [reflexivity|]; intros pt; cbn; split; [discriminate|contradiction]).
Qed.

Lemma geometry_refused l1 l2 i1 i2 f : fill_index i1 i2 f ->
  (too_short rx ry (dir l1) \/ too_short rx ry (dir l2) -> get_geometry rx ry l1 l2 f = Err ParameterError) /\
  (along rx ry (dir l1) (dir l2) < 0 -> ~ near_parallel rx ry (dir l1) (dir l2) -> i1 = false -> i2 = false ->
     get_geometry rx ry l1 l2 f = Err ParameterError).
Proof.
  intros I.
  assert (S : too_short rx ry (dir l1) \/ too_short rx ry (dir l2) -> get_geometry rx ry l1 l2 f = Err ParameterError).
  { intros S. unfold get_geometry. change (sub (snd l1) (fst l1)) with (dir l1). change (sub (snd l2) (fst l2)) with (dir l2). cbv zeta.
    destruct S as [S|S]; apply short_test in S; rewrite S; [reflexivity|rewrite Bool.orb_true_r; reflexivity]. }
  split; [exact S|]. intros A P I1 I2.
  destruct (Qlt_le_dec (along rx ry (dir l1) (dir l1)) (1 # 1000000000000000000)) as [|T1]; [apply S; left; assumption|].
  destruct (Qlt_le_dec (along rx ry (dir l2) (dir l2)) (1 # 1000000000000000000)) as [|T2]; [apply S; right; assumption|].
  rewrite (geometry_plain l1 l2 f); [|unfold too_short; lra|unfold too_short; lra|exact P].
  destruct (Qle_bool 0 (along rx ry (dir l1) (dir l2))) eqn:B; [apply Qle_bool_iff in B; lra|].
  destruct I as (I & _). rewrite (I I1 I2). reflexivity.
Qed.

(** ** Parallel lines *)
Lemma in_strip_back o o' d pt : in_strip o o' (back d) pt <-> in_strip o o' d pt.
Proof.
  unfold in_strip, back. cbn [fst snd]. split; intros (t & s & T1 & T2 & U & V); exists t, (- s); repeat split; try assumption; lra.
Qed.
Lemma geometry_strip l1 l2 f : area (dir l1) (dir l2) == 0 ->
  ~ too_short rx ry (dir l1) -> ~ too_short rx ry (dir l2) ->
  exists g, get_geometry rx ry l1 l2 f = Ok g /\
    forall pt, inside g rx ry pt = true <-> (~ on_line (fst l2) l1 /\ in_strip (fst l1) (fst l2) (dir l1) pt).
Proof.
  intros C S1 S2. pose proof (along_area rx ry Rx Ry _ _ C) as X.
  assert (T1 : 0 < along rx ry (dir l1) (dir l1)) by (unfold too_short in S1; lra).
  assert (T2 : 0 < along rx ry (dir l2) (dir l2)) by (unfold too_short in S2; lra).
  assert (P : near_parallel rx ry (dir l1) (dir l2)).
  { unfold near_parallel. rewrite X. assert (0 < along rx ry (dir l1) (dir l1) * along rx ry (dir l2) (dir l2)) by nra.
    set (z := along rx ry (dir l1) (dir l1) * along rx ry (dir l2) (dir l2)) in *. lra. }
  destruct (geometry_parallel l1 l2 f S1 S2 P) as (v1 & v2 & d1 & d2 & G & V1 & V2 & A & K).
  rewrite G. eexists. split; [reflexivity|]. intros pt.
  assert (Y : area d1 d2 == 0 /\ 0 < along rx ry d1 d1 /\ along rx ry d1 d2 * along rx ry d1 d2 == along rx ry (dir l1) (dir l1) * along rx ry (dir l2) (dir l2) /\
     (d1 = dir l1 \/ d1 = back (dir l1))).
  { destruct K as [(_ & -> & ->)|[_ [(-> & ->)|(-> & ->)]]].
    - rewrite X. auto with qarith.
    - rewrite area_back_r, along_back_r. split; [lra|]. split; [exact T1|]. split; [rewrite <- X; ring|left; reflexivity].
    - rewrite area_back_l, !along_back_l, along_back_r. split; [lra|]. split; [lra|]. split; [rewrite <- X; ring|right; reflexivity]. }
  destruct Y as (Y1 & Y2 & Y3 & Y4).
  assert (Y5 : 0 < along rx ry d1 d2).
  { assert (0 < along rx ry (dir l1) (dir l1) * along rx ry (dir l2) (dir l2)) by nra.
    destruct (Qlt_le_dec 0 (along rx ry d1 d2)); [assumption|]. assert (Z : along rx ry d1 d2 == 0) by lra. rewrite Z in Y3. lra. }
  assert (Eo : area d1 (fst (fst l2) - fst (fst l1), snd (fst l2) - snd (fst l1)) == 0 <-> on_line (fst l2) l1).
  { unfold on_line, area. cbn [fst snd]. destruct Y4 as [->| ->]; unfold back; cbn [fst snd]; split; intros; lra. }
  destruct (Qeq_dec (area d1 (fst (fst l2) - fst (fst l1), snd (fst l2) - snd (fst l1))) 0) as [Z|Z].
  - split; [|intros [H _]; destruct H; apply Eo; exact Z]. intros H. exfalso.
    unfold inside in H. cbn [g_o1 g_o2 g_v1 g_v2 g_parallel orb] in H. rewrite Bool.andb_true_r, Qltb_lt in H.
    unfold cross, scale, sub in H. cbn [fst snd] in H.
    destruct V1 as [V1x V1y], V2 as [V2x V2y]. rewrite V1x, V1y, V2x, V2y in H.
    destruct d1 as [ax ay], d2 as [bx by_], l1 as [[px py] L1], l2 as [[qx qy] L2], pt as [x y]. cbn [fst snd] in *.
    unfold area, along in *. cbn [fst snd] in *. clear Eo Y3 Y4 K G X P S1 S2 T1 T2 C A.
    set (n := ax * ax / (rx * rx) + ay * ay / (ry * ry)) in *. set (m := ax * bx / (rx * rx) + ay * by_ / (ry * ry)) in *.
    assert (Bx : bx == m / n * ax).
    { assert (E : bx * n == m * ax - ay * (ax * by_ - ay * bx) / (ry * ry)) by (unfold n, m; field; split; (exact nx || exact ny)).
      rewrite Y1 in E. transitivity (bx * n / n); [field; lra|]. rewrite E. field. split; (exact ny || lra). }
    assert (By : by_ == m / n * ay).
    { assert (E : by_ * n == m * ay + ax * (ax * by_ - ay * bx) / (rx * rx)) by (unfold n, m; field; split; (exact nx || exact ny)).
      rewrite Y1 in E. transitivity (by_ * n / n); [field; lra|]. rewrite E. field. split; (exact nx || lra). }
    set (k := m / n) in *. assert (Kp : 0 < k) by (unfold k; apply Qlt_shift_div_l; lra).
    rewrite Bx, By in H.
    set (w := ax * (y - py) - ay * (x - px)).
    assert (E1 : ax / rx * ((y - py) / ry) - ay / ry * ((x - px) / rx) == w / (rx * ry)) by (unfold w; field; split; (exact nx || exact ny)).
    assert (E2 : k * ax / rx * ((y - qy) / ry) - k * ay / ry * ((x - qx) / rx) == k * (w / (rx * ry)) - k * (ax * (qy - py) - ay * (qx - px)) / (rx * ry)) by (unfold w; field; split; (exact nx || exact ny)).
    rewrite E1, E2, Z in H. set (h := w / (rx * ry)) in *.
    assert (E3 : k * h - k * 0 / (rx * ry) == k * h) by (field; split; (exact nx || exact ny)). rewrite E3 in H. nra.
  - rewrite (inside_strip rx ry Rx Ry (fst l1) (fst l2) d1 d2 v1 v2 pt V1 V2 Y1 Y2 Y5 Z).
    assert (M : in_strip (fst l1) (fst l2) d1 pt <-> in_strip (fst l1) (fst l2) (dir l1) pt)
      by (destruct Y4 as [->| ->]; [reflexivity|apply in_strip_back]).
    rewrite M. rewrite <- Eo. tauto.
Qed.
End Two.

(** Properties C75, C76 and C77: muting a range, between two lines, between two slopes.
    Model: MuteModel.v. Specification vocabulary: MuteSpec.v. *)
From Verif Require Import Base BaseFacts CoordModel CoordSpec NdModel NdSpec FrameModel ChunkModel CmModel CmSpec CmProofs18 CmProps
  MuteModel MuteSpec MuteProofs MuteProofs2 MuteProofs3 MuteProofs4.
From Coq Require Import Strings.String QArith Qabs Lia Lqa.
Local Open Scope Z_scope.
Local Open Scope list_scope.
Local Open Scope string_scope.

(** * C75: one dimension *)

(** The samples select would keep for the same range are multiplied by zero, all others
    by one; inverted it is the other way round. Labels stay. *)
Theorem C75_range : forall A (mul : A -> Q -> A) p invert relative ax d c lo hi ps, wf_patch p ->
  nth_error (cm_dims (p_cm p)) ax = Some d -> assoc d (cm_coords (p_cm p)) = Some (M1 c) ->
  asks c relative false (SelPair lo hi) ps ->
  exists q, pt_line_mute1 mul p invert relative [(d, [lo; hi])] = Ok q /\
    muted mul p q invert (fun ix => exists i, nth_error ix ax = Some i /\ In i ps).
Proof. intros A. exact mute1_region. Qed.
Print Assumptions C75_range.

(** No dimension, more than two, a name that is no dimension and any other number of
    boundaries than two are refused. *)
Theorem C75_refused : forall A (mul : A -> Q -> A) p invert relative,
  pt_line_mute1 mul p invert relative [] = Err ParameterError /\
  (forall kw, 3 <= zlen kw -> pt_line_mute1 mul p invert relative kw = Err ParameterError) /\
  (forall d v, ~ In d (cm_dims (p_cm p)) -> pt_line_mute1 mul p invert relative [(d, v)] = Err ParameterError) /\
  (forall d v, zlen v <> 2 -> pt_line_mute1 mul p invert relative [(d, v)] = Err ParameterError).
Proof. intros A. exact mute1_refused. Qed.
Print Assumptions C75_refused.

(** ** Witnesses *)
Definition panel (cx cy : mcoord) : patch Q :=
  mkPatch (mkCm ["distance"; "time"] [("distance", cx); ("time", cy)] [("distance", ["distance"]); ("time", ["time"])])
    (mkNd [4; 4] (repeat 1%Q 16)).
Definition square : patch Q := panel (rng 0 1 4) (rng 0 1 4).
Definition kept (r : result (patch Q)) : list Q := match r with Ok q => map Qred (nd_flat (p_data q)) | Err _ => [] end.

Example C75_applies :
  wf_patch square /\ asks (CRange (mkRange KInt 0 4 1 4)) true false (SelPair (Some 1) (Some (-1))) [1; 2] /\
  kept (pt_line_mute1 Qmult square false true [("time", [Some 1; Some (-1)])]) = [1;0;0;1; 1;0;0;1; 1;0;0;1; 1;0;0;1]%Q /\
  kept (pt_line_mute1 Qmult square true false [("distance", [Some 2; None])]) = [0;0;0;0; 0;0;0;0; 1;1;1;1; 1;1;1;1]%Q.
Proof.
  split; [apply patch_okb_ok; vm_compute; reflexivity|]. split.
  - split; [reflexivity|]. split; [intros r [= <-]; cbn; lia|]. exists 0, 3.
    split; [split; [left; reflexivity|intros y J; vm_compute in J; intuition (subst; lia)]|].
    split; [split; [vm_compute; tauto|intros y J; vm_compute in J; intuition (subst; lia)]|]. vm_compute. reflexivity.
  - split; vm_compute; reflexivity.
Qed.

(** * C76: two dimensions *)

(** Two crossing lines are given by two points each, or by one number along one
    dimension. The samples strictly inside the wedge between the two rays from their
    intersection, in the directions given, are muted. A line given by one number is
    turned round if it points away from the other one. The numbers are read with the
    labels of the first two dimensions of the patch, see the last theorem below. *)
Theorem C76_wedge_partial : forall A (mul : A -> Q -> A) p invert relative d1 d2 a1 a2 df ds ds' r1 r2 rf rs b1 b2 l1 l2 i1 i2 o d e,
  wf_patch p -> cm_dims (p_cm p) = df :: ds :: ds' ->
  nth_error (cm_dims (p_cm p)) a1 = Some d1 -> nth_error (cm_dims (p_cm p)) a2 = Some d2 ->
  assoc d1 (cm_coords (p_cm p)) = Some (M1 (CRange r1)) -> assoc d2 (cm_coords (p_cm p)) = Some (M1 (CRange r2)) ->
  assoc df (cm_coords (p_cm p)) = Some (M1 (CRange rf)) -> assoc ds (cm_coords (p_cm p)) = Some (M1 (CRange rs)) ->
  bound_line rf rs relative (fst b1) (fst b2) l1 i1 -> bound_line rf rs relative (snd b1) (snd b2) l2 i2 ->
  on_line o l1 -> on_line o l2 -> (1 # 100000000 < Qabs (area (dir l1) (dir l2)))%Q ->
  ~ too_short (extent r1) (extent r2) (dir l1) -> ~ too_short (extent r1) (extent r2) (dir l2) ->
  ~ near_parallel (extent r1) (extent r2) (dir l1) (dir l2) ->
  turned (extent r1) (extent r2) (dir l1) (dir l2) i1 i2 d e ->
  exists q, pt_line_mute2 mul p invert relative [(d1, b1); (d2, b2)] = Ok q /\
    muted mul p q invert (sample_in r1 r2 a1 a2 (in_wedge o d e)).
Proof.
  intros A mul p invert relative d1 d2 a1 a2 df ds ds' r1 r2 rf rs b1 b2 l1 l2 i1 i2 o d e W D N1 N2 E1 E2 Ef Es B1 B2 O1 O2 C S1 S2 P T.
  destruct (mute2_eq mul p invert relative d1 d2 a1 a2 df ds ds' r1 r2 rf rs b1 b2 l1 l2 i1 i2 W D N1 N2 E1 E2 Ef Es B1 B2) as (f & I & _ & M).
  destruct (geometry_wedge (extent r1) (extent r2) (extent_pos r1 (wf_vals _ (wp_cm _ W) _ _ E1)) (extent_pos r2 (wf_vals _ (wp_cm _ W) _ _ E2))
    l1 l2 i1 i2 f o d e I O1 O2 C S1 S2 P T) as (g & G & K).
  apply (M g); [exact G|]. intros i j _ _. apply K.
Qed.
Print Assumptions C76_wedge_partial.

(** Between two parallel lines, whatever their directions, everything strictly between
    them is muted, and nothing if they coincide. *)
Theorem C76_strip_partial : forall A (mul : A -> Q -> A) p invert relative d1 d2 a1 a2 df ds ds' r1 r2 rf rs b1 b2 l1 l2 i1 i2,
  wf_patch p -> cm_dims (p_cm p) = df :: ds :: ds' ->
  nth_error (cm_dims (p_cm p)) a1 = Some d1 -> nth_error (cm_dims (p_cm p)) a2 = Some d2 ->
  assoc d1 (cm_coords (p_cm p)) = Some (M1 (CRange r1)) -> assoc d2 (cm_coords (p_cm p)) = Some (M1 (CRange r2)) ->
  assoc df (cm_coords (p_cm p)) = Some (M1 (CRange rf)) -> assoc ds (cm_coords (p_cm p)) = Some (M1 (CRange rs)) ->
  bound_line rf rs relative (fst b1) (fst b2) l1 i1 -> bound_line rf rs relative (snd b1) (snd b2) l2 i2 ->
  (area (dir l1) (dir l2) == 0)%Q ->
  ~ too_short (extent r1) (extent r2) (dir l1) -> ~ too_short (extent r1) (extent r2) (dir l2) ->
  exists q, pt_line_mute2 mul p invert relative [(d1, b1); (d2, b2)] = Ok q /\
    muted mul p q invert (sample_in r1 r2 a1 a2 (fun pt => ~ on_line (fst l2) l1 /\ in_strip (fst l1) (fst l2) (dir l1) pt)).
Proof.
  intros A mul p invert relative d1 d2 a1 a2 df ds ds' r1 r2 rf rs b1 b2 l1 l2 i1 i2 W D N1 N2 E1 E2 Ef Es B1 B2 C S1 S2.
  destruct (mute2_eq mul p invert relative d1 d2 a1 a2 df ds ds' r1 r2 rf rs b1 b2 l1 l2 i1 i2 W D N1 N2 E1 E2 Ef Es B1 B2) as (f & I & _ & M).
  destruct (geometry_strip (extent r1) (extent r2) (extent_pos r1 (wf_vals _ (wp_cm _ W) _ _ E1)) (extent_pos r2 (wf_vals _ (wp_cm _ W) _ _ E2))
    l1 l2 f C S1 S2) as (g & G & K).
  apply (M g); [exact G|]. intros i j _ _. apply K.
Qed.
Print Assumptions C76_strip_partial.

(** Lines too short to have a direction are refused, and crossing lines pointing away
    from each other if both are given by two points. *)
Theorem C76_refused : forall A (mul : A -> Q -> A) p invert relative d1 d2 a1 a2 df ds ds' r1 r2 rf rs b1 b2 l1 l2 i1 i2,
  wf_patch p -> cm_dims (p_cm p) = df :: ds :: ds' ->
  nth_error (cm_dims (p_cm p)) a1 = Some d1 -> nth_error (cm_dims (p_cm p)) a2 = Some d2 ->
  assoc d1 (cm_coords (p_cm p)) = Some (M1 (CRange r1)) -> assoc d2 (cm_coords (p_cm p)) = Some (M1 (CRange r2)) ->
  assoc df (cm_coords (p_cm p)) = Some (M1 (CRange rf)) -> assoc ds (cm_coords (p_cm p)) = Some (M1 (CRange rs)) ->
  bound_line rf rs relative (fst b1) (fst b2) l1 i1 -> bound_line rf rs relative (snd b1) (snd b2) l2 i2 ->
  too_short (extent r1) (extent r2) (dir l1) \/ too_short (extent r1) (extent r2) (dir l2) \/
  ((along (extent r1) (extent r2) (dir l1) (dir l2) < 0)%Q /\ ~ near_parallel (extent r1) (extent r2) (dir l1) (dir l2) /\ i1 = false /\ i2 = false) ->
  pt_line_mute2 mul p invert relative [(d1, b1); (d2, b2)] = Err ParameterError.
Proof.
  intros A mul p invert relative d1 d2 a1 a2 df ds ds' r1 r2 rf rs b1 b2 l1 l2 i1 i2 W D N1 N2 E1 E2 Ef Es B1 B2 C.
  destruct (mute2_eq mul p invert relative d1 d2 a1 a2 df ds ds' r1 r2 rf rs b1 b2 l1 l2 i1 i2 W D N1 N2 E1 E2 Ef Es B1 B2) as (f & I & M & _).
  destruct (geometry_refused (extent r1) (extent r2) (extent_pos r1 (wf_vals _ (wp_cm _ W) _ _ E1)) (extent_pos r2 (wf_vals _ (wp_cm _ W) _ _ E2))
    l1 l2 i1 i2 f I) as (G1 & G2).
  apply M. destruct C as [C|[C|(C1 & C2 & C3 & C4)]]; auto.
Qed.
Print Assumptions C76_refused.

(** Crossing lines whose directions have a product of at most 1e-8 mute nothing. *)
Theorem C76_lost : forall A (mul : A -> Q -> A) p invert relative d1 d2 a1 a2 df ds ds' r1 r2 rf rs b1 b2 l1 l2 i1 i2,
  wf_patch p -> cm_dims (p_cm p) = df :: ds :: ds' ->
  nth_error (cm_dims (p_cm p)) a1 = Some d1 -> nth_error (cm_dims (p_cm p)) a2 = Some d2 ->
  assoc d1 (cm_coords (p_cm p)) = Some (M1 (CRange r1)) -> assoc d2 (cm_coords (p_cm p)) = Some (M1 (CRange r2)) ->
  assoc df (cm_coords (p_cm p)) = Some (M1 (CRange rf)) -> assoc ds (cm_coords (p_cm p)) = Some (M1 (CRange rs)) ->
  bound_line rf rs relative (fst b1) (fst b2) l1 i1 -> bound_line rf rs relative (snd b1) (snd b2) l2 i2 ->
  (Qabs (area (dir l1) (dir l2)) <= 1 # 100000000)%Q -> (0 <= along (extent r1) (extent r2) (dir l1) (dir l2))%Q \/ i1 = true \/ i2 = true ->
  ~ too_short (extent r1) (extent r2) (dir l1) -> ~ too_short (extent r1) (extent r2) (dir l2) ->
  ~ near_parallel (extent r1) (extent r2) (dir l1) (dir l2) ->
  exists q, pt_line_mute2 mul p invert relative [(d1, b1); (d2, b2)] = Ok q /\ muted mul p q invert (fun _ => False).
Proof.
  intros A mul p invert relative d1 d2 a1 a2 df ds ds' r1 r2 rf rs b1 b2 l1 l2 i1 i2 W D N1 N2 E1 E2 Ef Es B1 B2 C F S1 S2 P.
  destruct (mute2_eq mul p invert relative d1 d2 a1 a2 df ds ds' r1 r2 rf rs b1 b2 l1 l2 i1 i2 W D N1 N2 E1 E2 Ef Es B1 B2) as (f & I & _ & M).
  assert (F' : (0 <= along (extent r1) (extent r2) (dir l1) (dir l2))%Q \/ f <> None).
  { destruct F as [F|F]; [left; exact F|right]. destruct I as (_ & I1 & I2 & I3). destruct i1, i2.
    - apply I3; reflexivity.
    - rewrite I1 by reflexivity. discriminate.
    - rewrite I2 by reflexivity. discriminate.
    - destruct F; discriminate. }
  destruct (geometry_lost (extent r1) (extent r2) (extent_pos r1 (wf_vals _ (wp_cm _ W) _ _ E1)) (extent_pos r2 (wf_vals _ (wp_cm _ W) _ _ E2))
    l1 l2 f C F' S1 S2 P) as (g & G & K).
  destruct (M g (fun _ => False) G) as (q & Q & (U1 & U2 & U3 & U4)); [intros i j _ _; apply K|].
  exists q. split; [exact Q|]. split; [exact U1|]. split; [exact U2|]. split; [exact U3|].
  intros ix J. destruct (U4 ix J) as (x & X & _ & Y). exists x. split; [exact X|]. split; [contradiction|].
  intros _. apply Y. intros (i & j & _ & _ & []).
Qed.
Print Assumptions C76_lost.

(** ** Witnesses *)
Definition side4 : crange := mkRange KInt 0 4 1 4.

(** A wedge from the docstring of line_mute, with a line given by one number; one with
    two pairs; one turned round; a strip; what is refused. *)
Example C76_applies :
  wf_patch square /\
  bound_line side4 side4 true BNone (BNum 0) ((0, 0), (1, 0))%Q true /\
  bound_line side4 side4 true (BPair 0 2) (BPair 0 3) ((0, 0), (2, 3))%Q false /\
  on_line (0, 0)%Q ((0, 0), (1, 0))%Q /\ on_line (0, 0)%Q ((0, 0), (2, 3))%Q /\
  ~ too_short (extent side4) (extent side4) (1, 0)%Q /\ ~ near_parallel (extent side4) (extent side4) (1, 0)%Q (2, 3)%Q /\
  turned (extent side4) (extent side4) (1, 0)%Q (2, 3)%Q true false (1, 0)%Q (2, 3)%Q /\
  in_wedge (0, 0)%Q (1, 0)%Q (2, 3)%Q (sample_at side4 3, sample_at side4 3) /\
  kept (pt_line_mute2 Qmult square false true [("distance", (BNone, BPair 0 2)); ("time", (BNum 0, BPair 0 3))])
    = [1;1;1;1; 1;0;1;1; 1;0;0;1; 1;0;0;0]%Q /\
  kept (pt_line_mute2 Qmult square false true [("distance", (BNone, BPair 2 0)); ("time", (BNum 0, BPair 3 0))])
    = [1;1;1;1; 1;1;1;1; 1;1;1;1; 1;1;1;1]%Q /\
  kept (pt_line_mute2 Qmult square true true [("distance", (BPair 0 1, BPair 0 1)); ("time", (BPair 0 1, BPair 2 3))])
    = [0;1;0;0; 0;0;1;0; 0;0;0;1; 0;0;0;0]%Q /\
  kept (pt_line_mute2 Qmult square true true [("distance", (BPair 0 1, BPair 1 0)); ("time", (BPair 0 1, BPair 3 2))])
    = [0;1;0;0; 0;0;1;0; 0;0;0;1; 0;0;0;0]%Q /\
  pt_line_mute2 Qmult square false true [("distance", (BPair 0 1, BPair 1 0)); ("time", (BPair 0 1, BPair 0 0))] = Err ParameterError /\
  pt_line_mute2 Qmult square false true [("distance", (BPair 0 1, BPair 1 1)); ("time", (BPair 0 1, BPair 0 0))] = Err ParameterError.
Proof.
  split; [apply patch_okb_ok; vm_compute; reflexivity|].
  split; [apply (bl_second side4 side4 true 0)|]. split; [apply (bl_pair side4 side4 true 0 2 0 3)|].
  split; [reflexivity|]. split; [reflexivity|]. split; [unfold too_short; vm_compute; discriminate|].
  split; [unfold near_parallel; vm_compute; discriminate|].
  split; [left; split; [vm_compute; discriminate|split; reflexivity]|].
  split; [exists 1%Q, 1%Q; vm_compute; repeat split|].
  repeat split; vm_compute; reflexivity.
Qed.

(** REFUTED: the region between two lines that cross is muted, however short they are
    drawn. Directions (1, 1) and (1, 2) mute a sample which the same directions drawn
    ten thousand times shorter leave. *)
Theorem C76_short_refuted : exists (p : patch Q) q q', wf_patch p /\
  pt_line_mute2 Qmult p false true [("distance", (BPair 0 1, BPair 0 1)); ("time", (BPair 0 1, BPair 0 2))] = Ok q /\
  pt_line_mute2 Qmult p false true
    [("distance", (BPair 0 (1 # 10000), BPair 0 (1 # 10000))); ("time", (BPair 0 (1 # 10000), BPair 0 (2 # 10000)))] = Ok q' /\
  nd_get (p_data q) [2; 3] = Some 0%Q /\ nd_get (p_data q') [2; 3] = Some 1%Q.
Proof.
  exists square. do 2 eexists. split; [apply patch_okb_ok; vm_compute; reflexivity|].
  split; [vm_compute; reflexivity|]. split; [vm_compute; reflexivity|]. split; vm_compute; reflexivity.
Qed.
Print Assumptions C76_short_refuted.

(** REFUTED: the order of the keywords does not matter. Numbers are read with the labels
    of the first two dimensions of the patch (mute.py 251), not with those of the
    dimensions named. *)
Theorem C76_order_refuted : exists (p : patch Q) bx by_ q q', wf_patch p /\
  pt_line_mute2 Qmult p false false [("distance", bx); ("time", by_)] = Ok q /\
  pt_line_mute2 Qmult p false false [("time", by_); ("distance", bx)] = Ok q' /\
  nd_get (p_data q) [2; 1] = Some 0%Q /\ nd_get (p_data q') [2; 1] = Some 1%Q.
Proof.
  exists (panel (rng 10 1 4) (rng 0 1 4)), (BPair 10 11, BPair 10 11), (BPair 0 1, BPair 0 0). do 2 eexists.
  split; [apply patch_okb_ok; vm_compute; reflexivity|].
  split; [vm_compute; reflexivity|]. split; [vm_compute; reflexivity|]. split; vm_compute; reflexivity.
Qed.
Print Assumptions C76_order_refuted.

(** * C77: slopes *)

(** With ascending labels, and the first two dimensions of the patch given in their
    order, the samples whose offsets from the first labels have a ratio strictly between
    the slopes are muted; 0 and infinity are slopes. *)
Theorem C77_slopes_partial : forall A (mul : A -> Q -> A) p s1 s2 invert d1 d2 ds r1 r2, wf_patch p ->
  cm_dims (p_cm p) = d1 :: d2 :: ds ->
  assoc d1 (cm_coords (p_cm p)) = Some (M1 (CRange r1)) -> assoc d2 (cm_coords (p_cm p)) = Some (M1 (CRange r2)) ->
  0 < r_step r1 -> 0 < r_step r2 -> 2 <= r_len r1 -> slope_ok s1 -> slope_ok s2 ->
  (extent r1 <= 1000000000)%Q -> (extent r2 <= 1000000000)%Q ->
  (let w := number r1 ((r_len r1 - 1) * r_step r1) in
   near_parallel (extent r1) (extent r2) (segment w s1) (segment w s2) \/
   (1 # 100000000 < Qabs (area (segment w s1) (segment w s2)))%Q) ->
  exists q, pt_slope_mute mul p s1 s2 d1 d2 invert = Ok q /\
    muted mul p q invert (sample_in r1 r2 0 1 (slope_between s1 s2)).
Proof. intros A. exact slope_region. Qed.
Print Assumptions C77_slopes_partial.

(** Negative slopes and unsorted labels are refused. *)
Theorem C77_refused : forall A (mul : A -> Q -> A) p s1 s2 invert d1 d2,
  (forall q, (q < 0)%Q -> s1 = SFin q \/ s2 = SFin q -> pt_slope_mute mul p s1 s2 d1 d2 invert = Err ParameterError) /\
  (forall k v, slope_ok s1 -> slope_ok s2 -> assoc d1 (cm_coords (p_cm p)) = Some (M1 (CArr k v)) ->
     pt_slope_mute mul p s1 s2 d1 d2 invert = Err CoordError).
Proof. intros A mul p s1 s2 invert d1 d2. split; [exact (slope_negative mul p s1 s2 invert d1 d2)|exact (slope_unsorted mul p s1 s2 invert d1 d2)]. Qed.
Print Assumptions C77_refused.

(** ** Witnesses *)
Example C77_applies :
  wf_patch square /\ slope_ok (SFin (1 # 2)) /\ slope_ok (SFin 0) /\ slope_ok SInf /\
  (extent side4 <= 1000000000)%Q /\
  (1 # 100000000 < Qabs (area (segment (number side4 3) (SFin (1 # 2))) (segment (number side4 3) (SFin 2))))%Q /\
  slope_between (SFin (1 # 2)) (SFin 2) (sample_at side4 2, sample_at side4 2) /\
  kept (pt_slope_mute Qmult square (SFin (1 # 2)) (SFin 2) "distance" "time" false) = [1;1;1;1; 1;0;1;1; 1;1;0;0; 1;1;0;0]%Q /\
  kept (pt_slope_mute Qmult square SInf (SFin 1) "distance" "time" false) = [1;1;1;1; 1;1;1;1; 1;0;1;1; 1;0;0;1]%Q /\
  kept (pt_slope_mute Qmult square (SFin 0) (SFin 1) "distance" "time" true) = [0;0;0;0; 0;0;1;1; 0;0;0;1; 0;0;0;0]%Q /\
  kept (pt_slope_mute Qmult square (SFin 1) (SFin 1) "distance" "time" false) = [1;1;1;1; 1;1;1;1; 1;1;1;1; 1;1;1;1]%Q.
Proof.
  split; [apply patch_okb_ok; vm_compute; reflexivity|]. split; [right; reflexivity|]. split; [left; reflexivity|]. split; [exact I|].
  split; [vm_compute; discriminate|]. split; [vm_compute; reflexivity|]. split; [left; split; vm_compute; reflexivity|].
  repeat split; vm_compute; reflexivity.
Qed.

(** REFUTED: the origin is at the start of each dimension, so that the other end can be
    made the origin by flipping (docstring, mute.py 584-593). On the flipped patch
    nothing is muted, or the mute is refused. *)
Theorem C77_flip_refuted : exists (p : patch Q), wf_patch p /\
  assoc "distance" (cm_coords (p_cm p)) = Some (rng 3 (-1) 4) /\
  (exists q, pt_slope_mute Qmult p (SFin (1 # 2)) (SFin 2) "distance" "time" false = Ok q /\
     forall ix, inb [4; 4] ix -> nd_get (p_data q) ix = Some 1%Q) /\
  pt_slope_mute Qmult p (SFin 0) (SFin 1) "distance" "time" false = Err ParameterError.
Proof.
  exists (panel (rng 3 (-1) 4) (rng 0 1 4)). split; [apply patch_okb_ok; vm_compute; reflexivity|]. split; [reflexivity|].
  split; [|vm_compute; reflexivity]. eexists. split; [vm_compute; reflexivity|].
  intros ix H. inversion H as [|? i ? ? Hi H']; subst. inversion H' as [|? j ? ? Hj H'']; subst. inversion H''; subst.
  assert (i = 0 \/ i = 1 \/ i = 2 \/ i = 3) as [->|[->|[->| ->]]] by lia;
  assert (j = 0 \/ j = 1 \/ j = 2 \/ j = 3) as [->|[->|[->| ->]]] by lia; vm_compute; reflexivity.
Qed.
Print Assumptions C77_flip_refuted.

(** REFUTED: the dimensions may be given in any order, such as time and distance for a
    slowness (docstring, mute.py 577-582). The slowness of sample (2, 1) is 1 / 2. *)
Theorem C77_order_refuted : exists (p : patch Q) q, wf_patch p /\
  pt_slope_mute Qmult p (SFin 0) (SFin 1) "time" "distance" false = Ok q /\ nd_get (p_data q) [2; 1] = Some 1%Q /\
  exists q', pt_slope_mute Qmult p (SFin 1) SInf "distance" "time" false = Ok q' /\ nd_get (p_data q') [2; 1] = Some 0%Q.
Proof.
  exists (panel (rng 10 1 4) (rng 0 1 4)). eexists. split; [apply patch_okb_ok; vm_compute; reflexivity|].
  split; [vm_compute; reflexivity|]. split; [vm_compute; reflexivity|]. eexists. split; vm_compute; reflexivity.
Qed.
Print Assumptions C77_order_refuted.

(** Seconds, round trips, order and range of the time conversions. *)
From Coq Require Import ZArith List Bool Reals Lia Lra Psatz.
From Flocq Require Import Core.Core IEEE754.BinarySingleNaN.
From Verif Require Import Base TimeModel TimeProofs.
Local Open Scope R_scope.

Lemma nearest_int n : ZnearestE (IZR n) = n.
Proof. apply Znearest_imp. rewrite Rminus_diag_eq by reflexivity. rewrite Rabs_R0. lra. Qed.

Lemma in_int64_iff n : in_int64 n = true <-> (- 2 ^ 63 <= n < 2 ^ 63)%Z.
Proof. unfold in_int64. rewrite andb_true_iff, Z.leb_le, Z.ltb_lt. reflexivity. Qed.
Lemma time_of_some n : n <> int64_min -> time_of n = Some n.
Proof. intros H. unfold time_of. now rewrite (proj2 (Z.eqb_neq _ _) H). Qed.
Lemma wrap64_in n : in_int64 n = true -> wrap64 n = n.
Proof. rewrite in_int64_iff. intros H. unfold wrap64. rewrite Z.mod_small; lia. Qed.

(** Conversion between units. *)
Lemma in_unit_up u v n : (attos v <= attos u)%Z -> let k := (n * (attos u / attos v))%Z in
  in_int64 k = true -> k <> int64_min -> in_unit u v (Some n) = Some k.
Proof.
  intros H k I N. cbn [in_unit]. rewrite (proj2 (Z.leb_le _ _) H). fold k.
  rewrite wrap64_in by exact I. now apply time_of_some.
Qed.
Lemma in_unit_same u n : in_int64 n = true -> n <> int64_min -> in_unit u u (Some n) = Some n.
Proof.
  intros I N. assert (P : (attos u / attos u = 1)%Z) by (destruct u; reflexivity).
  assert (Q := in_unit_up u u n (Z.le_refl _)). cbv zeta in Q. rewrite P, Z.mul_1_r in Q. now apply Q.
Qed.

(** ** Whole seconds *)
Definition max_seconds : Z := 4611686018.

Lemma seconds_fmt n : (Z.abs n <= max_seconds)%Z -> generic_format radix2 fexp64 (IZR (n * billion)).
Proof.
  intros H. replace (n * billion)%Z with ((n * 1953125) * 2 ^ 9)%Z by (unfold billion; lia).
  rewrite mult_IZR. change (IZR (2 ^ 9)) with (bpow radix2 9). apply fmt; [|lia].
  unfold max_seconds in H. change (2 ^ 53)%Z with 9007199254740992%Z. lia.
Qed.
Lemma seconds_rnd n : (Z.abs n <= max_seconds)%Z -> rnd (IZR (n * billion)) = IZR (n * billion).
Proof. intros H. apply round_generic; [apply valid_rnd_N|now apply seconds_fmt]. Qed.

Lemma seconds_range n : (Z.abs n <= max_seconds)%Z -> in_int64 (n * billion) = true /\ (n * billion)%Z <> int64_min.
Proof.
  unfold max_seconds, billion, int64_min. rewrite in_int64_iff. change (2 ^ 63)%Z with 9223372036854775808%Z. lia.
Qed.
Lemma seconds_small n : (Z.abs n <= max_seconds)%Z -> (Z.abs n <= 2 ^ 53)%Z.
Proof. unfold max_seconds. change (2 ^ 53)%Z with 9007199254740992%Z. lia. Qed.

Lemma int_seconds_dt iso n : (Z.abs n <= max_seconds)%Z ->
  to_datetime64_scalar iso (SInt n) = Ok (Some (n * billion)%Z).
Proof.
  intros H. cbn [to_datetime64_scalar asarray1 array_to_float bind map].
  destruct (float_of_exact n (seconds_small n H)) as [E F].
  rewrite float_times_one by exact F. unfold rounded_ns. rewrite E.
  replace (IZR n * 1000000000) with (IZR (n * billion)) by (rewrite mult_IZR; reflexivity).
  rewrite seconds_rnd by exact H. rewrite nearest_int.
  destruct (seconds_range n H) as [I N]. rewrite I. now rewrite time_of_some.
Qed.
Lemma int_seconds_td n : (Z.abs n <= max_seconds)%Z ->
  to_timedelta64_scalar (SInt n) = Ok (Ns, Some (n * billion)%Z).
Proof.
  intros H. cbn [to_timedelta64_scalar asarray1 to_timedelta64 bind map int_array_to_ns].
  destruct (seconds_range n H) as [I N]. rewrite wrap64_in by exact I.
  assert (B : (Z.abs (n * billion) <= 2 ^ 63)%Z) by (apply in_int64_iff in I; lia).
  destruct (float_of_ok _ B) as [E F]. rewrite seconds_rnd in E by exact H.
  destruct (frint_ok (float_of (n * billion))) as [C D]. rewrite E, nearest_int in C. rewrite F in D.
  rewrite (int_of_ok _ _ D C I). now rewrite time_of_some.
Qed.

(** ** Nanoseconds to seconds *)
Lemma td_seconds_ns n : in_int64 n = true -> n <> int64_min ->
  td_seconds Ns (Some n) = fdiv (float_of n) (float_of billion).
Proof.
  intros I N. unfold td_seconds. change (finer Ns Sc) with Ns. rewrite in_unit_same by assumption. reflexivity.
Qed.
Lemma td_seconds_R n : in_int64 n = true -> n <> int64_min ->
  B2R (td_seconds Ns (Some n)) = rnd (rnd (IZR n) / 1000000000) /\ is_finite (td_seconds Ns (Some n)) = true.
Proof.
  intros I N. rewrite td_seconds_ns by assumption.
  assert (B : (Z.abs n <= 2 ^ 63)%Z) by (apply in_int64_iff in I; lia).
  destruct (float_of_ok n B) as [E F]. destruct billion_float as [Eb Fb].
  destruct (fdiv_ok (float_of n) (float_of billion)) as [C D].
  - rewrite Eb. lra.
  - rewrite E, Eb. unfold Rdiv. rewrite Rabs_mult. rewrite (Rabs_right (/ 1000000000)) by lra.
    apply Rle_trans with (bpow radix2 63 * 1).
    + apply Rmult_le_compat; try lra; try apply Rabs_pos.
      apply rnd_abs_le; [lia|]. rewrite bpow63. now apply abs_IZR_le.
    + rewrite Rmult_1_r. apply bpow_le. lia.
  - rewrite C, D, E, Eb. now split.
Qed.

Lemma seconds_back n : (Z.abs n <= max_seconds)%Z ->
  B2R (td_seconds Ns (Some (n * billion)%Z)) = IZR n /\ is_finite (td_seconds Ns (Some (n * billion)%Z)) = true.
Proof.
  intros H. destruct (seconds_range n H) as [I N]. destruct (td_seconds_R _ I N) as [E F]. split; [|exact F].
  rewrite E, seconds_rnd by exact H.
  replace (IZR (n * billion) / 1000000000) with (IZR n) by (rewrite mult_IZR; unfold billion; field).
  apply round_generic; [apply valid_rnd_N|]. apply fmt_int. now apply seconds_small.
Qed.

(** ** Round trip through float seconds *)
Definition back (n : Z) : Z := rounded_ns (td_seconds Ns (Some n)).

(** With the three rounding errors bounded by powers of two. *)
Lemma back_err n a b c e1 :
  in_int64 n = true -> n <> int64_min ->
  (-900 <= b)%Z -> (-900 <= c)%Z ->
  Rabs (rnd (IZR n) - IZR n) <= e1 ->
  Rabs (rnd (IZR n) / 1000000000) <= bpow radix2 b ->
  Rabs (rnd (rnd (IZR n) / 1000000000) * 1000000000) <= bpow radix2 c ->
  a = e1 + 1000000000 * bpow radix2 (b - 54) + bpow radix2 (c - 54) ->
  Rabs (rnd (B2R (td_seconds Ns (Some n)) * 1000000000) - IZR n) <= a.
Proof.
  intros I N Hb Hc H1 H2 H3 ->. destruct (td_seconds_R n I N) as [E _]. rewrite E.
  assert (E2 := rnd_err _ b ltac:(lia) H2). assert (E3 := rnd_err _ c ltac:(lia) H3).
  set (r := rnd (IZR n)) in *. set (f := rnd (r / 1000000000)) in *.
  replace (rnd (f * 1000000000) - IZR n)
    with ((rnd (f * 1000000000) - f * 1000000000) + ((f - r / 1000000000) * 1000000000) + (r - IZR n)) by field.
  apply Rle_trans with (1 := Rabs_triang _ _).
  assert (T := Rabs_triang (rnd (f * 1000000000) - f * 1000000000) ((f - r / 1000000000) * 1000000000)).
  rewrite (Rabs_mult (f - r / 1000000000)), (Rabs_right 1000000000) in T by lra. lra.
Qed.

Definition exact_limit : Z := 4194304 * 1000000000.

Lemma div_le x c m : 0 < c -> Rabs x <= m * c -> Rabs (x / c) <= m.
Proof.
  intros C H. unfold Rdiv. rewrite Rabs_mult, (Rabs_right (/ c)) by (apply Rle_ge, Rlt_le, Rinv_0_lt_compat; exact C).
  apply Rmult_le_reg_r with c; [exact C|]. rewrite Rmult_assoc, Rinv_l by lra. lra.
Qed.

Lemma back_exact n : (Z.abs n <= exact_limit)%Z -> back n = n.
Proof.
  intros H. unfold exact_limit in H.
  assert (I : in_int64 n = true) by (apply in_int64_iff; change (2 ^ 63)%Z with 9223372036854775808%Z; lia).
  assert (N : n <> int64_min) by (unfold int64_min; change (2 ^ 63)%Z with 9223372036854775808%Z; lia).
  assert (X : rnd (IZR n) = IZR n).
  { apply round_generic; [apply valid_rnd_N|]. apply fmt_int. change (2 ^ 53)%Z with 9007199254740992%Z. lia. }
  assert (A : Rabs (IZR n) <= 4194304 * 1000000000).
  { rewrite <- mult_IZR. apply abs_IZR_le. lia. }
  assert (D : Rabs (IZR n / 1000000000) <= bpow radix2 22).
  { apply div_le; [lra|]. exact A. }
  unfold back, rounded_ns. apply Znearest_imp.
  eapply Rle_lt_trans; [apply (back_err n _ 22 52 0); [exact I|exact N|lia|lia| | | |reflexivity]|].
  - rewrite X, Rminus_diag_eq, Rabs_R0 by reflexivity. lra.
  - rewrite X. exact D.
  - rewrite X, Rabs_mult, (Rabs_right 1000000000) by lra.
    assert (Y : Rabs (rnd (IZR n / 1000000000)) <= bpow radix2 22) by (apply rnd_abs_le; [lia|exact D]).
    apply Rle_trans with (bpow radix2 22 * 1000000000); [apply Rmult_le_compat_r; [lra|exact Y]|].
    cbn. lra.
  - cbn. lra.
Qed.

Lemma nearest_err x n k : Rabs (x - IZR n) <= IZR k -> (Z.abs (ZnearestE x - n) <= k)%Z.
Proof.
  intros H. apply Rabs_le_inv in H.
  assert (L : (n - k <= ZnearestE x)%Z).
  { rewrite <- (nearest_int (n - k)). apply (@Zrnd_le ZnearestE (valid_rnd_N _)). rewrite minus_IZR. lra. }
  assert (U : (ZnearestE x <= n + k)%Z).
  { rewrite <- (nearest_int (n + k)). apply (@Zrnd_le ZnearestE (valid_rnd_N _)). rewrite plus_IZR. lra. }
  lia.
Qed.

(** constants.py 115-116: within SMALLDT64 .. LARGEDT64. *)
Definition far_limit : Z := 9223372036854775808 - 5000000000.

Lemma back_far n : (Z.abs n <= far_limit)%Z -> (Z.abs (back n - n) <= 1978)%Z.
Proof.
  intros H. unfold far_limit in H.
  assert (I : in_int64 n = true) by (apply in_int64_iff; change (2 ^ 63)%Z with 9223372036854775808%Z; lia).
  assert (N : n <> int64_min) by (unfold int64_min; change (2 ^ 63)%Z with 9223372036854775808%Z; lia).
  assert (A : Rabs (IZR n) <= 9223372036854775808 - 5000000000).
  { rewrite <- minus_IZR. apply abs_IZR_le. lia. }
  assert (A' : Rabs (IZR n) <= bpow radix2 63) by (cbn; lra).
  assert (E1 := rnd_err (IZR n) 63 ltac:(lia) A').
  assert (D : Rabs (rnd (IZR n) / 1000000000) <= bpow radix2 34).
  { apply div_le; [lra|]. assert (Y := rnd_abs_le (IZR n) 63 ltac:(lia) A').
    apply Rle_trans with (1 := Y). cbn. lra. }
  assert (E2 := rnd_err _ 34 ltac:(lia) D).
  assert (C : Rabs (rnd (rnd (IZR n) / 1000000000) * 1000000000) <= bpow radix2 63).
  { set (r := rnd (IZR n)) in *. set (f := rnd (r / 1000000000)) in *.
    replace (f * 1000000000) with ((f - r / 1000000000) * 1000000000 + ((r - IZR n) + IZR n)) by field.
    apply Rle_trans with (1 := Rabs_triang _ _).
    assert (T := Rabs_triang (r - IZR n) (IZR n)).
    rewrite Rabs_mult, (Rabs_right 1000000000) by lra.
    cbn in E1, E2 |- *. lra. }
  unfold back, rounded_ns. apply nearest_err.
  eapply Rle_trans; [apply (back_err n _ 34 63 (bpow radix2 (63 - 54))); [exact I|exact N|lia|lia|exact E1|exact D|exact C|reflexivity]|].
  cbn. lra.
Qed.

(** Up to 2^31 seconds from 1970 (the year 2038). *)
Definition near_limit : Z := 2147483648 * 1000000000.

Lemma back_near n : (Z.abs n <= near_limit)%Z -> (Z.abs (back n - n) <= 376)%Z.
Proof.
  intros H. unfold near_limit in H.
  assert (I : in_int64 n = true) by (apply in_int64_iff; change (2 ^ 63)%Z with 9223372036854775808%Z; lia).
  assert (N : n <> int64_min) by (unfold int64_min; change (2 ^ 63)%Z with 9223372036854775808%Z; lia).
  assert (A : Rabs (IZR n) <= bpow radix2 31 * 1000000000).
  { change (bpow radix2 31) with (IZR 2147483648). rewrite <- mult_IZR. apply abs_IZR_le. lia. }
  assert (A' : Rabs (IZR n) <= bpow radix2 61) by (cbn in A |- *; lra).
  assert (E1 := rnd_err (IZR n) 61 ltac:(lia) A').
  assert (F : generic_format radix2 fexp64 (bpow radix2 31 * 1000000000)).
  { replace (bpow radix2 31 * 1000000000) with (IZR (2147483648 * billion)) by (rewrite mult_IZR; reflexivity).
    apply seconds_fmt. unfold max_seconds. lia. }
  assert (D : Rabs (rnd (IZR n) / 1000000000) <= bpow radix2 31).
  { apply div_le; [lra|]. apply abs_round_le_generic; [apply fexp64_valid|apply valid_rnd_N|exact F|exact A]. }
  assert (C : Rabs (rnd (rnd (IZR n) / 1000000000) * 1000000000) <= bpow radix2 61).
  { rewrite Rabs_mult, (Rabs_right 1000000000) by lra.
    assert (Y := rnd_abs_le _ 31 ltac:(lia) D).
    apply Rle_trans with (bpow radix2 31 * 1000000000); [apply Rmult_le_compat_r; [lra|exact Y]|]. cbn. lra. }
  unfold back, rounded_ns. apply nearest_err.
  eapply Rle_trans; [apply (back_err n _ 31 61 (bpow radix2 (61 - 54))); [exact I|exact N|lia|lia|exact E1|exact D|exact C|reflexivity]|].
  cbn. lra.
Qed.

Lemma round_trip n k : (Z.abs n <= far_limit)%Z -> back n = k -> (Z.abs (k - n) <= 1978)%Z ->
  floats_to_times [td_seconds Ns (Some n)] = [Some k].
Proof.
  intros H E K. unfold far_limit in H.
  assert (I : in_int64 n = true) by (apply in_int64_iff; change (2 ^ 63)%Z with 9223372036854775808%Z; lia).
  assert (N : n <> int64_min) by (unfold int64_min; change (2 ^ 63)%Z with 9223372036854775808%Z; lia).
  destruct (td_seconds_R n I N) as [_ F]. rewrite float_times_one by exact F. fold (back n). rewrite E.
  assert (I' : in_int64 k = true) by (apply in_int64_iff; change (2 ^ 63)%Z with 9223372036854775808%Z; lia).
  rewrite I', time_of_some; [reflexivity|]. unfold int64_min; change (2 ^ 63)%Z with 9223372036854775808%Z; lia.
Qed.

(** ** Order and range *)
Lemma rounded_mono x y : B2R x <= B2R y -> (rounded_ns x <= rounded_ns y)%Z.
Proof. intros H. unfold rounded_ns. apply (@Zrnd_le ZnearestE (valid_rnd_N _)). apply rnd_le. lra. Qed.

Lemma rnd_rel x : bpow radix2 (-1000) <= Rabs x -> Rabs (rnd x - x) <= bpow radix2 (-53) * Rabs x.
Proof.
  intros H. apply Rle_trans with (1 := error_le_half_ulp radix2 fexp64 _ x).
  assert (U := ulp_FLT_le radix2 (-1074) 53 x). change (FLT_exp (-1074) 53) with fexp64 in U.
  assert (H' : bpow radix2 (-1074 + 53 - 1) <= Rabs x) by (apply Rle_trans with (2 := H); apply bpow_le; lia).
  specialize (U H'). change (bpow radix2 (1 - 53)) with (2 * bpow radix2 (-53)) in U || idtac.
  replace (bpow radix2 (1 - 53)) with (2 * bpow radix2 (-53)) in U
    by (change 2 with (bpow radix2 1); rewrite <- bpow_plus; reflexivity).
  lra.
Qed.
Lemma rnd_err_any x : Rabs (rnd x - x) <= bpow radix2 (-53) * Rabs x + bpow radix2 (-1000).
Proof.
  destruct (Rle_lt_dec (bpow radix2 (-1000)) (Rabs x)) as [L|L].
  - assert (R := rnd_rel x L). assert (P := bpow_gt_0 radix2 (-1000)). lra.
  - assert (E := rnd_err x (-1000) ltac:(lia) (Rlt_le _ _ L)).
    assert (P : 0 <= bpow radix2 (-53) * Rabs x) by (apply Rmult_le_pos; [apply bpow_ge_0|apply Rabs_pos]).
    assert (Q : bpow radix2 (-1000 - 54) <= bpow radix2 (-1000)) by (apply bpow_le; lia). lra.
Qed.
Lemma rounded_err (x : b64) :
  Rabs (IZR (rounded_ns x) - B2R x * 1000000000)
  <= / 2 + bpow radix2 (-53) * Rabs (B2R x * 1000000000) + bpow radix2 (-1000).
Proof.
  unfold rounded_ns. set (p := B2R x * 1000000000).
  assert (A := Znearest_half (fun z => negb (Z.even z)) (rnd p)). assert (B := rnd_err_any p).
  rewrite Rabs_minus_sym in A. assert (T := Rabs_triang (IZR (ZnearestE (rnd p)) - rnd p) (rnd p - p)).
  replace (IZR (ZnearestE (rnd p)) - rnd p + (rnd p - p)) with (IZR (ZnearestE (rnd p)) - p) in T by ring. lra.
Qed.

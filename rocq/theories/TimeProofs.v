(** Facts about the float primitives of TimeModel. *)
From Coq Require Import ZArith List Bool Reals Lia Lra Psatz.
From Flocq Require Import Core.Core IEEE754.BinarySingleNaN.
From Verif Require Import Base TimeModel.
Local Open Scope R_scope.

Notation fexp64 := (SpecFloat.fexp 53 1024).
Notation rnd := (round radix2 fexp64 ZnearestE).

Lemma fexp64_FLT e : fexp64 e = FLT_exp (-1074) 53 e.
Proof. reflexivity. Qed.

#[global] Instance fexp64_valid : Valid_exp fexp64 := FLT_exp_valid (-1074) 53.
#[global] Instance fexp64_mono : Monotone_exp fexp64 := FLT_exp_monotone (-1074) 53.

(** m * 2^e with m of at most 53 bits is a float. *)
Lemma fmt (m e : Z) : (Z.abs m <= 2 ^ 53)%Z -> (-1074 <= e)%Z -> generic_format radix2 fexp64 (IZR m * bpow radix2 e).
Proof.
  intros Hm He.
  destruct (Z.eq_dec (Z.abs m) (2 ^ 53)) as [E|E].
  - assert (F : generic_format radix2 fexp64 (bpow radix2 (53 + e))).
    { apply (generic_format_FLT_bpow radix2 (-1074) 53); lia. }
    assert (M : (m = 2 ^ 53 \/ m = - 2 ^ 53)%Z) by lia.
    rewrite bpow_plus in F. change (bpow radix2 53) with (IZR (2 ^ 53)) in F.
    destruct M as [->| ->]; [exact F|].
    rewrite opp_IZR, Ropp_mult_distr_l_reverse. apply generic_format_opp, F.
  - apply (generic_format_FLT radix2 (-1074) 53). exists (Float radix2 m e).
    + reflexivity.
    + cbn. lia.
    + exact He.
Qed.

Lemma fmt_int n : (Z.abs n <= 2 ^ 53)%Z -> generic_format radix2 fexp64 (IZR n).
Proof. intros H. generalize (fmt n 0 H ltac:(lia)). cbn [bpow]. now rewrite Rmult_1_r. Qed.

Lemma fmt_bpow e : (-1074 <= e)%Z -> generic_format radix2 fexp64 (bpow radix2 e).
Proof. intros H. generalize (fmt 1 e ltac:(cbv; discriminate) H). now rewrite Rmult_1_l. Qed.

Lemma rnd_abs_le x e : (-1074 <= e)%Z -> Rabs x <= bpow radix2 e -> Rabs (rnd x) <= bpow radix2 e.
Proof. intros He H. apply abs_round_le_generic; [apply fexp64_valid|apply valid_rnd_N|now apply fmt_bpow|exact H]. Qed.

Lemma small_lt x : Rabs x <= bpow radix2 500 -> Rlt_bool (Rabs (rnd x)) (bpow radix2 1024) = true.
Proof.
  intros H. apply Rlt_bool_true. apply Rle_lt_trans with (bpow radix2 500).
  - apply rnd_abs_le; [lia|exact H].
  - apply bpow_lt. lia.
Qed.

Lemma rnd_le x y : x <= y -> rnd x <= rnd y.
Proof. apply round_le; [apply fexp64_valid|apply valid_rnd_N]. Qed.

(** Rounding error below a power of two. *)
Lemma rnd_err x e : (-1000 <= e)%Z -> Rabs x <= bpow radix2 e -> Rabs (rnd x - x) <= bpow radix2 (e - 54).
Proof.
  intros He [H|H].
  - apply Rle_trans with (1 := error_le_half_ulp radix2 fexp64 _ x).
    apply Rle_trans with (/ 2 * bpow radix2 (e - 53)).
    + apply Rmult_le_compat_l; [lra|].
      destruct (Req_dec x 0) as [->|Z].
      * apply Rle_trans with (bpow radix2 (-1074)); [right; exact (ulp_FLT_0 radix2 (-1074) 53)|apply bpow_le; lia].
      * rewrite ulp_neq_0; [|exact Z]. apply bpow_le. unfold cexp, fexp64.
        assert (mag radix2 x <= e)%Z by now apply mag_le_bpow. unfold SpecFloat.emin. lia.
    + change (/ 2) with (bpow radix2 (-1)). rewrite <- bpow_plus. right. f_equal. lia.
  - rewrite round_generic; [|apply valid_rnd_N|].
    + rewrite Rminus_diag_eq; [|reflexivity]. rewrite Rabs_R0. apply bpow_ge_0.
    + destruct (Rcase_abs x) as [N|N].
      * rewrite Rabs_left in H; [|exact N]. replace x with (- bpow radix2 e) by lra.
        apply generic_format_opp, fmt_bpow. lia.
      * rewrite Rabs_right in H; [|exact N]. rewrite H. apply fmt_bpow. lia.
Qed.

(** ** The operations *)
Lemma bpow63 : bpow radix2 63 = IZR (2 ^ 63).
Proof. reflexivity. Qed.

Lemma abs_IZR_le n m : (Z.abs n <= m)%Z -> Rabs (IZR n) <= IZR m.
Proof. intros H. rewrite <- abs_IZR. now apply IZR_le. Qed.

Lemma float_of_gen n : Rabs (IZR n) <= bpow radix2 500 ->
  B2R (float_of n) = rnd (IZR n) /\ is_finite (float_of n) = true.
Proof.
  intros H. generalize (binary_normalize_correct 53 1024 b64_prec b64_emax mode_NE n 0 false).
  cbv zeta. replace (F2R (Float radix2 n 0)) with (IZR n) by (unfold F2R; cbn; ring).
  change (round_mode mode_NE) with ZnearestE. rewrite small_lt by exact H. intros (A & B & _). now split.
Qed.
Lemma float_of_ok n : (Z.abs n <= 2 ^ 63)%Z -> B2R (float_of n) = rnd (IZR n) /\ is_finite (float_of n) = true.
Proof.
  intros H. apply float_of_gen. apply Rle_trans with (bpow radix2 63); [rewrite bpow63; now apply abs_IZR_le|].
  apply bpow_le. lia.
Qed.
Lemma float_of_exact n : (Z.abs n <= 2 ^ 53)%Z -> B2R (float_of n) = IZR n /\ is_finite (float_of n) = true.
Proof.
  intros H. destruct (float_of_ok n) as [A B].
  - assert (2 ^ 53 <= 2 ^ 63)%Z by (apply Z.pow_le_mono_r; lia). lia.
  - split; [|exact B]. rewrite A. apply round_generic; [apply valid_rnd_N|now apply fmt_int].
Qed.

Lemma billion_float : B2R (float_of billion) = 1000000000 /\ is_finite (float_of billion) = true.
Proof. apply (float_of_exact billion). cbv; discriminate. Qed.

Lemma fmul_ok (x y : b64) : Rabs (B2R x * B2R y) <= bpow radix2 500 ->
  B2R (fmul x y) = rnd (B2R x * B2R y) /\ is_finite (fmul x y) = is_finite x && is_finite y.
Proof.
  intros H. generalize (Bmult_correct 53 1024 b64_prec b64_emax mode_NE x y).
  change (round_mode mode_NE) with ZnearestE. rewrite small_lt by exact H. intros (A & B & _). now split.
Qed.
Lemma fdiv_ok (x y : b64) : B2R y <> 0 -> Rabs (B2R x / B2R y) <= bpow radix2 500 ->
  B2R (fdiv x y) = rnd (B2R x / B2R y) /\ is_finite (fdiv x y) = is_finite x.
Proof.
  intros Y H. generalize (Bdiv_correct 53 1024 b64_prec b64_emax mode_NE x y Y).
  change (round_mode mode_NE) with ZnearestE. rewrite small_lt by exact H. intros (A & B & _). now split.
Qed.
Lemma frint_ok (x : b64) : B2R (frint x) = IZR (ZnearestE (B2R x)) /\ is_finite (frint x) = is_finite x.
Proof.
  destruct (Bnearbyint_correct 53 1024 b64_emax mode_NE x) as (A & B & _). split; [|exact B].
  unfold frint. rewrite A. change (round_mode mode_NE) with ZnearestE. apply round_FIX_IZR.
Qed.
Lemma trunc_int (x : b64) (k : Z) : B2R x = IZR k -> Btrunc x = k.
Proof.
  intros H. apply eq_IZR. rewrite (Btrunc_correct 53 1024 b64_emax), H, round_FIX_IZR, Ztrunc_IZR. reflexivity.
Qed.
Lemma int_of_ok (x : b64) (k : Z) : is_finite x = true -> B2R x = IZR k -> in_int64 k = true -> int_of x = k.
Proof. intros F E R. unfold int_of. rewrite F, (trunc_int x k E), R. reflexivity. Qed.
Lemma int_of_out (x : b64) (k : Z) : B2R x = IZR k -> in_int64 k = false -> int_of x = int64_min.
Proof. intros E R. unfold int_of. rewrite (trunc_int x k E), R. now rewrite andb_false_r. Qed.

(** ** Seconds to nanoseconds, exactly characterised *)
Definition rounded_ns (x : b64) : Z := ZnearestE (rnd (B2R x * 1000000000)).

Lemma mult_overflow (x : b64) : is_finite x = true -> ~ Rabs (rnd (B2R x * 1000000000)) < bpow radix2 1024 ->
  is_finite (fmul x (float_of billion)) = false.
Proof.
  intros F H. generalize (Bmult_correct 53 1024 b64_prec b64_emax mode_NE x (float_of billion)).
  change (round_mode mode_NE) with ZnearestE. destruct billion_float as [E _]. rewrite E.
  rewrite Rlt_bool_false by lra. fold (fmul x (float_of billion)).
  intros K. rewrite <- is_finite_SF_B2SF, K. reflexivity.
Qed.

Lemma ns_of_float (x : b64) : is_finite x = true ->
  int_of (frint (fmul x (float_of billion)))
  = if in_int64 (rounded_ns x) then rounded_ns x else int64_min.
Proof.
  intros F. destruct billion_float as [E FB].
  destruct (Rlt_dec (Rabs (rnd (B2R x * 1000000000))) (bpow radix2 1024)) as [L|L].
  - generalize (Bmult_correct 53 1024 b64_prec b64_emax mode_NE x (float_of billion)).
    change (round_mode mode_NE) with ZnearestE. rewrite E. rewrite Rlt_bool_true by exact L.
    fold (fmul x (float_of billion)). intros (A & B & _).
    destruct (frint_ok (fmul x (float_of billion))) as [C D].
    rewrite A in C. rewrite B, F, FB in D. unfold rounded_ns.
    destruct (in_int64 _) eqn:I; [now apply int_of_ok|now apply int_of_out with (1 := C)].
  - assert (NF := mult_overflow x F L).
    assert (O : in_int64 (rounded_ns x) = false).
    { destruct (in_int64 (rounded_ns x)) eqn:I; [exfalso|reflexivity]. apply L.
      unfold in_int64 in I. apply andb_prop in I. destruct I as [I1 I2].
      apply Z.leb_le in I1. apply Z.ltb_lt in I2.
      assert (N := Znearest_half (fun z => negb (Z.even z)) (rnd (B2R x * 1000000000))).
      fold (rounded_ns x) in N. unfold rounded_ns in N.
      set (r := rnd (B2R x * 1000000000)) in *.
      assert (K : Rabs (IZR (ZnearestE r)) <= bpow radix2 63) by (rewrite bpow63; apply abs_IZR_le; fold r in I1, I2; unfold rounded_ns in I1, I2; fold r in I1, I2; lia).
      apply Rle_lt_trans with (bpow radix2 64); [|apply bpow_lt; lia].
      replace r with ((r - IZR (ZnearestE r)) + IZR (ZnearestE r)) by ring.
      apply Rle_trans with (1 := Rabs_triang _ _).
      apply Rle_trans with (/ 2 + bpow radix2 63); [lra|].
      change (bpow radix2 64) with (IZR (2 ^ 64)). rewrite bpow63. cbn. lra. }
    rewrite O. destruct (frint_ok (fmul x (float_of billion))) as [_ D].
    unfold int_of. now rewrite D, NF.
Qed.

Lemma float_times_one (x : b64) : is_finite x = true ->
  floats_to_times [x] = [if in_int64 (rounded_ns x) then time_of (rounded_ns x) else None].
Proof.
  intros F. unfold floats_to_times, float_array_to_ns. cbn [map combine fst snd]. rewrite F, ns_of_float by exact F.
  destruct (in_int64 _); reflexivity.
Qed.
Lemma float_times_nonfinite (x : b64) : is_finite x = false -> floats_to_times [x] = [None].
Proof. intros F. unfold floats_to_times, float_array_to_ns. cbn [map combine fst snd]. now rewrite F. Qed.
Lemma float_times_map l : floats_to_times l = map (fun x => match floats_to_times [x] with t :: _ => t | [] => None end) l.
Proof.
  induction l as [|x l IH]; [reflexivity|].
  unfold floats_to_times, float_array_to_ns in *. cbn [map combine fst snd] in *. now rewrite IH.
Qed.

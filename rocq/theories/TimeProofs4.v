(** The statements of TimeProps. *)
From Coq Require Import ZArith List Bool Reals Lia Lra Strings.String.
From Flocq Require Import Core.Core IEEE754.BinarySingleNaN.
From Verif Require Import Base TimeModel TimeSpec TimeProofs TimeProofs2 TimeProofs3.
Local Open Scope Z_scope.

Lemma holds_in n : holds_ns n -> in_int64 n = true /\ n <> int64_min.
Proof. intros [A B]. split; [apply in_int64_iff; lia|unfold int64_min; lia]. Qed.

Lemma in_unit_none u v : in_unit u v None = None.
Proof. reflexivity. Qed.

Lemma whole_seconds iso n : Z.abs n <= 4611686018 ->
  to_datetime64_scalar iso (SInt n) = Ok (Some (n * 1000000000)) /\
  to_timedelta64_scalar (SInt n) = Ok (Ns, Some (n * 1000000000)) /\
  (exists f, to_float (SDt Ns (Some (n * 1000000000))) = Ok f /\ is_value f (IZR n)) /\
  (exists f, to_float (STd Ns (Some (n * 1000000000))) = Ok f /\ is_value f (IZR n)).
Proof.
  intros H. split; [now apply int_seconds_dt|]. split; [now apply int_seconds_td|].
  destruct (seconds_range n H) as [I N]. destruct (seconds_back n H) as [E F].
  change billion with 1000000000 in *.
  assert (U := in_unit_same Ns (n * 1000000000) I N).
  split; exists (td_seconds Ns (Some (n * 1000000000))); (split; [cbn [to_float]; now rewrite U|now split]).
Qed.

Lemma to_float_ns n : holds_ns n ->
  to_float (SDt Ns (Some n)) = Ok (td_seconds Ns (Some n)) /\ to_float (STd Ns (Some n)) = Ok (td_seconds Ns (Some n)).
Proof. intros H. destruct (holds_in n H) as [I N]. cbn [to_float]. now rewrite in_unit_same by assumption. Qed.

Lemma from_float iso f t : floats_to_times [f] = [t] ->
  to_datetime64_scalar iso (SFloat f) = Ok t /\ to_timedelta64_scalar (SFloat f) = Ok (Ns, t).
Proof.
  intros H. cbn [to_datetime64_scalar to_timedelta64_scalar asarray1 array_to_float to_timedelta64 bind].
  now rewrite H.
Qed.

Lemma round_trip_k iso n k : Z.abs n <= 9223372036854775808 - 5000000000 -> back n = k -> Z.abs (k - n) <= 1978 ->
  exists f, to_float (SDt Ns (Some n)) = Ok f /\ to_float (STd Ns (Some n)) = Ok f /\
    to_datetime64_scalar iso (SFloat f) = Ok (Some k) /\ to_timedelta64_scalar (SFloat f) = Ok (Ns, Some k).
Proof.
  intros H E K. exists (td_seconds Ns (Some n)).
  destruct (to_float_ns n) as [A B]; [unfold holds_ns; change (2 ^ 63) with 9223372036854775808; lia|].
  destruct (from_float iso _ _ (round_trip n k H E K)) as [C D]. auto.
Qed.

Lemma round_trip_exact iso n : Z.abs n <= 4194304000000000 ->
  exists f, to_float (SDt Ns (Some n)) = Ok f /\ to_float (STd Ns (Some n)) = Ok f /\
    to_datetime64_scalar iso (SFloat f) = Ok (Some n) /\ to_timedelta64_scalar (SFloat f) = Ok (Ns, Some n).
Proof.
  intros H. apply round_trip_k; [lia| |lia]. apply back_exact. unfold exact_limit. lia.
Qed.

Lemma round_trip_near iso n : Z.abs n <= 2147483648000000000 ->
  exists f k, to_float (SDt Ns (Some n)) = Ok f /\ to_float (STd Ns (Some n)) = Ok f /\
    to_datetime64_scalar iso (SFloat f) = Ok (Some k) /\ to_timedelta64_scalar (SFloat f) = Ok (Ns, Some k) /\
    Z.abs (k - n) <= 376.
Proof.
  intros H. assert (B := back_near n). unfold near_limit in B. specialize (B ltac:(lia)).
  destruct (round_trip_k iso n (back n)) as (f & A1 & A2 & A3 & A4); [lia|reflexivity|lia|].
  exists f, (back n). repeat split; assumption.
Qed.
Lemma round_trip_far iso n : Z.abs n <= 9223372036854775808 - 5000000000 ->
  exists f k, to_float (SDt Ns (Some n)) = Ok f /\ to_float (STd Ns (Some n)) = Ok f /\
    to_datetime64_scalar iso (SFloat f) = Ok (Some k) /\ to_timedelta64_scalar (SFloat f) = Ok (Ns, Some k) /\
    Z.abs (k - n) <= 1978.
Proof.
  intros H. assert (B := back_far n). unfold far_limit in B. specialize (B H).
  destruct (round_trip_k iso n (back n)) as (f & A1 & A2 & A3 & A4); [lia|reflexivity|lia|].
  exists f, (back n). repeat split; assumption.
Qed.

(** Floats: nearest, monotone, range. *)
Lemma float_none_or iso (f : b64) : is_finite f = true ->
  to_datetime64_scalar iso (SFloat f) = Ok (if in_int64 (rounded_ns f) then time_of (rounded_ns f) else None) /\
  to_timedelta64_scalar (SFloat f) = Ok (Ns, if in_int64 (rounded_ns f) then time_of (rounded_ns f) else None).
Proof. intros F. apply from_float. now apply float_times_one. Qed.

Lemma time_of_inv n k : time_of n = Some k -> n = k.
Proof. unfold time_of. destruct (n =? int64_min); congruence. Qed.

Lemma float_some iso (f : b64) t : to_datetime64_scalar iso (SFloat f) = Ok (Some t) ->
  is_finite f = true /\ rounded_ns f = t.
Proof.
  intros H. destruct (is_finite f) eqn:F.
  - destruct (float_none_or iso f F) as [E _]. rewrite E in H. split; [reflexivity|].
    destruct (in_int64 (rounded_ns f)); [|congruence]. apply time_of_inv. congruence.
  - destruct (from_float iso f None (float_times_nonfinite f F)) as [E _]. congruence.
Qed.
Lemma float_both iso (f : b64) t :
  to_datetime64_scalar iso (SFloat f) = Ok t <-> to_timedelta64_scalar (SFloat f) = Ok (Ns, t).
Proof.
  destruct (is_finite f) eqn:F.
  - destruct (float_none_or iso f F) as [E E']. rewrite E, E'. split; congruence.
  - destruct (from_float iso f None (float_times_nonfinite f F)) as [E E']. rewrite E, E'. split; congruence.
Qed.

Lemma monotone iso (x y : b64) a b : (real x <= real y)%R ->
  to_datetime64_scalar iso (SFloat x) = Ok (Some a) -> to_datetime64_scalar iso (SFloat y) = Ok (Some b) -> a <= b.
Proof.
  intros L A B. apply float_some in A. apply float_some in B. destruct A as [_ <-], B as [_ <-].
  now apply rounded_mono.
Qed.

Lemma nearest iso (x : b64) t : to_datetime64_scalar iso (SFloat x) = Ok (Some t) ->
  (Rabs (IZR t - real x * 1000000000) <= / 2 + / 9007199254740992 * Rabs (real x * 1000000000) + bpow radix2 (-1000))%R.
Proof.
  intros H. apply float_some in H. destruct H as [_ <-].
  exact (rounded_err x).
Qed.

Lemma in_range iso (x : b64) : is_finite x = true -> (Rabs (real x) <= 9223372036.85)%R ->
  exists t, to_datetime64_scalar iso (SFloat x) = Ok (Some t).
Proof.
  intros F L. destruct (float_none_or iso x F) as [E _].
  assert (P : (Rabs (real x * 1000000000) <= 9223372036850000000)%R).
  { rewrite Rabs_mult, (Rabs_right 1000000000) by lra. lra. }
  assert (R := rounded_err x). fold (real x) in R.
  assert (Q : (bpow radix2 (-1000) <= 1)%R) by (apply (bpow_le radix2 (-1000) 0); lia).
  change (bpow radix2 (-53)) with (/ 9007199254740992)%R in R.
  assert (D : (Rabs (IZR (rounded_ns x) - real x * 1000000000) <= 4000)%R) by lra.
  assert (K : (Rabs (IZR (rounded_ns x)) <= IZR 9223372036850004000)%R).
  { replace (IZR (rounded_ns x)) with ((IZR (rounded_ns x) - real x * 1000000000) + real x * 1000000000)%R by ring.
    assert (T := Rabs_triang (IZR (rounded_ns x) - real x * 1000000000) (real x * 1000000000)). lra. }
  rewrite <- abs_IZR in K. apply le_IZR in K.
  assert (I : in_int64 (rounded_ns x) = true) by (apply in_int64_iff; change (2 ^ 63) with 9223372036854775808; lia).
  exists (rounded_ns x). rewrite E, I, time_of_some; [reflexivity|].
  unfold int64_min; change (2 ^ 63) with 9223372036854775808; lia.
Qed.

Lemma out_of_range iso (x : b64) : is_finite x = true -> (9223372037 <= Rabs (real x))%R ->
  to_datetime64_scalar iso (SFloat x) = Ok None /\ to_timedelta64_scalar (SFloat x) = Ok (Ns, None).
Proof.
  intros F L.
  assert (X : (if in_int64 (rounded_ns x) then time_of (rounded_ns x) else None) = None).
  { assert (G : generic_format radix2 fexp64 (bpow radix2 63)) by (apply fmt_bpow; lia).
    destruct (in_int64 (rounded_ns x)) eqn:I; [|reflexivity]. apply in_int64_iff in I.
    unfold rounded_ns, real in *.
    destruct (Rcase_abs (B2R x)) as [N|N].
    - rewrite Rabs_left in L by exact N.
      assert (U : (rnd (B2R x * 1000000000) <= - bpow radix2 63)%R).
      { apply round_le_generic; [apply fexp64_valid|apply valid_rnd_N|now apply generic_format_opp|].
        change (bpow radix2 63) with (IZR 9223372036854775808). lra. }
      assert (V : ZnearestE (rnd (B2R x * 1000000000)) <= - 2 ^ 63).
      { rewrite <- (nearest_int (- 2 ^ 63)). apply (@Zrnd_le ZnearestE (valid_rnd_N _)).
        rewrite opp_IZR. exact U. }
      replace (ZnearestE (rnd (B2R x * 1000000000))) with int64_min by (unfold int64_min; lia). reflexivity.
    - rewrite Rabs_right in L by exact N.
      assert (U : (bpow radix2 63 <= rnd (B2R x * 1000000000))%R).
      { apply round_ge_generic; [apply fexp64_valid|apply valid_rnd_N|exact G|].
        change (bpow radix2 63) with (IZR 9223372036854775808). lra. }
      assert (V : 2 ^ 63 <= ZnearestE (rnd (B2R x * 1000000000))).
      { rewrite <- (nearest_int (2 ^ 63)). apply (@Zrnd_le ZnearestE (valid_rnd_N _)). exact U. }
      lia. }
  destruct (float_none_or iso x F) as [A B]. rewrite A, B, X. auto.
Qed.

Lemma nulls iso (f : b64) : is_finite f = false ->
  to_datetime64_scalar iso (SFloat f) = Ok None /\ to_timedelta64_scalar (SFloat f) = Ok (Ns, None).
Proof. intros F. apply from_float. now apply float_times_nonfinite. Qed.

(** Units. *)
Lemma units iso u k n : ns_in u k -> holds_ns (n * k) ->
  to_datetime64_scalar iso (SDt u (Some n)) = Ok (Some (n * k)) /\
  to_timedelta64_scalar (STd u (Some n)) = Ok (Ns, Some (n * k)) /\
  to_int (SDt u (Some n)) = Ok (NInt (n * k)) /\ to_int (STd u (Some n)) = Ok (NInt (n * k)).
Proof.
  intros U H. destruct (holds_in _ H) as [I N].
  assert (E : in_unit u Ns (Some n) = Some (n * k)).
  { assert (K : attos Ns <= attos u /\ attos u / attos Ns = k) by (destruct U; split; cbv; congruence).
    destruct K as [K1 K2]. assert (Q := in_unit_up u Ns n K1). cbv zeta in Q. rewrite K2 in Q. now apply Q. }
  cbn [to_datetime64_scalar to_timedelta64_scalar to_int]. rewrite E. auto.
Qed.

(** Arrays element by element. *)
Lemma map_ok_map {A B} (g : A -> B) l : map_ok (fun x => Ok (g x)) l = Ok (map g l).
Proof. induction l as [|x l IH]; [reflexivity|]. cbn. now rewrite IH. Qed.
Lemma map_ok_ext {A B C} (f : B -> result C) (g : A -> B) (h : A -> C) l :
  (forall x, f (g x) = Ok (h x)) -> map_ok f (map g l) = Ok (map h l).
Proof. intros E. induction l as [|x l IH]; [reflexivity|]. cbn. now rewrite E, IH. Qed.

Lemma scalar_floats (f : b64) : match floats_to_times [f] with t :: _ => Ok t | [] => Err IndexError end
  = Ok (match floats_to_times [f] with t :: _ => t | [] => None end).
Proof. reflexivity. Qed.

Lemma elementwise iso a : to_datetime64 iso a = map_ok (to_datetime64_scalar iso) (elements a).
Proof.
  destruct a as [l|l|u l|u l|l]; cbn [to_datetime64 elements array_to_float bind].
  - symmetry. rewrite float_times_map, map_map. apply map_ok_ext. intros x. reflexivity.
  - symmetry. rewrite float_times_map. rewrite <- (map_id l) at 1. rewrite map_map.
    rewrite (map_ok_ext _ _ (fun x => match floats_to_times [x] with t :: _ => t | [] => None end)); [reflexivity|].
    intros x. reflexivity.
  - symmetry. apply map_ok_ext. reflexivity.
  - symmetry. rewrite float_times_map, map_map. apply map_ok_ext. intros x. reflexivity.
  - reflexivity.
Qed.
Lemma elementwise_td a : match a with AInts _ | AFloats _ | ATds _ _ => True | _ => False end ->
  (do l <- to_timedelta64 a; Ok (map (pair Ns) l)) = map_ok to_timedelta64_scalar (elements a).
Proof.
  destruct a as [l|l|u l|u l|l]; intros H; try destruct H; cbn [to_timedelta64 elements bind]; symmetry.
  - unfold int_array_to_ns. rewrite !map_map. apply map_ok_ext. intros x. reflexivity.
  - rewrite float_times_map, map_map. apply map_ok_ext. intros x. reflexivity.
  - rewrite map_map. apply map_ok_ext. intros x. reflexivity.
Qed.
Lemma elementwise_length iso a l : to_datetime64 iso a = Ok l -> zlen l = alen a.
Proof.
  rewrite elementwise. intros H.
  assert (G : forall (s : list scalar) r, map_ok (to_datetime64_scalar iso) s = Ok r -> List.length r = List.length s).
  { induction s as [|x s IH]; intros r E; cbn in E; [injection E as <-; reflexivity|].
    destruct (to_datetime64_scalar iso x); cbn in E; [|congruence].
    destruct (map_ok _ s) eqn:M; cbn in E; [|congruence]. injection E as <-. cbn. now rewrite (IH _ eq_refl). }
  apply G in H. unfold zlen. rewrite H. destruct a; cbn [elements alen]; rewrite ?map_length; reflexivity.
Qed.

Lemma strings u n : holds_ns n ->
  to_timedelta64_scalar (SStr (str_timedelta u (Some n))) = Ok (u, Some n) /\
  to_timedelta64_scalar (SStr (str_timedelta u None)) = Ok (Ns, None).
Proof.
  intros H. destruct (holds_in n H) as [I N]. split; [now apply read_back|reflexivity].
Qed.

Lemma missing_float : forall u, to_float SNull = Ok fnan /\ to_float (SDt u None) = Ok fnan /\ to_float (STd u None) = Ok fnan /\
  forall l i, znth l i = Some None ->
    (exists r, array_to_float (ADts u l) = Ok r /\ znth r i = Some fnan) /\
    (exists r, array_to_float (ATds u l) = Ok r /\ znth r i = Some fnan).
Proof.
  assert (M : forall (g : option Z -> b64) l i, znth l i = Some None -> znth (map g l) i = Some (g None)).
  { intros g l i H. unfold znth in *. destruct (i <? 0)%Z; [discriminate|]. rewrite nth_error_map, H. reflexivity. }
  intros u. split; [reflexivity|]. split; [now destruct u|]. split; [now destruct u|]. intros l i H. cbn [array_to_float]. split.
  - eexists. split; [reflexivity|]. now rewrite (M (fun t => td_seconds Ns (in_unit u Ns t)) l i H).
  - eexists. split; [reflexivity|]. now rewrite (M (td_seconds u) l i H).
Qed.

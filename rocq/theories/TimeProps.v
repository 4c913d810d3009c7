(** C45: time conversions.
    Model: TimeModel.v. Specification vocabulary: TimeSpec.v. [iso] is numpy's
    parser of ISO 8601 strings. *)
From Coq Require Import ZArith List Bool Reals Lra Strings.String.
From Flocq Require Import Core.Core IEEE754.BinarySingleNaN.
From Verif Require Import Base TimeModel TimeSpec TimeProofs4.
Local Open Scope Z_scope.

Definition no_iso (s : string) : result (option Z) := Err Unmodelled.

(** Whole seconds are exact up to the year 2116, there and back. *)
Theorem C45_whole_seconds : forall iso n, Z.abs n <= 4611686018 ->
  to_datetime64_scalar iso (SInt n) = Ok (Some (n * 1000000000)) /\
  to_timedelta64_scalar (SInt n) = Ok (Ns, Some (n * 1000000000)) /\
  (exists f, to_float (SDt Ns (Some (n * 1000000000))) = Ok f /\ is_value f (IZR n)) /\
  (exists f, to_float (STd Ns (Some (n * 1000000000))) = Ok f /\ is_value f (IZR n)).
Proof. exact whole_seconds. Qed.
Print Assumptions C45_whole_seconds.
Example C45_whole_seconds_witness :
  to_datetime64_scalar no_iso (SInt (- 1700000001)) = Ok (Some (- 1700000001000000000)).
Proof. vm_compute. reflexivity. Qed.

(** Integers pass through binary64, so the first whole second that goes wrong is
    4611686019 (2116-02-20): the time is 512 ns late, for dates and for durations. *)
Theorem C45_whole_seconds_refuted :
  to_datetime64_scalar no_iso (SInt 4611686019) = Ok (Some (4611686019 * 1000000000 + 512)) /\
  to_timedelta64_scalar (SInt 4611686019) = Ok (Ns, Some (4611686019 * 1000000000 + 512)).
Proof. vm_compute. split; reflexivity. Qed.
Print Assumptions C45_whole_seconds_refuted.

(** Times of up to 48 days (4194304 s) survive the trip through float seconds. *)
Theorem C45_round_trip : forall iso n, Z.abs n <= 4194304000000000 ->
  exists f, to_float (SDt Ns (Some n)) = Ok f /\ to_float (STd Ns (Some n)) = Ok f /\
    to_datetime64_scalar iso (SFloat f) = Ok (Some n) /\ to_timedelta64_scalar (SFloat f) = Ok (Ns, Some n).
Proof. exact round_trip_exact. Qed.
Print Assumptions C45_round_trip.
Example C45_round_trip_witness :
  (do f <- to_float (STd Ns (Some (- 4194303999999999))); to_timedelta64_scalar (SFloat f)) = Ok (Ns, Some (- 4194303999999999)).
Proof. vm_compute. reflexivity. Qed.

(** Beyond that they do not: five nanoseconds over 48 days is the first to change,
    and a date of today comes back 21 ns early. *)
Theorem C45_round_trip_refuted :
  (do f <- to_float (SDt Ns (Some 4194304000000005)); to_datetime64_scalar no_iso (SFloat f)) = Ok (Some 4194304000000004) /\
  (do f <- to_float (SDt Ns (Some 1700000000123456789)); to_datetime64_scalar no_iso (SFloat f)) = Ok (Some 1700000000123456768).
Proof. vm_compute. split; reflexivity. Qed.
Print Assumptions C45_round_trip_refuted.

(** How far off: at most 376 ns until 2038 and at most 1978 ns between SMALLDT64
    and LARGEDT64, where the trip never ends in NaT. *)
Theorem C45_round_trip_near : forall iso n, Z.abs n <= 2147483648000000000 ->
  exists f k, to_float (SDt Ns (Some n)) = Ok f /\ to_float (STd Ns (Some n)) = Ok f /\
    to_datetime64_scalar iso (SFloat f) = Ok (Some k) /\ to_timedelta64_scalar (SFloat f) = Ok (Ns, Some k) /\
    Z.abs (k - n) <= 376.
Proof. exact round_trip_near. Qed.
Print Assumptions C45_round_trip_near.
Theorem C45_round_trip_far : forall iso n, Z.abs n <= 9223372036854775808 - 5000000000 ->
  exists f k, to_float (SDt Ns (Some n)) = Ok f /\ to_float (STd Ns (Some n)) = Ok f /\
    to_datetime64_scalar iso (SFloat f) = Ok (Some k) /\ to_timedelta64_scalar (SFloat f) = Ok (Ns, Some k) /\
    Z.abs (k - n) <= 1978.
Proof. exact round_trip_far. Qed.
Print Assumptions C45_round_trip_far.
Example C45_round_trip_far_witness :
  (do f <- to_float (SDt Ns (Some 9223372031854775807)); to_datetime64_scalar no_iso (SFloat f)) = Ok (Some 9223372031854774272).
Proof. vm_compute. reflexivity. Qed.

(** Float seconds become the nearest nanosecond, up to the rounding of one
    multiplication; the same for dates and durations; and in order. *)
Theorem C45_nearest : forall iso (x : b64) t, to_datetime64_scalar iso (SFloat x) = Ok (Some t) ->
  (Rabs (IZR t - real x * 1000000000) <= / 2 + / 9007199254740992 * Rabs (real x * 1000000000) + bpow radix2 (-1000))%R.
Proof. exact nearest. Qed.
Print Assumptions C45_nearest.
Theorem C45_both : forall iso (x : b64) t,
  to_datetime64_scalar iso (SFloat x) = Ok t <-> to_timedelta64_scalar (SFloat x) = Ok (Ns, t).
Proof. exact float_both. Qed.
Print Assumptions C45_both.
Theorem C45_monotone : forall iso (x y : b64) a b, (real x <= real y)%R ->
  to_datetime64_scalar iso (SFloat x) = Ok (Some a) -> to_datetime64_scalar iso (SFloat y) = Ok (Some b) -> a <= b.
Proof. exact monotone. Qed.
Print Assumptions C45_monotone.
(** Every float up to 9223372036.85 s has a time, none from 9223372037 s on, nor
    NaN and the infinities: those become NaT. *)
Theorem C45_in_range : forall iso (x : b64), is_finite x = true -> (Rabs (real x) <= 9223372036.85)%R ->
  exists t, to_datetime64_scalar iso (SFloat x) = Ok (Some t).
Proof. exact in_range. Qed.
Print Assumptions C45_in_range.
Theorem C45_out_of_range : forall iso (x : b64), is_finite x = true -> (9223372037 <= Rabs (real x))%R ->
  to_datetime64_scalar iso (SFloat x) = Ok None /\ to_timedelta64_scalar (SFloat x) = Ok (Ns, None).
Proof. exact out_of_range. Qed.
Print Assumptions C45_out_of_range.
Theorem C45_not_finite : forall iso (f : b64), is_finite f = false ->
  to_datetime64_scalar iso (SFloat f) = Ok None /\ to_timedelta64_scalar (SFloat f) = Ok (Ns, None).
Proof. exact nulls. Qed.
Print Assumptions C45_not_finite.
(** 1.5 s, 2 s, 10^10 s. *)
Definition f_1_5 : b64 := fdiv (float_of 3) (float_of 2).
Example C45_floats_witness :
  to_datetime64_scalar no_iso (SFloat f_1_5) = Ok (Some 1500000000) /\
  to_datetime64_scalar no_iso (SFloat (float_of 2)) = Ok (Some 2000000000) /\
  is_finite (float_of 10000000000) = true /\
  to_datetime64_scalar no_iso (SFloat (float_of 10000000000)) = Ok None /\
  is_finite fnan = false.
Proof. vm_compute. repeat split. Qed.

(** An integer number of seconds too large for a duration wraps round instead:
    585 years become 0.29 s. *)
Theorem C45_wrap_around_refuted :
  to_timedelta64_scalar (SInt 18446744074) = Ok (Ns, Some 290448384) /\
  to_datetime64_scalar no_iso (SInt 18446744074) = Ok None.
Proof. vm_compute. split; reflexivity. Qed.
Print Assumptions C45_wrap_around_refuted.

(** Times in coarser units become nanoseconds exactly. *)
Theorem C45_units : forall iso u k n, ns_in u k -> holds_ns (n * k) ->
  to_datetime64_scalar iso (SDt u (Some n)) = Ok (Some (n * k)) /\
  to_timedelta64_scalar (STd u (Some n)) = Ok (Ns, Some (n * k)) /\
  to_int (SDt u (Some n)) = Ok (NInt (n * k)) /\ to_int (STd u (Some n)) = Ok (NInt (n * k)).
Proof. exact units. Qed.
Print Assumptions C45_units.
Example C45_units_witness : ns_in Ms 1000000 /\ holds_ns ((- 7) * 1000000) /\
  to_int (SDt Ms (Some (- 7))) = Ok (NInt (- 7000000)).
Proof. repeat split; try constructor. Qed.

(** An array of dates handed to to_timedelta64 is read as the integers behind it,
    in whatever unit they are: one day in seconds becomes 86400 ns. *)
Theorem C45_unit_ignored_refuted :
  to_timedelta64 (ADts Sc [Some 86400]) = Ok [Some 86400] /\
  to_datetime64 no_iso (ADts Sc [Some 86400]) = Ok [Some 86400000000000].
Proof. vm_compute. split; reflexivity. Qed.
Print Assumptions C45_unit_ignored_refuted.

(** A missing time: None becomes NaN, but NaT becomes the smallest integer. *)
Theorem C45_missing_int_refuted :
  to_int SNull = Ok (NFloat fnan) /\ to_int (SDt Ns None) = Ok (NInt (- 9223372036854775808)).
Proof. split; reflexivity. Qed.
Print Assumptions C45_missing_int_refuted.

(** As float seconds, every missing time is NaN, alone or in an array. *)
Theorem C45_missing_float : forall u, to_float SNull = Ok fnan /\ to_float (SDt u None) = Ok fnan /\ to_float (STd u None) = Ok fnan /\
  forall l i, znth l i = Some None ->
    (exists r, array_to_float (ADts u l) = Ok r /\ znth r i = Some fnan) /\
    (exists r, array_to_float (ATds u l) = Ok r /\ znth r i = Some fnan).
Proof. exact missing_float. Qed.
Print Assumptions C45_missing_float.
Example C45_missing_float_witness : znth [Some 1; None; Some 2] 1 = Some (None : option Z).
Proof. reflexivity. Qed.

(** Arrays are converted element by element. *)
Theorem C45_arrays : forall iso a, to_datetime64 iso a = map_ok (to_datetime64_scalar iso) (elements a).
Proof. exact elementwise. Qed.
Print Assumptions C45_arrays.
Theorem C45_arrays_length : forall iso a l, to_datetime64 iso a = Ok l -> zlen l = alen a.
Proof. exact elementwise_length. Qed.
Print Assumptions C45_arrays_length.
Theorem C45_arrays_timedelta : forall a, match a with AInts _ | AFloats _ | ATds _ _ => True | _ => False end ->
  (do l <- to_timedelta64 a; Ok (map (pair Ns) l)) = map_ok to_timedelta64_scalar (elements a).
Proof. exact elementwise_td. Qed.
Print Assumptions C45_arrays_timedelta.
Example C45_arrays_witness :
  to_datetime64 no_iso (AFloats [f_1_5; fnan; float_of (-1)]) = Ok [Some 1500000000; None; Some (- 1000000000)] /\
  to_timedelta64 (ATds Ms [Some 3; None]) = Ok [Some 3000000; None].
Proof. vm_compute. split; reflexivity. Qed.

(** The text of a duration is read back as that duration. *)
Theorem C45_strings : forall u n, holds_ns n ->
  to_timedelta64_scalar (SStr (str_timedelta u (Some n))) = Ok (u, Some n) /\
  to_timedelta64_scalar (SStr (str_timedelta u None)) = Ok (Ns, None).
Proof. exact strings. Qed.
Print Assumptions C45_strings.
Example C45_strings_witness : str_timedelta Us (Some (- 120)) = "-120 microseconds"%string /\
  to_timedelta64_scalar (SStr "-120 microseconds") = Ok (Us, Some (- 120)).
Proof. vm_compute. split; reflexivity. Qed.

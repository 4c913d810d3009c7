(** What the time conversions should do, independent of the model's helpers. *)
From Coq Require Import ZArith List Reals.
From Flocq Require Import Core.Core IEEE754.BinarySingleNaN.
From Verif Require Import Base TimeModel.
Local Open Scope Z_scope.

(** A number of nanoseconds datetime64[ns] / timedelta64[ns] can hold. *)
Definition holds_ns (n : Z) : Prop := - 2 ^ 63 < n < 2 ^ 63.

(** Nanoseconds in a unit not finer than the nanosecond. *)
Inductive ns_in : tunit -> Z -> Prop :=
  | ns_wk : ns_in Wk 604800000000000
  | ns_dy : ns_in Dy 86400000000000
  | ns_hr : ns_in Hr 3600000000000
  | ns_mn : ns_in Mn 60000000000
  | ns_sc : ns_in Sc 1000000000
  | ns_ms : ns_in Ms 1000000
  | ns_us : ns_in Us 1000
  | ns_ns : ns_in Ns 1.

(** The elements of an array, as python objects. *)
Definition elements (a : array) : list scalar :=
  match a with
  | AInts l => map SInt l
  | AFloats l => map SFloat l
  | ADts u l => map (SDt u) l
  | ATds u l => map (STd u) l
  | AObjs l => l
  end.

(** [f] is a float whose value is the real number [x]. *)
Definition is_value (f : b64) (x : R) : Prop := is_finite f = true /\ B2R f = x.
(** The value of a float. *)
Definition real (f : b64) : R := B2R f.

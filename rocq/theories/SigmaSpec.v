(** Specification vocabulary for the smoothing of masks (C105). *)
From Verif Require Import Base FrameModel SigmaModel.
From Coq Require Import Strings.String QArith Qabs.
Local Open Scope list_scope.

(** The smoothing asked for along a dimension. *)
Definition asked (s : smoothing) (d : string) : option sval := match s with One v => Some v | PerDim m => assoc d m end.
(** The dimensions that are smoothed, with their axes, in the order of the mask's. *)
Definition smoothed (s : smoothing) (da : list (string * Z)) : list (string * Z) := filter (fun e => match asked s (fst e) with Some _ => true | None => false end) da.
(** The integer nearest to a number, the even one of two. *)
Definition nearest (x : Q) (n : Z) : Prop :=
  (Qabs (inject_Z n - x) <= 1 # 2)%Q /\ (Qabs (inject_Z n - x) == 1 # 2 -> Z.even n = true)%Q.
(** The number of samples for a value: none, a number of samples, a fraction of the dimension, or
    a quantity. *)
Definition width (len : string -> Z) (count : string -> Q -> result Z) (d : string) (v : sval) (n : Z) : Prop :=
  match v with
  | VNone => n = 0%Z
  | VInt z => n = z
  | VFloat q => (0 <= q /\ q <= 1)%Q /\ nearest (inject_Z (len d) * q) n
  | VQuantity q => count d q = Ok n
  end.

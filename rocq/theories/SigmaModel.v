(** Model of the smoothing of masks: _get_smooth_sigma of dascore/proc/mute.py, the widths given
    to the Gaussian filter.

    Floats are exact rationals. Lengths of coordinates and sample counts of quantities are
    functions of the dimension. *)
From Verif Require Import Base FrameModel ChunkModel UnitsModel.
From Coq Require Import Strings.String QArith.
Local Open Scope list_scope.

Inductive sval := VNone | VInt (z : Z) | VFloat (q : Q) | VQuantity (q : Q).
Inductive smoothing := One (v : sval) | PerDim (m : list (string * sval)).
(** mute.py 69-91: values, axes and dimensions. *)
Definition broadcast (dims : list string) (axes : list Z) (s : smoothing) : result (list sval * list Z * list string) :=
  match s with
  | One v => Ok (repeat v (List.length dims), axes, dims)
  | PerDim m =>
      if negb (forallb (fun k => mem k dims) (map fst m)) then Err ParameterError
      else if negb (Nat.eqb (List.length dims) (List.length axes)) then Err ValueError
      else
        let sd := filter (fun d => match assoc d m with Some _ => true | None => false end) dims in
        do vals <- map_result (fun d => match assoc d m with Some v => Ok v | None => Err KeyError end) sd;
        do ax <- map_result (fun d => match assoc d (combine dims axes) with Some a => Ok a | None => Err KeyError end) sd;
        Ok (vals, ax, sd)
  end.
(** mute.py 97-111: one value. *)
Definition samples_of (len : string -> Z) (count : string -> Q -> result Z) (d : string) (v : sval) : result Z :=
  match v with
  | VNone => Ok 0%Z
  | VInt z => Ok z
  | VFloat q => if Qle_bool 0 q && Qle_bool q 1 then Ok (q_round (inject_Z (len d) * q)) else Err ParameterError
  | VQuantity q => count d q
  end.
(** mute.py 93-112. *)
Fixpoint to_samples (len : string -> Z) (count : string -> Q -> result Z) (dims : list string) (vals : list sval) : result (list Z) :=
  match dims, vals with
  | [], [] => Ok []
  | d :: dt, v :: vt => do n <- samples_of len count d v; do t <- to_samples len count dt vt; Ok (n :: t)
  | _, _ => Err ValueError
  end.
(** mute.py 66-117: widths in samples, and axes. *)
Definition smooth_sigma (len : string -> Z) (count : string -> Q -> result Z) (dims : list string) (axes : list Z) (s : smoothing) : result (list Z * list Z) :=
  do b <- broadcast dims axes s;
  let '(vals, ax, sd) := b in
  do ns <- to_samples len count sd vals;
  Ok (ns, ax).

(** Specification vocabulary for units: what a number with a unit stands for. *)
From Coq Require Import QArith List Strings.String.
From Verif Require Import Base FrameModel UnitsModel.
Import ListNotations.
Local Open Scope string_scope.
Local Open Scope Q_scope.

(** The amount, counted in the base unit, that [x] stands for when its unit is [q];
    for example 5 in units of 2 degC stands for 283.15 K. *)
Definition stands_for (x : Q) (q : quant) : Q := x * q_mag q * u_scale (q_unit q) + u_off (q_unit q).
(** Units measure the same thing. *)
Definition same_dim (p q : quant) : Prop := u_dim (q_unit p) = u_dim (q_unit q).
(** A unit one can measure in. *)
Definition proper_unit (u : unit) : Prop := 0 < u_scale u.
Definition proper (q : quant) : Prop := proper_unit (q_unit q) /\ ~ q_mag q == 0.
(** A unit that starts at zero, unlike degC. *)
Definition absolute (q : quant) : Prop := u_off (q_unit q) == 0.

(** Seconds, which times are counted in. *)
Definition in_seconds : quant := mkQuant 1 (mkUnit "s" [0; 1; 0; 0]%Z 1 0).

(** The labels of a coordinate. *)
Definition label (l : labels) (i : Z) : option Q :=
  match l with
  | LRange start _ step len => if ((0 <=? i) && (i <? len))%Z then Some (start + inject_Z i * step) else None
  | LArray vs => znth vs i
  | LPartial _ => None
  end.
Definition label_count (l : labels) : Z :=
  match l with LRange _ _ _ len => len | LArray vs => zlen vs | LPartial len => len end.
(** What the code's own coordinates look like: an evenly sampled one has at least one
    label, a step, and ends one step after its last label; times are in seconds. *)
Definition wf_ucoord (c : ucoord) : Prop :=
  match uc_labels c with
  | LRange start stop step len => (0 < len)%Z /\ ~ step == 0 /\ stop == start + step * inject_Z len
  | _ => True
  end /\
  (uc_time c = true -> uc_units c = Some in_seconds) /\
  match uc_units c with Some q => proper q | None => True end.

(** [c'] labels the same points as [c]: as many labels, each standing for the same
    amount. *)
Definition same_points (c c' : ucoord) (from to : quant) : Prop :=
  label_count (uc_labels c') = label_count (uc_labels c) /\
  forall i x, label (uc_labels c) i = Some x ->
    exists y, label (uc_labels c') i = Some y /\ stands_for y to == stands_for x from.
(** The same labels as numbers. *)
Definition same_numbers (c c' : ucoord) : Prop :=
  label_count (uc_labels c') = label_count (uc_labels c) /\
  forall i x, label (uc_labels c) i = Some x -> exists y, label (uc_labels c') i = Some y /\ y == x.

(** [c'] is [c] converted to [u]: times stay as they are, labels without units only
    get them, others stand for the same amounts in the new units. *)
Definition converted (c c' : ucoord) (u : option quant) : Prop :=
  if uc_time c then same_numbers c c' /\ uc_time c' = true /\ uc_units c' = Some in_seconds
  else uc_time c' = false /\ uc_units c' = u /\
       match uc_units c with
       | None => same_numbers c c'
       | Some from => match u with Some to => same_points c c' from to | None => False end
       end.
(** Whether a coordinate can be converted. *)
Definition convertible (c : ucoord) (u : option quant) : Prop :=
  (forall n, uc_labels c <> LPartial n) /\
  (uc_time c = true \/ uc_units c = None \/
   exists from to, uc_units c = Some from /\ u = Some to /\ same_dim from to /\ proper to).

(** The data of [out] is that of [p] converted to [u]; None converts nothing. *)
Definition data_converted (p out : upatch) (u : option quant) : Prop :=
  match u, up_units p with
  | Some to, Some from => up_units out = Some to /\ Forall2 (fun x y => stands_for y to == stands_for x from) (up_data p) (up_data out)
  | Some to, None => up_units out = Some to /\ up_data out = up_data p
  | None, _ => up_units out = up_units p /\ up_data out = up_data p
  end.

(** The base unit of what is measured. *)
Definition base_of (u : option quant) : option quant :=
  match u with None => None | Some q => Some (mkQuant 1 (base_unit (u_dim (q_unit q)))) end.

(** ** Filters *)

(** No quantity, and the number it is. *)
Definition plain (a : farg) : Prop := match a with FQuant _ => False | _ => True end.
Definition number (a : farg) : option Q := match a with FNum x => Some x | _ => None end.

(** A component passes limits that are open where there is none. *)
Definition within (lim : option Q * option Q) (f : Q) : Prop :=
  match fst lim with Some lo => lo <= f | None => True end /\
  match snd lim with Some hi => f <= hi | None => True end.
(** ... limits given as quantities, for a component of [x] in units of [u]. *)
Definition meets (lo hi : farg) (x : Q) (u : unit) : Prop :=
  match lo with FQuant q => stands_for 1 q <= stands_for x (mkQuant 1 u) | _ => True end /\
  match hi with FQuant q => stands_for x (mkQuant 1 u) <= stands_for 1 q | _ => True end.
(** An argument that is absent or a quantity with a unit of dimensionality [d]
    other than a pure number, without an offset. *)
Definition in_dim (a : farg) (d : list Z) : Prop :=
  match a with
  | FNone => True
  | FNum _ => False
  | FQuant q => u_dim (q_unit q) = d /\ u_off (q_unit q) == 0 /\ proper_unit (q_unit q) /\
                u_name (q_unit q) <> u_name dimensionless
  end.
Definition same_named (a b : farg) : Prop :=
  match a, b with FQuant p, FQuant q => q_unit p = q_unit q | _, _ => True end.
Definition positive (a : farg) : Prop := match a with FQuant q => 0 < q_mag q | _ => True end.

(** ** Histories of conversions *)

(** One call of convert_units: the numbers, the new and the old units. *)
Definition call := (list Q * option quant * option quant)%type.
Fixpoint run_calls (c : cache) (calls : list call) : list (result (list Q)) :=
  match calls with
  | [] => []
  | (data, to, from) :: rest => let '(r, c') := convert_all c data to from in r :: run_calls c' rest
  end.
(** The answer to one call on its own. *)
Definition answer (k : call) : result (list Q) :=
  let '(data, to, from) := k in do f <- converter to from; Ok (map f data).
Definition same_answer (a b : result (list Q)) : Prop :=
  match a, b with
  | Ok x, Ok y => Forall2 Qeq x y
  | Err e, Err e' => e = e'
  | _, _ => False
  end.
Definition mentions (k : call) (q : quant) : Prop :=
  let '(_, to, from) := k in to = Some q \/ from = Some q.

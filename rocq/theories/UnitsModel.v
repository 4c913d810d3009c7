(** Units: dascore/units.py, dascore/proc/units.py and the unit methods of
    dascore/core/coords.py and dascore/core/coordmanager.py.

    Numbers are exact rationals ([Q]); float64 rounding is not modelled. What the
    code asks of pint is modelled from pint's documentation: a unit has a name, a
    dimensionality and a linear relation to the base unit of that dimensionality. A
    string that pint cannot parse is not an input here. *)
From Coq Require Import QArith Qround List Strings.String Bool.
From Verif Require Import Base FrameModel.
Import ListNotations.
Local Open Scope Q_scope.

(** A pint unit: [x] of it are [x * u_scale + u_off] of the base unit, for example
    degC has scale 1 and offset 273.15. The dimensionality lists the exponents of the
    base dimensions, in a fixed order. *)
Record unit := mkUnit { u_name : string; u_dim : list Z; u_scale : Q; u_off : Q }.
(** pint.Quantity with a number as magnitude. *)
Record quant := mkQuant { q_mag : Q; q_unit : unit }.

(** Unit equality is by name ("Unit equality/hashing is exact", units.py 217-218). *)
Definition unit_eqb (u v : unit) : bool := String.eqb (u_name u) (u_name v).
Definition dim_eqb (a b : list Z) : bool := if list_eq_dec Z.eq_dec a b then true else false.

(** Quantity.to: only between units of one dimensionality (DimensionalityError
    otherwise, which dascore turns into UnitError). *)
Definition to_unit (q : quant) (u : unit) : result Q :=
  if dim_eqb (u_dim (q_unit q)) (u_dim u)
  then Ok ((q_mag q * u_scale (q_unit q) + u_off (q_unit q) - u_off u) / u_scale u)
  else Err UnitError.
(** The magnitude in the base unit, which also is what two quantities are compared
    and hashed by: 1 km == 1000 m, and 1 degC == 274.15 K. *)
Definition in_base (q : quant) : Q := q_mag q * u_scale (q_unit q) + u_off (q_unit q).
Definition quant_eqb (p q : quant) : bool :=
  dim_eqb (u_dim (q_unit p)) (u_dim (q_unit q)) && Qeq_bool (in_base p) (in_base q).

(** The delta unit pint makes of a unit by subtracting two quantities of it. *)
Definition delta (u : unit) : unit := mkUnit ("delta_" ++ u_name u) (u_dim u) (u_scale u) 0.

(** units.py 135-143 _get_conversion_factors, without its cache. *)
Definition factors := (Q * Q * Q)%type.
Definition conversion_factors (from to : quant) : result factors :=
  do add_mag <- to_unit (mkQuant 0 (q_unit from)) (q_unit to);
  do mult <- to_unit (mkQuant 1 (delta (q_unit from))) (delta (q_unit to));
  if Qeq_bool (q_mag to) 0 then Err ZeroDivision
  else Ok (mult * q_mag from, add_mag, 1 / q_mag to).

(** ... and with the cache (functools.cache): a pair of quantities equal to an
    earlier pair is answered with what the earlier one gave. *)
Definition cache := list ((quant * quant) * factors).
Fixpoint cache_get (c : cache) (from to : quant) : option factors :=
  match c with
  | [] => None
  | (f, t, r) :: rest => if quant_eqb f from && quant_eqb t to then Some r else cache_get rest from to
  end.
Definition cached_factors (c : cache) (from to : quant) : result factors * cache :=
  match cache_get c from to with
  | Some r => (Ok r, c)
  | None => match conversion_factors from to with
            | Ok r => (Ok r, (from, to, r) :: c)
            | Err e => (Err e, c)
            end
  end.

(** units.py 146-181 convert_units, for units given as quantities (or None). *)
Definition apply_factors (f : factors) (x : Q) : Q :=
  let '(m1, a, m2) := f in (x * m1 + a) * m2.
Definition convert_all (c : cache) (data : list Q) (to from : option quant) : result (list Q) * cache :=
  match from, to with
  | None, _ => (Ok data, c)
  | Some _, None => (Err UnitError, c)
  | Some f, Some t =>
      match cached_factors c f t with
      | (Ok r, c') => (Ok (map (apply_factors r) data), c')
      | (Err e, c') => (Err e, c')
      end
  end.
(** The same without the cache: what is done to each number. *)
Definition converter (to from : option quant) : result (Q -> Q) :=
  match from, to with
  | None, _ => Ok (fun x => x)
  | Some _, None => Err UnitError
  | Some f, Some t => do r <- conversion_factors f t; Ok (apply_factors r)
  end.
Definition convert (x : Q) (to from : option quant) : result Q :=
  do f <- converter to from; Ok (f x).

(** to_base_units: the base unit of a dimensionality; its name stands for pint's
    text of it. *)
Definition base_unit (d : list Z) : unit := mkUnit "base" d 1 0.
(** units.py 123-132 get_factor_and_unit, with simplify=True. *)
Definition factor_and_unit (q : option quant) : Q * option quant :=
  match q with
  | None => (1, None)
  | Some q => (in_base q, Some (mkQuant 1 (base_unit (u_dim (q_unit q)))))
  end.

(** ** Coordinates with units *)

(** A coordinate: evenly sampled (start, stop, step, length), or values given one by
    one. [time] marks datetime64 and timedelta64 labels. The class of the outcome of
    get_coord(values=...) is not modelled here (see C10). [LPartial] is a coordinate
    that has a length only (CoordPartial). *)
Inductive labels :=
  | LRange (start stop step : Q) (len : Z)
  | LArray (vs : list Q)
  | LPartial (len : Z).
Record ucoord := mkU { uc_labels : labels; uc_time : bool; uc_units : option quant }.

Definition seconds : quant := mkQuant 1 (mkUnit "s" [0; 1; 0; 0]%Z 1 0).
(** core/coords.py 275-288 check_time_units: times are always in seconds. *)
Definition with_units (l : labels) (time : bool) (u : option quant) : ucoord :=
  mkU l time (if time then Some seconds else u).

(** np.round(x, 1) and the length of an evenly sampled coordinate, core/coords.py
    1166-1224 validate_start_stop_step_len with start, stop and step. *)
Definition q_round1 (x : Q) : Q := round_half_even (Qnum x * 10) (Zpos (Qden x)) # 10.
Definition q_round (x : Q) : Z := round_half_even (Qnum x) (Zpos (Qden x)).
Definition q_sign (x : Q) : Z := Z.sgn (Qnum x).
Definition range_of (start stop step : Q) : result labels :=
  let stop := if Qeq_bool step 0 then stop
              else start + step * inject_Z (Qceiling (q_round1 ((stop - start) / step))) in
  let len := if Qeq_bool start stop then 1%Z else q_round ((stop - start) / step) in
  if (q_sign step =? q_sign (stop - start))%Z then Ok (LRange start stop step len) else Err CoordError.

(** core/coords.py 1255-1265 CoordRange.convert_units, 1438-1445
    CoordArray.convert_units, and 1057-1064: on a coordinate with a length only the
    method takes keywords but is given a position. *)
Definition coord_convert (c : ucoord) (u : option quant) : result ucoord :=
  match uc_labels c with
  | LPartial _ => Err TypeError
  | LRange start stop step len =>
      if uc_time c then Ok c
      else
        do a <- convert start u (uc_units c);
        do b <- convert stop u (uc_units c);
        do l <- range_of a b ((b - a) / inject_Z len);
        Ok (with_units l false u)
  | LArray vs =>
      match uc_units c with
      | None => Ok (with_units (LArray vs) (uc_time c) u)
      | Some _ =>
          if uc_time c then Ok (with_units (LArray vs) true u)
          else do f <- converter u (uc_units c); Ok (with_units (LArray (map f vs)) false u)
      end
  end.
(** core/coords.py 563-567 set_units; 1063. *)
Definition coord_set_units (c : ucoord) (u : option quant) : result ucoord :=
  match uc_labels c with
  | LPartial _ => Err TypeError
  | l => Ok (with_units l (uc_time c) u)
  end.
(** core/coords.py 569-572 simplify_units. *)
Definition coord_simplify (c : ucoord) : result ucoord :=
  coord_convert c (snd (factor_and_unit (uc_units c))).

(** ** Patches with units *)

(** The data, its units and the coordinates by name; dimensions and other attributes
    play no part here. *)
Record upatch := mkUP { up_data : list Q; up_units : option quant; up_coords : list (string * ucoord) }.

Fixpoint put_coord (cs : list (string * ucoord)) (n : string) (c : ucoord) : list (string * ucoord) :=
  match cs with
  | [] => []
  | (m, d) :: t => if String.eqb m n then (m, c) :: t else (m, d) :: put_coord t n c
  end.
(** core/coordmanager.py 865-880: one keyword after the other; a name without a
    coordinate is a KeyError. *)
Fixpoint cm_units (f : ucoord -> option quant -> result ucoord) (kw : list (string * option quant))
    (cs : list (string * ucoord)) : result (list (string * ucoord)) :=
  match kw with
  | [] => Ok cs
  | (n, u) :: rest =>
      match assoc n cs with
      | None => Err KeyError
      | Some c => do c' <- f c u; cm_units f rest (put_coord cs n c')
      end
  end.
(** core/coordmanager.py 882-887 simplify_units. *)
Fixpoint cm_simplify (cs : list (string * ucoord)) : result (list (string * ucoord)) :=
  match cs with
  | [] => Ok []
  | (n, c) :: t => do c' <- coord_simplify c; do t' <- cm_simplify t; Ok ((n, c') :: t')
  end.

(** proc/units.py 23-60 set_units. *)
Definition set_units (p : upatch) (data_units : option quant) (kw : list (string * option quant)) : result upatch :=
  do cs <- cm_units coord_set_units kw (up_coords p);
  Ok (mkUP (up_data p) data_units cs).
(** proc/units.py 63-114 convert_units. *)
Definition patch_convert (p : upatch) (data_units : option quant) (kw : list (string * option quant)) : result upatch :=
  do data <- match data_units with
             | Some u => do f <- converter (Some u) (up_units p); Ok (map f (up_data p))
             | None => Ok (up_data p)
             end;
  do cs <- cm_units coord_convert kw (up_coords p);
  Ok (mkUP data (match data_units with Some u => Some u | None => up_units p end) cs).
(** proc/units.py 117-145 simplify_units. *)
Definition patch_simplify (p : upatch) : result upatch :=
  let '(factor, u) := factor_and_unit (up_units p) in
  let data := if Qeq_bool factor 1 then up_data p else map (fun x => x * factor) (up_data p) in
  do cs <- cm_simplify (up_coords p);
  Ok (mkUP data u cs).

(** ** Limits of filters *)

(** An argument of get_filter_units: nothing (None or ...), a plain number, or a
    quantity. *)
Inductive farg := FNone | FNum (x : Q) | FQuant (q : quant).
Definition dimensionless : unit := mkUnit "dimensionless" [0; 0; 0; 0]%Z 1 0.
(** get_quantity of an argument. *)
Definition farg_quant (a : farg) : option quant :=
  match a with FNone => None | FNum x => Some (mkQuant x dimensionless) | FQuant q => Some q end.
Definition farg_num (a : farg) : option Q :=
  match a with FNum x => Some x | _ => None end.
Definition is_quant (a : farg) : bool := match a with FQuant _ => true | _ => false end.
Definition inverse_dim (d : list Z) : list Z := map Z.opp d.
(** 1 / quantity, for a unit without an offset (pint refuses others here). *)
Definition inverse_unit (u : unit) : unit := mkUnit ("1 / " ++ u_name u) (inverse_dim (u_dim u)) (1 / u_scale u) 0.

(** units.py 264-284 get_inverted_quant. *)
Definition inverted_quant (q : option quant) (data_unit : unit) : result (option Q * bool) :=
  match q with
  | None => Ok (None, true)
  | Some q =>
      if unit_eqb (q_unit q) dimensionless then Err UnitError
      else
        do qi <- (if dim_eqb (u_dim data_unit) (u_dim (q_unit q))
                  then (if Qeq_bool (q_mag q) 0 then Err ZeroDivision
                        else Ok (mkQuant (1 / q_mag q) (inverse_unit (q_unit q)), false))
                  else Ok (q, true));
        do mag <- to_unit (fst qi) (inverse_unit data_unit);
        Ok (Some mag, snd qi)
  end.

(** units.py 287-357 get_filter_units; the unit of the dimension is a pure unit. *)
Definition filter_units (a1 a2 : farg) (to : option unit) : result (option Q * option Q) :=
  if negb (is_quant a1 || is_quant a2) then Ok (farg_num a1, farg_num a2)
  else match to with
  | None => Err UnitError
  | Some u =>
      let q1 := farg_quant a1 in
      let q2 := farg_quant a2 in
      do _ <- match q1, q2 with
              | Some x, Some y => if unit_eqb (q_unit x) (q_unit y) then Ok tt else Err UnitError
              | _, _ => Ok tt
              end;
      do r1 <- inverted_quant q1 u;
      do r2 <- inverted_quant q2 u;
      if negb (snd r1 || snd r2) then Ok (fst r2, fst r1) else Ok (fst r1, fst r2)
  end.

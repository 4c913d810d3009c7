(** More specification vocabulary for managers: building one from keywords,
    snapping. *)
From Verif Require Import Base CoordModel CoordSpec NdModel FrameModel CmModel.
From Coq Require Import Strings.String.
Local Open Scope Z_scope.
Local Open Scope list_scope.

(** [m] is the coordinate for a given value. *)
Definition given (v : cval) (m : mcoord) : Prop :=
  match v with
  | VArr _ l => exists c, m = M1 c /\ represents c l
  | VLen n => m = M1 (CPart n)
  | VCoord (M1 (CRange r)) => m = M1 (CRange r)
  | VCoord (M1 (CMono _ l)) | VCoord (M1 (CArr _ l)) => exists c, m = M1 c /\ represents c l
  | VCoord (M1 (CPart n)) => m = M1 (CPart n)
  | VCoord (MNP s) => m = MNP s
  | VCoord (MN k a) | VNd k a => m = get_coord_nd k a
  end.

(** Names given without dimensions. *)
Definition plain_given (kw : list (string * kval)) : list string :=
  flat_map (fun e => match snd e with KTuple _ _ => [] | _ => [fst e] end) kw.

(** Names given as their own dimension that are not among [ds]. *)
Definition own_given (ds : list string) (kw : list (string * kval)) : list string :=
  flat_map (fun e => match snd e with
                     | KTuple [d] _ => if String.eqb d (fst e) && negb (mem (fst e) ds) then [fst e] else []
                     | _ => [] end) kw.

(** What snapping makes of a coordinate: times that are not already evenly
    sampled become so, keeping the first value, the number of samples and, up to
    rounding, the last value. Descending monotone coordinates stay descending. *)
Definition evened (down : bool) (v : list Z) (m' : mcoord) : Prop :=
  exists r mn mx, m' = M1 (CRange r) /\ wf_range r /\ r_len r = zlen v /\
    is_least mn v /\ is_greatest mx v /\
    let step := if zlen v =? 1 then 1000000000 else round_half_even (mx - mn) (zlen v - 1) in
    r_start r = (if down then mx else mn) /\ r_step r = (if down then - step else step).
Definition snapped (m m' : mcoord) : Prop :=
  match m with
  | M1 (CMono KTime v) => exists down, evened down v m' /\
      (ascending v -> 2 <= zlen v -> down = false) /\ (descending v -> 2 <= zlen v -> down = true)
  | M1 (CArr KTime v) => evened false v m'
  | _ => m' = m
  end.

(** Coordinates that can be snapped: numbers are not modelled, and times must not
    all round to the same step of zero. *)
Definition can_snap (c : coord) : Prop :=
  match c with
  | CMono KTime v | CArr KTime v =>
      zlen v = 1 \/ exists mn mx, is_least mn v /\ is_greatest mx v /\
                      2 <= zlen v /\ 0 < round_half_even (mx - mn) (zlen v - 1)
  | CMono KInt _ | CArr KInt _ => False
  | _ => True
  end.

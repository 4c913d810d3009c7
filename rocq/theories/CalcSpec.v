(** Specification vocabulary for derivatives and integrals (C78, C79, C80). *)
From Verif Require Import Base CoordModel CoordSpec NdModel NdSpec FrameModel CmModel CmSpec ConcatSpec.
From Coq Require Import Strings.String QArith.
Local Open Scope Z_scope.
Local Open Scope list_scope.

(** Label [i] of a coordinate as a number: times are nanoseconds and count in seconds. *)
Definition seconds (k : kind) (z : Z) : Q := match k with KTime => z # 1000000000 | KInt => inject_Z z end.
Definition label (c : coord) (i : Z) (x : Q) : Prop :=
  exists z, znth (c_ints c) i = Some z /\ x = seconds (c_kind c) z.
(** Element [i] of the line through [ix] along an axis. *)
Definition on_line (a : nd Q) (ax : nat) (ix : list Z) (i : Z) (y : Q) : Prop := nd_get a (put ix ax i) = Some y.
(** A coordinate the code takes for sorted. *)
Definition in_order (c : coord) : Prop := match c with CRange _ | CMono _ _ => True | _ => False end.

(** The dimensions asked for: all of them if none is named. *)
Definition chosen (p : patch Q) (dim : option (list string)) : list string :=
  match dim with Some l => l | None => cm_dims (p_cm p) end.
(** A dimension with sorted labels. *)
Definition sorted_dim (p : patch Q) (d : string) : Prop :=
  In d (cm_dims (p_cm p)) /\ exists c, assoc d (cm_coords (p_cm p)) = Some (M1 c) /\ in_order c.
(** Its labels are even, or it is the last dimension, or it has two labels. *)
Definition lies_along (p : patch Q) (d : string) : Prop :=
  forall c, assoc d (cm_coords (p_cm p)) = Some (M1 c) ->
    match c with CRange _ => True | _ => nth_error (rev (cm_dims (p_cm p))) 0 = Some d \/ c_len c = 2 end.

(** [q] is [m], or, in an array of integers, [m] without its fraction. *)
Definition cut (m : Q) (z : Z) : Prop :=
  ((0 <= m -> inject_Z z <= m /\ m < inject_Z (z + 1)) /\ (m <= 0 -> inject_Z (z - 1) < m /\ m <= inject_Z z))%Q.
Definition held (ints : bool) (m q : Q) : Prop :=
  if ints then exists z, q == inject_Z z /\ cut m z else q == m.

(** The slope at [x] of the parabola through three points. *)
Definition parabola (a b c x y : Q) : Prop := (a + b * x + c * (x * x) == y)%Q.
Definition slope_of_fit (x0 y0 x1 y1 x2 y2 x m : Q) : Prop :=
  exists a b c : Q, parabola a b c x0 y0 /\ parabola a b c x1 y1 /\ parabola a b c x2 y2 /\ (m == b + 2 * c * x)%Q.
(** The middle one of the three samples [s] apart used for sample [i] of [n]: itself,
    or the nearest that has neighbours on both sides. *)
Definition middle (s n i : Z) : Z := if i <? s then i + s else if n - s <=? i then i - s else i.
(** The lines of [b] along [d] are the derivatives of those of [a]. *)
Definition derivative (ints : bool) (s : Z) (cm : cman) (d : string) (a b : nd Q) : Prop :=
  wf_nd b /\ nd_shape b = nd_shape a /\
  exists ax c, nth_error (cm_dims cm) ax = Some d /\ assoc d (cm_coords cm) = Some (M1 c) /\
    forall ix i, inb (nd_shape a) ix -> nth_error ix ax = Some i ->
      let k := middle s (c_len c) i in
      exists x0 y0 x1 y1 x2 y2 x m q,
        label c (k - s) x0 /\ label c k x1 /\ label c (k + s) x2 /\ label c i x /\
        on_line a ax ix (k - s) y0 /\ on_line a ax ix k y1 /\ on_line a ax ix (k + s) y2 /\
        slope_of_fit x0 y0 x1 y1 x2 y2 x m /\ nd_get b ix = Some q /\ held ints m q.

(** [F] is the sum of the trapezoids below the line through [ix], from the first label on. *)
Definition area_below (c : coord) (a : nd Q) (ax : nat) (ix : list Z) (F : Z -> Q) : Prop :=
  (F 0%Z == 0)%Q /\
  forall j, 0 <= j -> j + 1 < c_len c ->
    exists x x' y y', label c j x /\ label c (j + 1) x' /\ on_line a ax ix j y /\ on_line a ax ix (j + 1) y' /\
      (F (j + 1)%Z - F j == (x' - x) * ((y + y') / 2))%Q.
(** The lines of [b] along [d] are the integrals of those of [a]. *)
Definition running_integral (ints : bool) (cm : cman) (d : string) (a b : nd Q) : Prop :=
  wf_nd b /\ nd_shape b = nd_shape a /\
  exists ax c, nth_error (cm_dims cm) ax = Some d /\ assoc d (cm_coords cm) = Some (M1 c) /\
    forall ix i, inb (nd_shape a) ix -> nth_error ix ax = Some i ->
      exists F q, area_below c a ax ix F /\ nd_get b ix = Some q /\ held ints (F i) q.
(** [b] has one element along [d], the integral over all labels. *)
Definition whole_integral (cm : cman) (d : string) (a b : nd Q) : Prop :=
  wf_nd b /\
  exists ax c, nth_error (cm_dims cm) ax = Some d /\ assoc d (cm_coords cm) = Some (M1 c) /\
    nd_shape b = put (nd_shape a) ax 1 /\
    forall ix, inb (nd_shape b) ix ->
      exists F q, area_below c a ax ix F /\ nd_get b ix = Some q /\ (q == F (c_len c - 1)%Z)%Q.

(** The names of the new coordinates. *)
Definition min_name (d : string) : string := ("pre_integrate_" ++ d ++ "_min")%string.
Definition max_name (d : string) : string := ("pre_integrate_" ++ d ++ "_max")%string.
Definition added (ds : list string) (n : string) : Prop := exists d, In d ds /\ (n = d \/ n = min_name d \/ n = max_name d).
(** No dimension is the beginning of a new name. *)
Definition new_names (ds : list string) (cm : cman) : Prop :=
  forall d x t, In d ds -> In x (cm_dims cm) -> min_name d <> (x ++ t)%string /\ max_name d <> (x ++ t)%string.
(** Coordinate [n] along [d] has the only value [z]. *)
Definition single (out : patch Q) (n d : string) (z : Z) : Prop :=
  exists k, assoc n (cm_coords (p_cm out)) = Some (M1 (CMono k [z])) /\ assoc n (cm_dmap (p_cm out)) = Some [d].
Definition sum (l : list Z) : Z := fold_right Z.add 0 l.
(** The coordinates of [out]: those of [p], where the dimensions [ds] have one label
    each, the mean of the old ones, and coordinates that tell the old limits. *)
Record integrated_labels (ds : list string) (p out : patch Q) : Prop :=
  { il_wf : wf_patch out;
    il_dims : cm_dims (p_cm out) = cm_dims (p_cm p);
    il_mean : forall d c, In d ds -> assoc d (cm_coords (p_cm p)) = Some (M1 c) ->
      exists z, single out d d z /\ cut (inject_Z (sum (c_ints c)) / inject_Z (zlen (c_ints c))) z;
    il_min : forall d c, In d ds -> assoc d (cm_coords (p_cm p)) = Some (M1 c) ->
      exists z, single out (min_name d) d z /\ In z (c_ints c) /\ forall y, In y (c_ints c) -> z <= y;
    il_max : forall d c, In d ds -> assoc d (cm_coords (p_cm p)) = Some (M1 c) ->
      exists z, single out (max_name d) d z /\ In z (c_ints c) /\ forall y, In y (c_ints c) -> y <= z;
    il_keep : forall n m, ~ added ds n -> assoc n (cm_coords (p_cm p)) = Some m ->
      (forall d, In d ds -> In d (dims_of (p_cm p) n) -> length_of d p = 1) -> keeps p out n;
    il_drop : forall n d, ~ added ds n -> In d ds -> In d (dims_of (p_cm p) n) -> length_of d p <> 1 -> lacks_coord out n;
    il_none : forall n, ~ added ds n -> assoc n (cm_coords (p_cm p)) = None -> lacks_coord out n }.

(** [out] is [p] with the difference of samples [k] apart over their distance, at the
    middle between them. *)
Record edgeless (k : Z) (r : crange) (p out : patch Q) : Prop :=
  { ed_wf : wf_patch out;
    ed_dims : cm_dims (p_cm out) = cm_dims (p_cm p);
    ed_data : exists ax, nth_error (cm_dims (p_cm p)) ax = Some "distance"%string /\
      nd_shape (p_data out) = put (nd_shape (p_data p)) ax (r_len r - k) /\
      forall ix i, inb (nd_shape (p_data out)) ix -> nth_error ix ax = Some i ->
        exists y y' q, on_line (p_data p) ax ix i y /\ on_line (p_data p) ax ix (i + k) y' /\
          nd_get (p_data out) ix = Some q /\ (q == (y' - y) / inject_Z (k * r_step r))%Q;
    ed_labels : exists c, assoc "distance"%string (cm_coords (p_cm out)) = Some (M1 c) /\
      c_len c = r_len r - k /\
      forall i z, znth (c_ints c) i = Some z -> 2 * z = 2 * r_start r + (2 * i + k) * r_step r;
    ed_keep : forall n m, n <> "distance"%string -> assoc n (cm_coords (p_cm p)) = Some m ->
      ~ In "distance"%string (dims_of (p_cm p) n) -> keeps p out n;
    ed_drop : forall n, n <> "distance"%string -> In "distance"%string (dims_of (p_cm p) n) -> lacks_coord out n }.

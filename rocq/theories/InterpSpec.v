(** Specification vocabulary for interpolated patches (C94). *)
From Verif Require Import Base CoordModel CoordSpec NdModel NdSpec FrameModel CmModel CmSpec MoveSpec.
From Coq Require Import Strings.String QArith.
Local Open Scope Z_scope.
Local Open Scope list_scope.

(** [y] is the value at the label [a]. *)
Definition valued (v : list Z) (f : list Q) (a : Z) (y : Q) : Prop := exists i, znth v i = Some a /\ znth f i = Some y.
(** [y] is on the line through the values at two labels next to each other; they are around
    [x], or the first two or the last two if [x] is outside of all labels. *)
Definition on_line (v : list Z) (f : list Q) (x : Z) (y : Q) : Prop :=
  exists a b ya yb, valued v f a ya /\ valued v f b yb /\ a < b /\ (forall c, In c v -> c <= a \/ b <= c) /\
    ((y - ya) * inject_Z (b - a) == (yb - ya) * inject_Z (x - a))%Q /\
    (a <= x <= b \/ (x < a /\ forall c, In c v -> a <= c) \/ (b < x /\ forall c, In c v -> c <= b)).
Definition follows (v w : list Z) (f g : list Q) : Prop :=
  zlen g = zlen w /\ forall j x y, znth w j = Some x -> znth g j = Some y -> on_line v f x y.
(** As [by_line] with lines of another length. *)
Definition by_line_to {A B} (R : list A -> list B -> Prop) (m : Z) (ax : nat) (a : nd A) (b : nd B) : Prop :=
  wf_nd b /\ nd_shape b = put (nd_shape a) ax m /\
  forall ix f, inb (nd_shape a) ix -> line a ax ix f -> exists g, line b ax ix g /\ R f g.
(** The coordinates of [cm'] are those of [cm] but [d], and without those that depend on it
    if its length has changed. *)
Definition relabelled (cm cm' : cman) (d : string) (w : list Z) (same_length : Prop) : Prop :=
  cm_dims cm' = cm_dims cm /\
  (exists c, assoc d (cm_coords cm') = Some (M1 c) /\ represents c w) /\
  forall n ds, n <> d -> assoc n (cm_dmap cm) = Some ds ->
    (In d ds /\ ~ same_length -> assoc n (cm_coords cm') = None) /\
    (~ In d ds \/ same_length -> exists m m', assoc n (cm_coords cm) = Some m /\ recoord m = Ok m' /\ assoc n (cm_coords cm') = Some m' /\ assoc n (cm_dmap cm') = Some ds).
(** The axis [ax] is the dimension [d] with the labels [v], which are all different. *)
Definition labelled {A} (p : patch A) (d : string) (ax : nat) (v : list Z) : Prop :=
  nth_error (cm_dims (p_cm p)) ax = Some d /\ NoDup v /\ 2 <= zlen v /\
  exists c, assoc d (cm_coords (p_cm p)) = Some (M1 c) /\ c_values c = map Some v /\ concrete c.

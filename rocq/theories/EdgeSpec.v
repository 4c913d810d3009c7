(** Specification vocabulary for cell edges, the arguments of filters and slope masks
    (C87, C88, C89). *)
From Verif Require Import Base CoordModel FrameModel CmModel MoveSpec.
From Coq Require Import Strings.String QArith Qabs.
Local Open Scope Z_scope.
Local Open Scope list_scope.

(** ** Edges *)

(** Labels which strictly rise ([sg] is 1) or fall ([sg] is -1). *)
Definition heads (sg : Q) (l : list Q) : Prop :=
  (sg = 1%Q \/ sg = (-1)%Q) /\
  forall i x y, znth l i = Some x -> znth l (i + 1) = Some y -> (0 < sg * (y - x))%Q.
(** The median of the distances between neighbours. *)
Definition middle_interval (l : list Q) (m : Q) : Prop :=
  exists ds x y, zlen ds = zlen l - 1 /\
    (forall i u v, znth l i = Some u -> znth l (i + 1) = Some v -> znth ds i = Some (Qabs (v - u))) /\
    ranked ds ((zlen ds - 1) / 2) x /\ ranked ds (zlen ds / 2) y /\ (m == (x + y) / 2)%Q.
(** The cells that edges bound: neighbours share an edge unless there is a gap between
    them. *)
Inductive cells : list Q -> list bool -> list (Q * Q) -> Prop :=
| cells_one lo hi : cells [lo; hi] [] [(lo, hi)]
| cells_meet lo hi es gs cs : cells (hi :: es) gs cs -> cells (lo :: hi :: es) (false :: gs) ((lo, hi) :: cs)
| cells_apart lo hi es gs cs : cells es gs cs -> cells (lo :: hi :: es) (true :: gs) ((lo, hi) :: cs).
(** The number of gaps. *)
Fixpoint gaps (gs : list bool) : Z :=
  match gs with [] => 0 | g :: t => (if g then 1 else 0) + gaps t end.

(** ** Filters *)

(** The step of a coordinate, times in seconds. *)
Definition step_is (m : mcoord) (st : Q) : Prop :=
  exists r, m = M1 (CRange r) /\
    (st == match r_kind r with KTime => r_step r # 1000000000 | KInt => inject_Z (r_step r) end)%Q.
(** A dimension of a patch, its axis and its coordinate. *)
Definition dimension {A} (p : patch A) (d : string) (ax : nat) (m : mcoord) : Prop :=
  NoDup (cm_dims (p_cm p)) /\ nth_error (cm_dims (p_cm p)) ax = Some d /\ assoc d (cm_coords (p_cm p)) = Some m.

(** ** Slopes *)

(** What rises from 0 at 0 to 1 at 1 (a quarter of a sine). *)
Definition rises (ramp : Q -> Q) : Prop :=
  (ramp 0 == 0)%Q /\ (ramp 1 == 1)%Q /\ forall x y, (0 <= x)%Q -> (x <= y)%Q -> (y <= 1)%Q -> (ramp x <= ramp y)%Q.
(** The weight a slope gets: one between [b] and [c], nothing outside of [a] and [d]. *)
Definition weight (ramp : Q -> Q) (a b c d s v : Q) : Prop :=
  (0 <= v /\ v <= 1)%Q /\
  ((b <= s /\ s <= c)%Q -> (v == 1)%Q) /\
  ((s < a \/ d <= s)%Q -> (v == 0)%Q) /\
  ((a <= s /\ s < b)%Q -> (v == ramp ((s - a) / (b - a)))%Q) /\
  ((c < s /\ s < d)%Q -> (v == 1 - ramp ((s - c) / (d - c)))%Q).

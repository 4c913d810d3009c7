(** Specification vocabulary for centred and normalized data (C92). *)
From Verif Require Import Base NdModel NdSpec FrameModel CmModel MoveSpec TrendSpec.
From Coq Require Import Strings.String QArith Qabs.
Local Open Scope Z_scope.
Local Open Scope list_scope.

(** The values of a line that are not NaN. *)
Fixpoint known (l : list (option Q)) : list Q :=
  match l with
  | [] => []
  | Some x :: t => x :: known t
  | None :: t => known t
  end.
(** Every line along the dimension [d] of [q] is related to that of [p]; the coordinates are
    the same. *)
Definition each_line (p q : patch (option Q)) (d : string) (R : list (option Q) -> list (option Q) -> Prop) : Prop :=
  p_cm q = p_cm p /\ exists ax, nth_error (cm_dims (p_cm p)) ax = Some d /\ by_line R ax (p_data p) (p_data q).
(** Element by element; NaN stays NaN. *)
Definition elementwise (R : Q -> Q -> Prop) (vs ws : list (option Q)) : Prop :=
  Forall2 (fun v w => match v, w with None, None => True | Some x, Some y => R x y | _, _ => False end) vs ws.
(** The median: the mean of the two in the middle. *)
Definition middle (l : list Q) (m : Q) : Prop :=
  exists x y, ranked l ((zlen l - 1) / 2) x /\ ranked l (zlen l / 2) y /\ (m == (x + y) / 2)%Q.
Definition all_zero (l : list Q) : Prop := forall x, In x l -> (x == 0)%Q.
Definition squares (l : list Q) : list Q := map (fun x => x * x)%Q l.
(** The variance. *)
Definition spread_of (l : list Q) (v : Q) : Prop := exists m, mean_of l m /\ mean_of (squares (map (fun x => x - m)%Q l)) v.
(** NaN stays NaN and the rest are divided by one positive number, one if all are zero;
    otherwise the size of the outcome is right. *)
Definition scaled (l w : list (option Q)) (size : list Q -> Prop) : Prop :=
  exists c, (0 < c)%Q /\ elementwise (fun x y => y * c == x)%Q l w /\ (all_zero (known l) -> (c == 1)%Q) /\ (~ all_zero (known l) -> size (known w)).
(** Mean zero and variance one wherever the root of the variance is known; lines without
    any variance become NaN. *)
Definition standard_line (root : Q -> Q) (l w : list (option Q)) : Prop :=
  (known l <> [] -> forall v, spread_of (known l) v -> 0 <= root v /\ root v * root v == v)%Q ->
  zlen w = zlen l /\ (known l = [] \/ spread_of (known l) 0 -> known w = []) /\
  (forall v, known l <> [] -> spread_of (known l) v -> ~ (v == 0)%Q -> exists m s, mean_of (known l) m /\ (0 < s)%Q /\ (s * s == v)%Q /\ elementwise (fun x y => y == (x - m) / s)%Q l w /\
     mean_of (known w) 0 /\ mean_of (squares (known w)) 1).

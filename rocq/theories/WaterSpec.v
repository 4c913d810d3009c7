(** Specification vocabulary for waterfall plots (C90, C91). *)
From Verif Require Import Base CoordModel NdModel FrameModel CmModel MoveSpec EdgeSpec.
From Coq Require Import Strings.String QArith Qabs.
Local Open Scope Z_scope.
Local Open Scope list_scope.

(** A patch with two dimensions and their coordinates. *)
Definition plane {A} (p : patch A) (m0 m1 : mcoord) : Prop :=
  exists d0 d1, cm_dims (p_cm p) = [d0; d1] /\ assoc d0 (cm_coords (p_cm p)) = Some m0 /\ assoc d1 (cm_coords (p_cm p)) = Some m1.
(** The labels of a coordinate without missing ones, times in seconds; [even]: it is
    evenly sampled, [time]: its labels are times. *)
Definition shows (m : mcoord) (even time : bool) (v : list Q) : Prop :=
  exists c zs, m = M1 c /\ c_values c = map Some zs /\
    (even = true <-> exists r, c = CRange r) /\
    (time = true <-> (exists r, c = CRange r /\ r_kind r = KTime) \/ (exists l, c = CMono KTime l) \/ (exists l, c = CArr KTime l)) /\
    v = map (fun z => if time then z # 1000000000 else inject_Z z) zs.
(** Where imshow (origin lower) draws sample [i] of [n] between [lo] and [hi]. *)
Definition pixel (lo hi : Q) (n i : Z) (a b : Q) : Prop :=
  (a == lo + inject_Z i * (hi - lo) / inject_Z n)%Q /\ (b == lo + inject_Z (i + 1) * (hi - lo) / inject_Z n)%Q.
(** Sides of a mesh. *)
Definition side (es : list Q) (i : Z) (c : Q * Q) : Prop := znth es i = Some (fst c) /\ znth es (i + 1) = Some (snd c).

Definition least (l : list Q) (v : Q) : Prop := In v l /\ forall x, In x l -> (v <= x)%Q.
Definition greatest (l : list Q) (v : Q) : Prop := In v l /\ forall x, In x l -> (x <= v)%Q.
(** The value [num] quarters of the way through the sorted values. *)
Definition quarter (l : list Q) (num : Z) (v : Q) : Prop :=
  exists x y, ranked l ((zlen l - 1) * num / 4) x /\ ranked l (Z.min ((zlen l - 1) * num / 4 + 1) (zlen l - 1)) y /\
    (v == x + inject_Z ((zlen l - 1) * num mod 4) / 4 * (y - x))%Q.

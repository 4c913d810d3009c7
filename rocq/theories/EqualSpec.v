(** Specification vocabulary for equal patches (C93). *)
From Verif Require Import Base NdModel NdSpec AttrsModel EqualModel.
From Coq Require Import Strings.Ascii Strings.String QArith Qabs.
Local Open Scope Z_scope.
Local Open Scope list_scope.

(** Within 1e-8 and a hundred thousandth of the second. *)
Definition near (x y : Q) : Prop := (Qabs (x - y) <= (1 # 100000000) + (1 # 100000) * Qabs y)%Q.
(** Numbers are near each other where both are known; times are the same and known. *)
Definition near_vals (v w : vals) : Prop :=
  match v, w with
  | Nums l, Nums m => Forall2 (fun x y => forall a b, x = Some a -> y = Some b -> near a b) l m
  | Times l, Times m => Forall2 (fun x y => exists a, x = Some a /\ y = Some a) l m
  | Nums l, Times m => l = [] /\ m = []
  | Times l, Nums m => l = [] /\ m = []
  end.
Definition same_opt (x y : option Q) : Prop := match x, y with Some a, Some b => (a == b)%Q | None, None => True | _, _ => False end.
(** Units matter for coordinates without values only. *)
Definition near_coord (c d : ecoord) : Prop :=
  ec_shape c = ec_shape d /\
  match ec_body c, ec_body d with
  | Full v, Full w => near_vals v w
  | Part a b s, Part a' b' s' => ec_units c = ec_units d /\ same_opt a a' /\ same_opt b b' /\ same_opt s s'
  | _, _ => False
  end.
Definition same_attr (x y : aval) : Prop := match x, y with ANum a, ANum b => (a == b)%Q | _, _ => x = y end.
(** [R] holds of what the two have under the names in question, and both have the same ones. *)
Definition named {A} (N : string -> Prop) (R : A -> A -> Prop) (l m : list (string * A)) : Prop :=
  forall n, N n -> (In n (map fst l) <-> In n (map fst m)) /\ forall x y, In (n, x) l -> In (n, y) m -> R x y.
(** Coordinates that matter: dimensions and those whose names do not start with an underscore. *)
Definition public (p : epatch) (n : string) : Prop := In n (ep_dims p) \/ ~ exists t, n = String "_"%char t.
Definition asked (only : bool) (n : string) : Prop := only = true -> In n required.
Definition alike (p q : epatch) (only : bool) (R : Q -> Q -> Prop) : Prop :=
  ep_dims p = ep_dims q /\ named (public p) near_coord (ep_coords p) (ep_coords q) /\ named (asked only) same_attr (ep_attrs p) (ep_attrs q) /\
  nd_shape (ep_data p) = nd_shape (ep_data q) /\ Forall2 (fun x y => exists a b, x = Some a /\ y = Some b /\ R a b) (nd_flat (ep_data p)) (nd_flat (ep_data q)).
(** Patches as they are built: every dimension has a coordinate which is as long as the axis
    of the data, and the attribute dims has the names of the dimensions (patch.py 29-36). *)
Record wf_ep (p : epatch) : Prop := {
  we_coords : NoDup (map fst (ep_coords p));
  we_attrs : NoDup (map fst (ep_attrs p));
  we_shape : Forall2 (fun d n => exists c, In (d, c) (ep_coords p) /\ ec_shape c = [n]) (ep_dims p) (nd_shape (ep_data p));
  we_dims : exists s, In ("dims"%string, AText s) (ep_attrs p) /\ ep_dims p = if String.eqb s "" then [] else str_split ","%char s }.
(** How close the data has to be. *)
Definition eqrel (close : bool) : Q -> Q -> Prop := if close then near else Qeq.
(** No NaN in the data and no NaT in the coordinates that matter. *)
Definition settled (p : epatch) : Prop :=
  (forall v, In v (nd_flat (ep_data p)) -> v <> None) /\
  (forall n c l, public p n -> In (n, c) (ep_coords p) -> ec_body c = Full (Times l) -> forall t, In t l -> t <> None).

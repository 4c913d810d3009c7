(** Specification vocabulary for deep equality (C99). *)
From Verif Require Import Base FrameModel DeepModel.
From Coq Require Import Strings.String.
Local Open Scope list_scope.

Definition both_maps (h : heap) (a b : nat) : Prop := map_of h a <> None /\ map_of h b <> None.
Definition both_equals (h : heap) (a b : nat) : Prop := has_equals h a = true /\ has_equals h b = true.
Definition both_dicts (h : heap) (a b : nat) : Prop := dict_of h a <> None /\ dict_of h b <> None.
(** Two values are compared by comparing two mappings. *)
Inductive leads (h : heap) (x y : nat) : nat -> nat -> Prop :=
  | lead_maps : both_maps h x y -> leads h x y x y
  | lead_dicts d d' : ~ both_maps h x y -> ~ both_equals h x y -> dict_of h x = Some d -> dict_of h y = Some d' -> leads h x y d d'.
(** Two values are told apart by equals or ==. *)
Inductive told_apart (robust equals : nat -> nat -> bool) (h : heap) (x y : nat) : Prop :=
  | apart_equals : ~ both_maps h x y -> both_equals h x y -> equals x y = false -> told_apart robust equals h x y
  | apart_plain : ~ both_maps h x y -> ~ both_equals h x y -> ~ both_dicts h x y -> robust x y = false -> told_apart robust equals h x y.
(** A difference can be reached from two objects in finitely many steps. *)
Inductive differ (robust equals : nat -> nat -> bool) (h : heap) (a b : nat) : Prop :=
  | differ_plain : ~ both_maps h a b -> robust a b = false -> differ robust equals h a b
  | differ_keys e e' : map_of h a = Some e -> map_of h b = Some e' -> ~ (forall k, In k (map fst e) <-> In k (map fst e')) -> differ robust equals h a b
  | differ_value e e' k x y : map_of h a = Some e -> map_of h b = Some e' -> assoc k e = Some x -> assoc k e' = Some y -> x <> y ->
      told_apart robust equals h x y -> differ robust equals h a b
  | differ_below e e' k x y x' y' : map_of h a = Some e -> map_of h b = Some e' -> assoc k e = Some x -> assoc k e' = Some y -> x <> y ->
      leads h x y x' y' -> differ robust equals h x' y' -> differ robust equals h a b.
Definition symmetric (r : nat -> nat -> bool) : Prop := forall a b, r a b = r b a.

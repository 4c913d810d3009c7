(** Specification vocabulary for N-dimensional arrays: what it means for one
    array to consist of chosen positions of another. *)
From Verif Require Import Base NdModel.

(** [ix] is a multi-index of an array of shape [s]. *)
Definition inb (s ix : list Z) : Prop := Forall2 (fun n i => 0 <= i < n) s ix.
Definition wf_nd {A} (a : nd A) : Prop :=
  Forall (fun n => 0 <= n) (nd_shape a) /\ zlen (nd_flat a) = size (nd_shape a).

(** The multi-index one gets by looking up each entry in a list of positions. *)
Fixpoint pick_ix (pss : list (list Z)) (ix : list Z) : option (list Z) :=
  match pss, ix with
  | [], [] => Some []
  | ps :: t, i :: r => match znth ps i, pick_ix t r with
                       | Some p, Some q => Some (p :: q) | _, _ => None end
  | _, _ => None
  end.

(** All positions along every axis. *)
Definition full (s : list Z) : list (list Z) := map zrange s.

(** [b] is [a] restricted, along each axis, to the listed positions in the listed
    order. *)
Definition nd_picked {A} (a b : nd A) (pss : list (list Z)) : Prop :=
  wf_nd b /\ nd_shape b = map zlen pss /\
  Forall2 (fun ps n => forall p, In p ps -> 0 <= p < n) pss (nd_shape a) /\
  forall ix, inb (map zlen pss) ix ->
    exists jx x, pick_ix pss ix = Some jx /\ nd_get a jx = Some x /\ nd_get b ix = Some x.

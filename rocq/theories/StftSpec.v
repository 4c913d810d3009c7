(** Specification vocabulary for coordinates of short-time Fourier transforms (C106). *)
From Verif Require Import Base FrameModel StftModel.
From Coq Require Import Strings.String.
Local Open Scope list_scope.

(** A place in a list of dimensions. *)
Definition at_axis (dims : list string) (n : nat) (d : string) : Prop := nth_error dims n = Some d.
(** The dimensions of the inverse: the frequency is replaced by the time, whose place is lost. *)
Definition inverse_dims (dims : list string) (f t : string) (nd : list string) : Prop :=
  (exists a b c, dims = a ++ f :: b ++ t :: c /\ nd = a ++ t :: b ++ c) \/ (exists a b c, dims = a ++ t :: b ++ f :: c /\ nd = a ++ b ++ t :: c).
(** All coordinates are those of dimensions. *)
Definition plain {A} (dims : list string) (cs : coords A) : Prop :=
  NoDup dims /\ NoDup (map fst cs) /\ forall n ds v, assoc n cs = Some (ds, v) -> In n dims /\ ds = [n].
Definition own_names (f t : string) : Prop :=
  f <> t /\ (forall n, n = f \/ n = t -> n <> "_stft_window"%string /\ n <> "_stft_old_coord"%string).

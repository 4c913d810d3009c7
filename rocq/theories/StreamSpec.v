(** Specification vocabulary for conversions to and from ObsPy streams (C107). *)
From Verif Require Import Base FrameModel StreamModel.
From Coq Require Import Strings.String.
Local Open Scope list_scope.

(** The sample at a value of the other dimension (by position) and a time. *)
Definition sample {A V} (p : patch2 A V) (i j : nat) : option A :=
  let at2 r c := match nth_error (q_rows p) r with Some l => nth_error l c | None => None end in
  if String.eqb (fst (q_dims p)) "time" then at2 j i else at2 i j.
(** The dimension which is not time. *)
Definition other_dim {A V} (p : patch2 A V) (d : string) : Prop := q_dims p = (d, "time"%string) \/ q_dims p = ("time"%string, d).
(** The data has the shape of the coordinates. *)
Definition shaped {A V} (p : patch2 A V) : Prop :=
  let n := List.length (q_values p) in
  if String.eqb (fst (q_dims p)) "time" then List.length (q_rows p) = q_len p /\ Forall (fun r => List.length r = n) (q_rows p)
  else List.length (q_rows p) = n /\ Forall (fun r => List.length r = q_len p) (q_rows p).

(** Specification vocabulary for missing values (C69). *)
From Verif Require Import Base CoordModel CoordSpec NdModel NdSpec FrameModel ChunkModel CmModel CmSpec.
From Coq Require Import Strings.String.
Local Open Scope Z_scope.
Local Open Scope list_scope.

(** Some sample, or every sample, at position [i] of axis [ax] satisfies [f]. *)
Definition some_at {A} (f : A -> bool) (a : nd A) (ax : nat) (i : Z) : Prop :=
  exists ix x, nth_error ix ax = Some i /\ nd_get a ix = Some x /\ f x = true.
Definition every_at {A} (f : A -> bool) (a : nd A) (ax : nat) (i : Z) : Prop :=
  forall ix x, nth_error ix ax = Some i -> nd_get a ix = Some x -> f x = true.

(** The positions of an axis of length [n] that are left, in order. *)
Definition remaining (n : Z) (gone : Z -> Prop) (ps : list Z) : Prop :=
  ascending ps /\ forall i, In i ps <-> 0 <= i < n /\ ~ gone i.

(** [p'] is [p] with dimension [dim] restricted to positions [ps]: samples and labels
    at those positions; other coordinates of the dimension may be gone if its length
    changes, everything else is kept. *)
Record restricted {A} (p p' : patch A) (dim : string) (ps : list Z) : Prop :=
  { rs_wf : wf_patch p';
    rs_dims : cm_dims (p_cm p') = cm_dims (p_cm p);
    rs_data : nd_picked (p_data p) (p_data p')
                (map (fun d => if String.eqb d dim then ps else pick0 (p_cm p) d) (cm_dims (p_cm p)));
    rs_coords : forall n m, assoc n (cm_coords (p_cm p)) = Some m ->
       match assoc n (cm_coords (p_cm p')) with
       | Some m' => carried m m' (picks_of (p_cm p) (fun d => if String.eqb d dim then ps else pick0 (p_cm p) d) (own0 (p_cm p)) n) /\
                    assoc n (cm_dmap (p_cm p')) = assoc n (cm_dmap (p_cm p))
       | None => n <> dim /\ In dim (dims_of (p_cm p) n) /\ ~ dim_len (p_cm p) dim (zlen ps)
       end;
    rs_new : forall n, assoc n (cm_coords (p_cm p)) = None -> assoc n (cm_coords (p_cm p')) = None }.

(** [q] is [p] with every sample changed by [f]. *)
Definition changed {A} (p q : patch A) (f : A -> A) : Prop :=
  p_cm q = p_cm p /\ nd_shape (p_data q) = nd_shape (p_data p) /\ wf_patch q /\
  forall ix, nd_get (p_data q) ix = option_map f (nd_get (p_data p) ix).

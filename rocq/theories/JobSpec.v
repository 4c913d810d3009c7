(** Specification vocabulary for mapped spools (C95). *)
From Verif Require Import Base CoordModel FrameModel ChunkModel SpoolModel JobModel.
Local Open Scope Z_scope.
Local Open Scope list_scope.

(** A client gives the results in the order of the spools, and the first error in that
    order, as the executors of concurrent.futures do. *)
Definition orderly {S T} (client : (S -> result (list T)) -> list S -> result (list (list T))) : Prop := forall f l, client f l = map_result f l.
(** [out] are the values of [func] for the patches of the entries that can be loaded, in
    their order. *)
Definition mapped {P T} (fetch : kwargs -> list part -> option (result P)) (func : P -> result T) (s : spool) (out : list T) : Prop :=
  Forall2 (fun i y => exists p, entry_patch fetch s i = Some (Ok p) /\ func p = Ok y)
    (filter (fun i => match entry_patch fetch s i with None => false | Some _ => true end) (zrange (sp_len s))) out.

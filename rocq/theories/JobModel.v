(** Model of Spool.map (dascore/core/spool.py 333-389, dascore/utils/misc.py 495-547) on the
    spools of SpoolModel.v.

    Simplifications: what is loaded for one entry is a function [fetch] of the left-over select
    keywords and the rows of the entry; the progress bar is left out. *)
From Verif Require Import Base CoordModel FrameModel ChunkModel SpoolModel.
From Coq Require Import Strings.String.
Local Open Scope Z_scope.
Local Open Scope list_scope.

Section Jobs.
  Context {P T : Type}.
  (** [None] is MissingPatchError, other errors are kept. *)
  Variable fetch : kwargs -> list part -> option (result P).

  Definition entry_patch (s : spool) (i : Z) : option (result P) :=
    match sp_parts s i with Err e => Some (Err e) | Ok parts => fetch (sp_sel s) parts end.
  (** spool.py 480-488: __iter__ skips entries without a patch. The function is called while
      iterating (misc.py 511, 536), so the first error ends the loop. *)
  Fixpoint over (func : P -> result T) (s : spool) (is : list Z) : result (list T) :=
    match is with
    | [] => Ok []
    | i :: t =>
        match entry_patch s i with
        | None => over func s t
        | Some r => do p <- r; do y <- func p; do l <- over func s t; Ok (y :: l)
        end
    end.
  Definition plain_map (func : P -> result T) (s : spool) : result (list T) := over func s (zrange (sp_len s)).
  (** misc.py 539-540; spool.py 804 takes the ceiling. *)
  Definition piece_size (n cpus : Z) (size : option Z) : Z :=
    match size with Some k => k | None => ceil_div n cpus end.
  (** misc.py 514-547. [client] is the map method of the client; [None] while the split
      (C41) has not ended after [fuel] pieces. *)
  Definition spool_map (fuel : nat) (client : option ((spool -> result (list T)) -> list spool -> result (list (list T))))
    (cpus : Z) (func : P -> result T) (s : spool) (size : option Z) : option (result (list T)) :=
    match client with
    | None => Some (plain_map func s)
    | Some cmap =>
        match sp_split fuel s (Some (piece_size (sp_len s) cpus size)) None with
        | None => None
        | Some (Err e) => Some (Err e)
        | Some (Ok pieces) => Some (do r <- cmap (plain_map func) pieces; Ok (List.concat r))
        end
    end.
End Jobs.

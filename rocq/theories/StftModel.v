(** Model of dimensions and coordinates of short-time Fourier transforms: _get_stft_coords and
    _get_istft_coord of dascore/transform/fourier.py.

    A coordinate has a name, dimensions and a value of any type. Not modelled: data, attributes,
    units, and checks of the lengths of coordinates. *)
From Verif Require Import Base FrameModel WhitenModel.
From Coq Require Import Strings.String.
Local Open Scope list_scope.

(** tuple.index, as for Patch.get_axis. *)
Fixpoint pos (d : string) (l : list string) : option nat :=
  match l with
  | [] => None
  | x :: t => if String.eqb x d then Some O else option_map S (pos d t)
  end.
Fixpoint set_nth {X} (n : nat) (v : X) (l : list X) : list X :=
  match l, n with
  | [], _ => []
  | _ :: t, O => v :: t
  | x :: t, S n => x :: set_nth n v t
  end.
Fixpoint pop_nth {X} (n : nat) (l : list X) : list X :=
  match l, n with
  | [], _ => []
  | _ :: t, O => t
  | x :: t, S n => x :: pop_nth n t
  end.
Definition remove {X} (k : string) (l : list (string * X)) : list (string * X) := filter (fun e => negb (String.eqb (fst e) k)) l.
Section Coords.
Context {A : Type}.
Definition coords := list (string * (list string * A)).
(** fourier.py 470-501; [time], [freq] and [window] are the new coordinates. Coordinates of the
    dimension are dropped (coordmanager.py 530-546). *)
Definition stft_coords (dims : list string) (cs : coords) (dim : string) (time freq window : A) : result (list string * coords) :=
  match pos dim dims, assoc dim cs with
  | Some axis, Some (_, old) =>
      let f := forward_rename dim in
      let base := filter (fun e => negb (mem dim (fst (snd e)))) cs in
      Ok (set_nth axis f dims ++ [dim],
          assoc_set "_stft_old_coord" ([], old) (assoc_set "_stft_window" ([], window) (assoc_set f ([f], freq) (assoc_set dim ([dim], time) base))))
  | _, _ => Err KeyError
  end.
(** fourier.py 633-648. Coordinates are passed without dimensions, so that all of them must be
    named by one (coordmanager.py 1297-1307). *)
Definition istft_coords (dims : list string) (cs : coords) (fdim tdim : string) : result (list string * coords) :=
  match pos fdim dims, pos tdim dims with
  | Some fa, Some ta =>
      match assoc "_stft_window" cs, assoc "_stft_old_coord" cs, assoc fdim cs with
      | Some _, Some (_, old), Some _ =>
          let rest := assoc_set tdim ([], old) (remove fdim (remove "_stft_old_coord" (remove "_stft_window" cs))) in
          let nd := pop_nth ta (set_nth fa tdim dims) in
          if forallb (fun e => mem (fst e) nd) rest then Ok (nd, map (fun e => (fst e, ([fst e], snd (snd e)))) rest) else Err CoordError
      | _, _, _ => Err KeyError
      end
  | _, _ => Err KeyError
  end.
(** fourier.py 695-703: the axis along which the result is trimmed. *)
Definition trimmed_axis (dims : list string) (fdim : string) : option nat := pos fdim dims.
End Coords.
Arguments coords : clear implicits.

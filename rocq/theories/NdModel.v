(** N-dimensional arrays: the numpy primitives the patch code calls. No dascore
    code is modelled here. An array is its shape and its elements in C order. *)
From Verif Require Import Base.

Record nd (A : Type) := mkNd { nd_shape : list Z; nd_flat : list A }.
Arguments mkNd {A} nd_shape nd_flat.
Arguments nd_shape {A} n.
Arguments nd_flat {A} n.

(** Number of elements of a shape. *)
Definition size (s : list Z) : Z := fold_right Z.mul 1 s.

(** All multi-indices of a shape, in C order. *)
Fixpoint all_ix (s : list Z) : list (list Z) :=
  match s with
  | [] => [[]]
  | n :: t => flat_map (fun i => map (cons i) (all_ix t)) (zrange n)
  end.

(** Position of a multi-index in C order; [None] = out of bounds. *)
Fixpoint ravel (s ix : list Z) : option Z :=
  match s, ix with
  | [], [] => Some 0
  | n :: t, i :: r =>
      if (0 <=? i) && (i <? n)
      then match ravel t r with Some k => Some (i * size t + k) | None => None end
      else None
  | _, _ => None
  end.

Definition nd_get {A} (a : nd A) (ix : list Z) : option A :=
  match ravel (nd_shape a) ix with Some k => znth (nd_flat a) k | None => None end.

Fixpoint traverse {A B} (f : A -> option B) (l : list A) : option (list B) :=
  match l with
  | [] => Some []
  | x :: t => match f x, traverse f t with Some y, Some r => Some (y :: r) | _, _ => None end
  end.

(** The array of a shape whose element at each multi-index is given. *)
Definition nd_build {A} (s : list Z) (f : list Z -> option A) : option (nd A) :=
  match traverse f (all_ix s) with Some l => Some (mkNd s l) | None => None end.

(** Replace the entry at a position. *)
Fixpoint put {A} (l : list A) (n : nat) (x : A) : list A :=
  match l, n with
  | [], _ => []
  | _ :: t, O => x :: t
  | y :: t, S m => y :: put t m x
  end.

(** [np.take(a, ps, axis)] for positions within bounds. *)
Definition nd_take {A} (a : nd A) (ax : nat) (ps : list Z) : option (nd A) :=
  match nth_error (nd_shape a) ax with
  | None => None
  | Some _ =>
      nd_build (put (nd_shape a) ax (zlen ps))
        (fun ix => match nth_error ix ax with
                   | Some i => match znth ps i with
                               | Some p => nd_get a (put ix ax p)
                               | None => None end
                   | None => None end)
  end.

(** [a[:, .., ix, .., :]]: an indexer on one axis. *)
Definition nd_index {A} (a : nd A) (ax : nat) (ix : indexer) : option (nd A) :=
  match nth_error (nd_shape a) ax with
  | None => None
  | Some n => match indexer_positions n ix with
              | Some ps => nd_take a ax ps
              | None => None end
  end.

(** [np.transpose(a, axes)]. *)
Fixpoint gather_nat {A} (l : list A) (ns : list nat) : option (list A) :=
  match ns with
  | [] => Some []
  | n :: t => match nth_error l n, gather_nat l t with
              | Some x, Some r => Some (x :: r) | _, _ => None end
  end.
Fixpoint find_nat (n : nat) (l : list nat) : option nat :=
  match l with
  | [] => None
  | m :: t => if Nat.eqb n m then Some O else option_map S (find_nat n t)
  end.
(** numpy requires [axes] to be a permutation of 0..ndim-1. *)
Definition nd_transpose {A} (a : nd A) (axes : list nat) : option (nd A) :=
  match gather_nat (nd_shape a) axes with
  | None => None
  | Some s =>
      nd_build s (fun ix =>
        match traverse (fun k => match find_nat k axes with
                                 | Some j => nth_error ix j | None => None end)
                       (seq 0 (length (nd_shape a))) with
        | Some old => nd_get a old
        | None => None end)
  end.

(** [np.squeeze(a, axis=axes)] / reshape: same elements, new shape. *)
Definition nd_reshape {A} (a : nd A) (s : list Z) : option (nd A) :=
  if size s =? size (nd_shape a) then Some (mkNd s (nd_flat a)) else None.

(** Keep the entries of a list whose position is not in [drop]. *)
Fixpoint drop_axes {A} (k : nat) (drop : list nat) (l : list A) : list A :=
  match l with
  | [] => []
  | x :: t => if existsb (Nat.eqb k) drop then drop_axes (S k) drop t
              else x :: drop_axes (S k) drop t
  end.

(** [np.broadcast_to(a[..., None, None], shape)] where [extra] lists the lengths
    of new trailing axes. *)
Definition nd_append {A} (a : nd A) (extra : list Z) : option (nd A) :=
  nd_build (nd_shape a ++ extra)
    (fun ix => nd_get a (firstn (length (nd_shape a)) ix)).

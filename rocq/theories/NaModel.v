(** Model of dascore/proc/basic.py dropna, fillna, where and full. The data type is a
    parameter with two tests: [nonfinite] is [~np.isfinite] and [isnull] is
    [pandas.isnull]. Attributes and history are not modelled here. *)
From Verif Require Import Base CoordModel NdModel FrameModel ChunkModel CmModel BinOpModel.
From Coq Require Import Strings.String.
Local Open Scope Z_scope.
Local Open Scope list_scope.

Section Na.
Context {A : Type}.
Variable nonfinite isnull : A -> bool.

(** basic.py 494-497 and 541-544: the test the flag chooses. *)
Definition nullish (include_inf : bool) : A -> bool := if include_inf then nonfinite else isnull.

(** The samples at position [i] of axis [ax]. *)
Definition slab (a : nd A) (ax : nat) (i : Z) : list A :=
  flat_map (fun ix => match nth_error ix ax, nd_get a ix with
                      | Some j, Some x => if j =? i then [x] else []
                      | _, _ => []
                      end) (all_ix (nd_shape a)).
(** basic.py 493 and 498-500: [np.any] or [np.all] over the other axes; every text but
    "any" means [np.all]. Over no samples they give False and True. *)
Definition to_drop (how : string) (f : A -> bool) (a : nd A) (ax : nat) (n : Z) : list bool :=
  map (fun i => if String.eqb how "any" then existsb f (slab a ax i) else forallb f (slab a ax i)) (zrange n).

(** basic.py 456-511. The two asserts hold by construction. *)
Definition pt_dropna (p : patch A) (dim how : string) (include_inf : bool) : result (patch A) :=
  do ax <- get_axis (p_cm p) dim;
  match nth_error (nd_shape (p_data p)) ax with
  | None => Err IndexError
  | Some n =>
      let keep := map negb (to_drop how (nullish include_inf) (p_data p) ax n) in
      match apply_indexers (p_data p) 0
              (map (fun d => if String.eqb d dim then IxBools keep else simple_slice None None) (cm_dims (p_cm p))) with
      | None => Err IndexError
      | Some a =>
          match assoc dim (cm_coords (p_cm p)) with
          | Some (M1 c) =>
              do c' <- c_getitem c (IxBools keep);
              do cm <- cm_update (p_cm p) [(dim, KSimple (VCoord (M1 c')))];
              new_patch cm a
          | Some _ => Err Unmodelled
          | None => Err CoordError
          end
      end
  end.

(** basic.py 515-551. *)
Definition pt_fillna (p : patch A) (value : A) (include_inf : bool) : result (patch A) :=
  new_patch (p_cm p)
    (mkNd (nd_shape (p_data p)) (map (fun x => if nullish include_inf x then value else x) (nd_flat (p_data p)))).

(** basic.py 813-838. *)
Definition pt_full (p : patch A) (value : A) : result (patch A) :=
  new_patch (p_cm p) (mkNd (nd_shape (p_data p)) (repeat value (Z.to_nat (size (nd_shape (p_data p)))))).

(** ** where *)
(** A patch, or an array; a scalar is an array with no axes. *)
Inductive operand (T : Type) := OpPatch (q : patch T) | OpArray (b : nd T).
Arguments OpPatch {T} q.
Arguments OpArray {T} b.
Definition op_data {T} (o : operand T) : nd T := match o with OpPatch q => p_data q | OpArray b => b end.
(** basic.py 752-753, 756, 758: align the patch with an operand that is a patch. *)
Definition align_operand {T} (argsort : list Z -> list Z) (p : patch A) (o : operand T)
  : result (patch A * operand T) :=
  match o with
  | OpPatch q => do x <- align_patches argsort p q; Ok (fst x, OpPatch (snd x))
  | OpArray b => Ok (p, OpArray b)
  end.
(** np.where of a condition and two arrays: all three broadcast together. *)
Definition np_where (c : nd bool) (a b : nd A) : result (nd A) :=
  do ca <- nd_map2 pair c a;
  nd_map2 (fun (x : bool * A) (y : A) => if fst x then snd x else y) ca b.
(** basic.py 713-771. The condition is boolean by its type. *)
Definition pt_where (argsort : list Z -> list Z) (p : patch A) (cond : operand bool) (other : operand A)
  : result (patch A) :=
  do x <- align_operand argsort p cond;
  do z <- match other with
          | OpPatch _ =>
              do y <- align_operand argsort (fst x) other;
              do w <- align_operand argsort (fst y) (snd x);
              Ok (fst w, (snd w, snd y))
          | OpArray _ => Ok (fst x, (snd x, other))
          end;
  do a <- np_where (op_data (fst (snd z))) (p_data (fst z)) (op_data (snd (snd z)));
  new_patch (p_cm (fst z)) a.

End Na.
Arguments OpPatch {T} q.
Arguments OpArray {T} b.

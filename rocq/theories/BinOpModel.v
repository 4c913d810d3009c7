(** Model of operations between patches and between a patch and an array:
    utils/array.py _apply_binary_ufunc with utils/patch.py align_patch_coords and
    _merge_aligned_coords and coordmanager.py make_broadcastable_to.

    Left out: units (the branch for Quantity operands), attributes, extra operator
    arguments. The operator is any function of two elements. *)
From Verif Require Import Base CoordModel NdModel FrameModel ChunkModel CmModel.
From Coq Require Import Strings.String.
Local Open Scope Z_scope.
Local Open Scope list_scope.

(** ** numpy broadcasting
    Shapes are lined up at their last axis; an axis of length 1 stretches. *)
Definition bcast_len (a b : Z) : option Z :=
  if a =? b then Some a else if a =? 1 then Some b else if b =? 1 then Some a else None.
Fixpoint bcast_rev (a b : list Z) : option (list Z) :=
  match a, b with
  | [], _ => Some b
  | _, [] => Some a
  | x :: a', y :: b' =>
      match bcast_len x y, bcast_rev a' b' with
      | Some n, Some l => Some (n :: l)
      | _, _ => None
      end
  end.
(** np.broadcast_shapes of two shapes; None stands for its ValueError. *)
Definition broadcast_shapes (a b : list Z) : option (list Z) :=
  option_map (@rev Z) (bcast_rev (rev a) (rev b)).
(** The index into an array of shape [s] that the index [ix] of the broadcast
    result reads. *)
Fixpoint bcast_ix_rev (s ix : list Z) : list Z :=
  match s, ix with
  | n :: s', i :: ix' => (if n =? 1 then 0 else i) :: bcast_ix_rev s' ix'
  | _, _ => []
  end.
Definition bcast_ix (s ix : list Z) : list Z := rev (bcast_ix_rev (rev s) (rev ix)).
(** A ufunc of two arrays. *)
Definition nd_map2 {A B C} (op : A -> B -> C) (a : nd A) (b : nd B) : result (nd C) :=
  match broadcast_shapes (nd_shape a) (nd_shape b) with
  | None => Err ValueError
  | Some s =>
      match nd_build s (fun ix =>
              match nd_get a (bcast_ix (nd_shape a) ix), nd_get b (bcast_ix (nd_shape b) ix) with
              | Some x, Some y => Some (op x y)
              | _, _ => None
              end) with
      | Some c => Ok c
      | None => Err ValueError
      end
  end.
(** np.broadcast_to. *)
Definition broadcast_to {A} (a : nd A) (s : list Z) : result (nd A) :=
  match nd_build s (fun ix => nd_get a (bcast_ix (nd_shape a) ix)) with
  | Some b => Ok b
  | None => Err ValueError
  end.

(** ** Aligning two patches *)

(** utils/misc.py 647-652 _merge_tuples: the names of the first, then the new ones
    of the second. *)
Definition merge_tuples (a b : list string) : list string := dedup_strs (a ++ b).

(** What align_to gives for one dimension. *)
Record aligning := mkAl { al_c1 : coord; al_c2 : coord; al_i1 : indexer; al_i2 : indexer }.

(** utils/patch.py 974-983: one pass of the loop over shared dimensions. Iterating
    over a set has no order, but the passes do not affect each other. *)
Definition align_dim (argsort : list Z -> list Z) (cm1 cm2 : cman) (d : string)
  : result (list (string * aligning)) :=
  match assoc d (cm_coords cm1), assoc d (cm_coords cm2) with
  | Some (M1 c1), Some (M1 c2) =>
      if c_eqb c1 c2 then Ok []
      else
        do x <- align_to argsort c1 c2;
        match x with (n1, n2, i1, i2) => Ok [(d, mkAl n1 n2 i1 i2)] end
  | Some _, Some _ => Err Unmodelled
  | _, _ => Err CoordError
  end.

(** utils/patch.py 984-992, for one of the two patches. *)
Definition align_apply {A} (p : patch A) (new : list (string * coord)) (ixs : list (string * indexer))
  : result (patch A) :=
  do cm <- cm_update (p_cm p) (map (fun e => (fst e, KSimple (VCoord (M1 (snd e))))) new);
  match apply_indexers (p_data p) 0 (dim_indexers (p_cm p) ixs) with
  | None => Err IndexError
  | Some a => new_patch cm a
  end.

(** utils/patch.py 964-969. *)
Definition widen {A} (p : patch A) (dims : list string) : result (patch A) :=
  do q <- pt_append_dims p (map (fun d => (d, VLen 1)) dims);
  pt_transpose q (map TName dims).

(** utils/patch.py 940-993 align_patch_coords. *)
Definition align_patches {A B} (argsort : list Z -> list Z) (p : patch A) (q : patch B)
  : result (patch A * patch B) :=
  if cm_approx (p_cm p) (p_cm q) then Ok (p, q)
  else
    let shared := filter (fun d => mem d (cm_dims (p_cm q))) (cm_dims (p_cm p)) in
    match shared with
    | [] => Err PatchCoordinateError
    | _ =>
        let dims := merge_tuples (cm_dims (p_cm p)) (cm_dims (p_cm q)) in
        do p1 <- widen p dims;
        do q1 <- widen q dims;
        do als <- map_result (align_dim argsort (p_cm p1) (p_cm q1)) shared;
        match List.concat als with
        | [] => Ok (p1, q1)
        | al =>
            do p2 <- align_apply p1 (map (fun e => (fst e, al_c1 (snd e))) al)
                                    (map (fun e => (fst e, al_i1 (snd e))) al);
            do q2 <- align_apply q1 (map (fun e => (fst e, al_c2 (snd e))) al)
                                    (map (fun e => (fst e, al_i2 (snd e))) al);
            Ok (p2, q2)
        end
    end.

(** core/coords.py _partial. *)
Definition m_partial (m : mcoord) : bool :=
  match m with M1 (CPart _) | MNP _ => true | _ => false end.

(** utils/patch.py 1089-1103: one pass of the loop. *)
Definition merge_coord (cm1 cm2 : cman) (n : string) : result (string * kval) :=
  match assoc n (cm_coords cm1), assoc n (cm_coords cm2),
        assoc n (cm_dmap cm1), assoc n (cm_dmap cm2) with
  | Some c1, Some c2, Some d1, Some d2 =>
      match m_partial c1, m_partial c2 with
      | true, true =>
          Ok (n, KTuple d1 (VCoord (if size (m_shape c2) <? size (m_shape c1) then c1 else c2)))
      | true, false => Ok (n, KTuple d1 (VCoord c2))
      | false, true => Ok (n, KTuple d1 (VCoord c1))
      | false, false =>
          if m_approx c1 c2 && strs_eqb d1 d2 then Ok (n, KTuple d1 (VCoord c1))
          else Err AssertionError
      end
  | _, _, _, _ => Err Unmodelled
  end.
(** utils/patch.py 1085-1104 _merge_aligned_coords. *)
Definition merge_aligned (cm1 cm2 : cman) : result cman :=
  if negb (strs_eqb (cm_dims cm1) (cm_dims cm2)) then Err AssertionError
  else
    do out <- map_result (merge_coord cm1 cm2)
                (filter (fun n => mem n (map fst (cm_coords cm2))) (map fst (cm_coords cm1)));
    cm_update cm1 out.

(** utils/array.py 78-196 _apply_binary_ufunc on two patches. *)
Definition binop {A B C} (op : A -> B -> C) (argsort : list Z -> list Z) (p : patch A) (q : patch B)
  : result (patch C) :=
  do x <- align_patches argsort p q;
  do cm <- merge_aligned (p_cm (fst x)) (p_cm (snd x));
  do a <- nd_map2 op (p_data (fst x)) (p_data (snd x));
  new_patch cm a.

(** ** A patch and an array *)

(** coordmanager.py 718-733: one dimension that has to grow. *)
Definition grow_dim (cm : cman) (e : string * (Z * Z)) : result (list (string * kval)) :=
  match e with
  | (d, (current, new)) =>
      if new <=? current then Ok []
      else
        match assoc d (cm_coords cm) with
        | Some m => if m_partial m
                    then Ok [(d, KSimple (VCoord (M1 (CPart (Z.max current new)))))]
                    else Err PatchBroadcastError
        | None => Err CoordError
        end
  end.
(** coordmanager.py 697-735 make_broadcastable_to (without drop_coords) and its
    wrapper in proc/coords.py 315-345. *)
Definition make_broadcastable {A} (p : patch A) (s : list Z) : result (patch A) :=
  do shape <- cm_shape (p_cm p);
  match broadcast_shapes shape s with
  | None => Err ValueError
  | Some target =>
      do new <- map_result (grow_dim (p_cm p)) (combine (cm_dims (p_cm p)) (combine shape target));
      do a <- broadcast_to (p_data p) target;
      do cm <- cm_update (p_cm p) (List.concat new);
      new_patch cm a
  end.
(** utils/array.py 124-136 and 180-196: the other operand is an array (a scalar is
    an array without axes); [op] takes the patch's element first. *)
Definition array_op {A B C} (op : A -> B -> C) (p : patch A) (b : nd B) : result (patch C) :=
  do p' <- (if zlist_eqb (nd_shape (p_data p)) (nd_shape b) then Ok p
            else if (List.length (nd_shape (p_data p)) <? List.length (nd_shape b))%nat
            then Err PatchBroadcastError
            else make_broadcastable p (nd_shape b));
  do a <- nd_map2 op (p_data p') b;
  new_patch (p_cm p') a.

(** Model of concatenating and stacking patches: dascore/utils/patch.py 993-1083
    (check_dims, check_coords), 1222-1338 (concatenate_patches), 1341-1390
    (stack_patches) and utils/misc.py 398-402. Attributes (with the history entry
    "concatenate" or "stack") and units are not modelled; warnings are not part of
    the outcome. *)
From Verif Require Import Base CoordModel NdModel FrameModel ChunkModel CmModel MergeModel BinOpModel.
From Coq Require Import Strings.String.
Local Open Scope Z_scope.
Local Open Scope list_scope.

(** utils/misc.py 77-101 warn_or_raise: "raise", or one of "warn", None. *)
Inductive level := LRaise | LWarn.
Definition warn_or_raise (lv : level) (e : exn) : result unit :=
  match lv with LRaise => Err e | LWarn => Ok tt end.

(** utils/patch.py 993-1028: check_dims. Sets of names are empty together only. *)
Definition check_dims (a b : cman) (lv : level) (intersection : bool) : result bool :=
  let dims_ok := true in
  if negb intersection && strs_eqb (cm_dims a) (cm_dims b) then Ok true
  else if intersection && match cm_dims a ++ cm_dims b with [] => false | _ => true end then Ok true
  else do _ <- warn_or_raise lv IncompatiblePatchError; Ok dims_ok.

(** utils/patch.py 1031-1083: check_coords. *)
Definition differs (ignore : option string) (eq_shape : bool) (a b : cman) (n : string) : bool :=
  match assoc n (cm_coords a), assoc n (cm_coords b) with
  | Some x, Some y =>
      if m_eqb x y then false
      else if match ignore with Some d => String.eqb n d | None => false end
      then if zlist_eqb (m_shape x) (m_shape y) then false else eq_shape
      else true
  | _, _ => false
  end.
Definition check_coords (a b : cman) (lv : level) (ignore : option string) (eq_shape : bool)
  : result bool :=
  if existsb (differs ignore eq_shape a b) (map fst (cm_coords a))
  then do _ <- warn_or_raise lv IncompatiblePatchError; Ok false
  else Ok true.

(** utils/misc.py 398-402: yield_sub_sequences. A range with step zero is refused,
    one with a negative step is empty. *)
Fixpoint cut {B} (fuel k : nat) (l : list B) : list (list B) :=
  match fuel, l with
  | S f, _ :: _ => firstn k l :: cut f k (skipn k l)
  | _, _ => []
  end.
Definition sub_sequences {B} (l : list B) (length : option Z) : result (list (list B)) :=
  let n := match length with Some n => n | None => zlen l end in
  if n =? 0 then Err ValueError
  else if n <? 0 then Ok []
  else Ok (cut (List.length l) (Z.to_nat n) l).

Section Concat.
Context {A : Type}.
Implicit Types p q : patch A.

(** proc/coords.py 290-310 with coordmanager.py 555-559. *)
Definition drop_private p : result (patch A) :=
  do x <- drop_coords (p_cm p) (filter private (map fst (cm_coords (p_cm p))));
  match apply_indexers (p_data p) 0 (snd x) with
  | None => Err IndexError
  | Some a => new_patch (fst x) a
  end.

(** utils/patch.py 1282-1312: the patches compatible with the first. *)
Fixpoint filter_r {B} (f : B -> result bool) (l : list B) : result (list B) :=
  match l with
  | [] => Ok []
  | x :: t => do b <- f x; do r <- filter_r f t; Ok (if b then x :: r else r)
  end.
Definition both (a b : result bool) : result bool := do x <- a; do y <- b; Ok (x && y).
Definition compatible_patches (dim : string) (lv : level) (ps : list (patch A))
  : result (list (patch A) * list string * bool) :=
  do ps <- map_result drop_private ps;
  match ps with
  | [] => Err IndexError
  | first :: t =>
      if forallb (fun p => strs_eqb (cm_dims (p_cm first)) (cm_dims (p_cm p))) t
      then
        let first_dims := cm_dims (p_cm first) in
        let new_dim := negb (mem dim first_dims) in
        do kept <- filter_r (fun p =>
            both (check_dims (p_cm first) (p_cm p) lv false)
                 (check_coords (p_cm first) (p_cm p) lv (Some dim) false)) ps;
        Ok (kept, if new_dim then first_dims ++ [dim] else first_dims, new_dim)
      else Err PatchCoordinateError
  end.

(** utils/patch.py 1314-1318. *)
Definition output_array (ps : list (patch A)) (axis : nat) (new_dim : bool) : result (nd A) :=
  do arrays <- map_result (fun p =>
      if new_dim then match nd_append (p_data p) [1] with
                      | Some a => Ok a | None => Err Unmodelled end
      else Ok (p_data p)) ps;
  nd_concat axis arrays.

(** utils/patch.py 1320-1329. The values of partial coordinates are nulls, which
    make a partial coordinate again (unless there is just one); arrays of different
    kinds do not concatenate. *)
Definition is_part (c : coord) : bool := match c with CPart _ => true | _ => false end.
Definition joined_values (cs : list coord) : result cval :=
  match cs with
  | [] => Err ValueError
  | c :: t =>
      if forallb (fun d => negb (is_part d)) cs
      then if forallb (fun d => kind_eqb (c_kind c) (c_kind d)) t
           then Ok (VArr (c_kind c) (List.concat (map c_ints cs)))
           else Err TypeError
      else if forallb is_part cs && negb (total (map c_len cs) =? 1)
      then Ok (VCoord (M1 (CPart (total (map c_len cs)))))
      else Err Unmodelled
  end.
Definition new_coords (ps : list (patch A)) (dim : string) (new_dim : bool) : result cman :=
  match ps with
  | [] => Err IndexError
  | first :: _ =>
      if new_dim then cm_update (p_cm first) [(dim, KTuple [dim] (VLen (zlen ps)))]
      else
        do cs <- map_result (fun p => dim_coord dim (p_cm p)) ps;
        do v <- joined_values cs;
        cm_update (p_cm first) [(dim, KSimple v)]
  end.

(** utils/patch.py 1330-1338. *)
Definition concatenate (dim : string) (val : option Z) (lv : level) (ps : list (patch A))
  : result (list (patch A)) :=
  do x <- compatible_patches dim lv ps;
  let '(kept, dims, new_dim) := x in
  do groups <- sub_sequences kept val;
  map_result (fun g =>
      match index_of dim dims with
      | None => Err ValueError
      | Some axis =>
          do a <- output_array g axis new_dim;
          do cm <- new_coords g dim new_dim;
          new_patch cm a
      end) groups.

(** utils/patch.py 1341-1390: stack_patches for arrays with an addition. All patches
    are checked before any is added; in the code the two alternate, which matters
    only for which of two errors is raised. *)
Definition stack (zero : A) (add : A -> A -> A) (dim_vary : option string) (lv : level)
  (ps : list (patch A)) : result (patch A) :=
  match ps with
  | [] => Err IndexError
  | init :: _ =>
      if match dim_vary with Some d => negb (mem d (cm_dims (p_cm init))) | None => false end
      then Err PatchCoordinateError
      else
        do kept <- filter_r (fun p =>
            both (check_dims (p_cm init) (p_cm p) lv false)
                 (check_coords (p_cm init) (p_cm p) lv dim_vary true)) ps;
        do arr <- fold_left (fun acc p => do a <- acc; nd_map2 add a (p_data p)) kept
                    (Ok (mkNd (nd_shape (p_data init)) (map (fun _ => zero) (nd_flat (p_data init)))));
        do cm <- match dim_vary with
                 | Some d =>
                     match assoc d (cm_coords (p_cm init)) with
                     | Some (M1 c) => do c' <- start_at c 0;
                                      cm_update (p_cm init) [(d, KSimple (VCoord (M1 c')))]
                     | Some _ => Err Unmodelled
                     | None => Err KeyError
                     end
                 | None => Ok (p_cm init)
                 end;
        new_patch cm arr
  end.
End Concat.

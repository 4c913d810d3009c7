(** Model of merging coordinate managers (dascore/utils/coordmanager.py) and of
    joining patches along a dimension (dascore/utils/patch.py 387-463, the end of
    dascore/core/spool.py 573-646). Units and attributes are not modelled. *)
From Verif Require Import Base CoordModel NdModel FrameModel ChunkModel CmModel.
From Coq Require Import Strings.String.
Local Open Scope Z_scope.
Local Open Scope list_scope.

(** models.py 68-85: [==] of two coordinates. *)
Definition m_eqb (a b : mcoord) : bool :=
  match a, b with
  | M1 c, M1 d => c_eqb c d
  | MN k x, MN l y => kind_eqb k l && zlist_eqb (nd_shape x) (nd_shape y)
                      && all_pairs_close k (nd_flat x) (nd_flat y)
  | MNP s, MNP t => zlist_eqb s t
  | _, _ => false
  end.

(** utils/coordmanager.py 43-52. *)
Definition common_dims (cms : list cman) : result (list string) :=
  match cms with
  | [] => Err CoordMergeError
  | c :: t => if forallb (fun d => strs_eqb (cm_dims c) (cm_dims d)) t
              then Ok (cm_dims c) else Err CoordMergeError
  end.

(** coordmanager.py 1044-1047: _get_coord_dims_tuple. *)
Definition coord_tuples (cm : cman) : result (list (string * list string)) :=
  map_result (fun e => match assoc (fst e) (cm_dmap cm) with
                       | Some ds => Ok (fst e, ds) | None => Err KeyError end) (cm_coords cm).
Definition tuple_eqb (a b : string * list string) : bool :=
  String.eqb (fst a) (fst b) && strs_eqb (snd a) (snd b).
Definition has_tuple (l : list (string * list string)) (t : string * list string) : bool :=
  existsb (tuple_eqb t) l.

(** utils/coordmanager.py 54-64: _drop_unshared_coordinates. *)
Definition unshared (sets : list (list (string * list string))) : list string :=
  map fst (filter (fun t => negb (forallb (fun s => has_tuple s t) sets)) (List.concat sets)).
Definition drop_unshared (cms : list cman) : result (list cman) :=
  do sets <- map_result coord_tuples cms;
  match unshared sets with
  | [] => Ok cms
  | names => map_result (fun cm => do x <- drop_coords cm names; Ok (fst x)) cms
  end.

(** utils/coordmanager.py 66-87: _get_non_merge_coords. *)
Definition non_merge (drop : bool) (first : cman) (cms : list cman) (n : string)
  : result (list (string * kval)) :=
  do ms <- map_result (fun cm => match assoc n (cm_coords cm) with
                                 | Some m => Ok m | None => Err KeyError end) cms;
  match assoc n (cm_coords first), assoc n (cm_dmap first) with
  | Some f, Some ds =>
      if forallb (m_eqb f) ms then Ok [(n, KTuple ds (VCoord f))]
      else if drop && negb (existsb (fun cm => mem n (cm_dims cm)) cms) then Ok []
      else Err CoordMergeError
  | _, _ => Err KeyError
  end.

(** coords.py: [coord.step], None for arrays. *)
Definition step_of (c : coord) : option Z :=
  match c with CRange r => Some (r_step r) | _ => None end.

(** coord.update_limits(min=x). *)
Definition start_at (c : coord) (x : Z) : result coord :=
  match c with
  | CRange r => r_update_limits r (Some x) None None
  | CMono k v => a_update_limits k true v (Some x) None None
  | CArr k v => a_update_limits k false v (Some x) None None
  | CPart _ => Err Unmodelled
  end.

(** utils/coordmanager.py 89-112: _snap_coords. The tolerance is the exact number
    num/den (den > 0); the product with the step is not rounded. *)
Fixpoint snap_next (num den : Z) (prev : coord) (l : list coord) : result (list coord) :=
  match l with
  | [] => Ok []
  | n :: t =>
      match step_of prev, c_max prev, c_min n with
      | Some s, Some mx, Some mn =>
          let assumed := mx + s in
          let diff := Z.abs (assumed - mn) in
          do n' <- (if (0 <? diff) && (den * diff <=? num * s) then start_at n assumed
                    else if num * s <? den * diff then Err CoordMergeError else Ok n);
          do r <- snap_next num den n' t;
          Ok (n' :: r)
      | None, _, _ => Err TypeError
      | _, _, _ => Err Unmodelled
      end
  end.
Definition snap_coords (tol : option (Z * Z)) (l : list coord) : result (list coord) :=
  match tol, l with
  | Some (num, den), c :: t => do r <- snap_next num den c t; Ok (c :: r)
  | _, _ => Ok l
  end.

(** utils/coordmanager.py 114-133: _get_merged_coords for one name. The values
    are those of the dimension, whatever the name. np.concatenate of 1-D arrays
    has axis 0 only, and does not mix integers with times. *)
Definition dim_coord (dim : string) (cm : cman) : result coord :=
  match assoc dim (cm_coords cm) with
  | Some (M1 c) => Ok c
  | Some _ => Err Unmodelled
  | None => Err KeyError
  end.
Definition merged_coord (tol : option (Z * Z)) (dim : string) (first : cman) (cms : list cman)
  (n : string) : result (string * kval) :=
  do cs <- map_result (dim_coord dim) cms;
  match assoc n (cm_dmap first), assoc dim (cm_dmap first) with
  | Some nds, Some ds =>
      do snapped <- snap_coords tol cs;
      match index_of dim nds, snapped with
      | Some O, c :: t =>
          if forallb (fun d => kind_eqb (c_kind c) (c_kind d)) t
          then Ok (n, KTuple ds (VArr (c_kind c) (List.concat (map c_ints snapped))))
          else Err TypeError
      | _, _ => Err ValueError
      end
  | _, _ => Err KeyError
  end.

(** [sorted(managers, key=...)], which is stable. *)
Fixpoint insert_key {B} (k : Z) (x : B) (l : list (Z * B)) : list (Z * B) :=
  match l with
  | [] => [(k, x)]
  | (j, y) :: t => if k <=? j then (k, x) :: l else (j, y) :: insert_key k x t
  end.
Definition sort_keyed {B} (l : list (Z * B)) : list (Z * B) :=
  fold_right (fun e acc => insert_key (fst e) (snd e) acc) [] l.
Definition dim_min (dim : string) (cm : cman) : result (Z * cman) :=
  match assoc dim (cm_coords cm) with
  | Some (M1 c) => match c_min c with Some m => Ok (m, cm) | None => Err Unmodelled end
  | Some _ => Err Unmodelled
  | None => Err KeyError
  end.

(** coordmanager.py 1024-1031: the coordinates that depend on [dim]. *)
Definition coords_on (dim : string) (cm : cman) : list string :=
  map fst (filter (fun e => mem dim (snd e)) (cm_dmap cm)).

(** utils/coordmanager.py 17-147: merge_coord_managers. Sets are iterated in the
    order of the first manager. *)
Definition merge_cms (tol : option (Z * Z)) (drop : bool) (dim : string) (cms : list cman)
  : result cman :=
  do dims <- common_dims cms;
  do shared <- drop_unshared cms;
  do keyed <- map_result (dim_min dim) shared;
  let sorted := map snd (sort_keyed keyed) in
  match sorted with
  | [] => Err CoordMergeError
  | first :: _ =>
      match coords_on dim first with
      | [] => Err KeyError
      | to_merge =>
          let others := filter (fun n => negb (mem n to_merge)) (map fst (cm_coords first)) in
          do kept <- map_result (non_merge drop first sorted) others;
          do merged <- map_result (merged_coord tol dim first sorted) to_merge;
          get_cm (List.concat kept ++ merged) (Some dims) None
      end
  end.

(** ** Joining patches *)

(** [np.concatenate(arrays, axis)]: which array a position falls in. *)
Fixpoint locate {A} (ax : nat) (l : list (nd A)) (i : Z) : option (nd A * Z) :=
  match l with
  | [] => None
  | a :: t => match nth_error (nd_shape a) ax with
              | Some n => if i <? n then Some (a, i) else locate ax t (i - n)
              | None => None end
  end.
Definition axis_len {A} (ax : nat) (a : nd A) : Z :=
  match nth_error (nd_shape a) ax with Some n => n | None => 0 end.
Definition total (l : list Z) : Z := fold_right Z.add 0 l.
Definition nd_concat {A} (ax : nat) (l : list (nd A)) : result (nd A) :=
  match l with
  | [] => Err ValueError
  | a :: t =>
      if forallb (fun b => zlist_eqb (put (nd_shape a) ax 0) (put (nd_shape b) ax 0)) t
      then match nd_build (put (nd_shape a) ax (total (map (axis_len ax) l)))
                   (fun ix => match nth_error ix ax with
                              | Some i => match locate ax l i with
                                          | Some (b, j) => nd_get b (put ix ax j)
                                          | None => None end
                              | None => None end) with
           | Some out => Ok out | None => Err Unmodelled end
      else Err ValueError
  end.

(** coordmanager.py 1073-1098: one dimension of _get_dim_summary. *)
Definition dim_row (cm : cman) (d : string) : list (option Z) :=
  match assoc d (cm_coords cm) with
  | Some (M1 c) => [c_min c; c_max c; step_of c]
  | _ => [None; None; None]
  end.
(** patch.py 387-408: _get_merge_dim. A null entry counts as equal. *)
Fixpoint row_same (first row : list (option Z)) : bool :=
  match first, row with
  | a :: s, b :: t => match b with
                      | None => true
                      | Some y => match a with Some x => x =? y | None => false end
                      end && row_same s t
  | _, _ => true
  end.
Definition varies (cms : list cman) (d : string) : bool :=
  match cms with
  | [] => false
  | c :: _ => negb (forallb (fun x => row_same (dim_row c d) (dim_row x d)) cms)
  end.
Definition merge_dim (cms : list cman) : result (option string) :=
  match cms with
  | [] => Err AssertionError
  | c :: t =>
      if forallb (fun d => strs_eqb (cm_dims c) (cm_dims d)) t then
        match filter (varies cms) (cm_dims c) with
        | [] => Ok None
        | [d] => Ok (Some d)
        | _ => Err AssertionError
        end
      else Err AssertionError
  end.

(** patch.py 411-416: _maybe_expected_step, whether there is one. Missing steps are
    NaT for times. For integers a column with missing steps is a float column with
    NaN; when all are missing it holds None, which np.median cannot sort. *)
Definition steps_close (cms : list cman) (d : string) : result bool :=
  let coords := map (fun cm => match assoc d (cm_coords cm) with Some (M1 c) => c | _ => CPart 0 end) cms in
  let steps := some_steps (map step_of coords) in
  match steps, coords with
  | [], c :: _ :: _ => match c_kind c with KInt => Err TypeError | KTime => Ok false end
  | _, _ => Ok ((zlen steps =? zlen cms) && close_to_median (np_sort steps))
  end.

(** patch.py 419-429: _get_merged_coord; the indexer that goes with the snapped
    coordinates is dropped. *)
Definition joined_coords (argsort : list Z -> list Z) (snap drop : bool) (d : string)
  (cms : list cman) : result cman :=
  do new <- merge_cms None drop d cms;
  do close <- steps_close cms d;
  if snap && close
  then do x <- cm_snap argsort new [d] false; Ok (fst x)
  else Ok new.

(** patch.py 432-463: _force_patch_merge, for patches with the same dimension
    order; spool.py 573-646 differs only in filling a buffer (ChunkModel) and in
    raising CoordMergeError when nothing or another dimension varies. *)
Definition join_patches {A} (argsort : list Z -> list Z) (snap drop : bool) (ps : list (patch A))
  : result (patch A) :=
  let cms := map p_cm ps in
  do od <- merge_dim cms;
  match od, ps with
  | None, p :: _ => Ok p
  | Some d, p :: _ =>
      do ax <- get_axis (p_cm p) d;
      do data <- nd_concat ax (map p_data ps);
      do cm <- joined_coords argsort snap drop d cms;
      new_patch cm data
  | _, [] => Err AssertionError
  end.

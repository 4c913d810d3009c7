(** Model of the coordinate manager (dascore/core/coordmanager.py) and of the
    patch functions that rearrange data together with coordinates
    (dascore/proc/coords.py, dascore/proc/basic.py: flip, roll, update).

    Coordinates are the 1-D coordinates of CoordModel plus N-D integer arrays.
    Python dicts are association lists in insertion order. Units, attributes and
    coordinate construction from attributes are not modelled. An exception raised
    inside a pydantic validator is named by the class the validator raises. *)
From Verif Require Import Base CoordModel NdModel FrameModel ChunkModel.
From Coq Require Import Strings.String Strings.Ascii.
Local Open Scope Z_scope.
Local Open Scope list_scope.

(** ** Coordinates of a manager *)

(** A 1-D coordinate, an N-D CoordArray (N <> 1), or an N-D CoordPartial. *)
Inductive mcoord :=
  | M1 (c : coord)
  | MN (k : kind) (a : nd Z)
  | MNP (s : list Z).

Definition m_shape (m : mcoord) : list Z :=
  match m with M1 c => [c_len c] | MN _ a => nd_shape a | MNP s => s end.
(** [len(coord)]: shape[0]. *)
Definition m_len (m : mcoord) : result Z :=
  match m_shape m with n :: _ => Ok n | [] => Err IndexError end.

(** get_coord on an N-D array (coords.py 1806-1834): empty arrays give a partial
    coordinate of the same shape. *)
Definition get_coord_nd (k : kind) (a : nd Z) : mcoord :=
  if size (nd_shape a) =? 0 then MNP (nd_shape a) else MN k a.

(** coordmanager.py 1278-1297: _get_coord on an existing coordinate. A range is
    returned as it is, everything else is inferred anew from its values. *)
Definition recoord (m : mcoord) : result mcoord :=
  match m with
  | M1 (CRange r) => Ok (M1 (CRange r))
  | M1 (CMono k v) | M1 (CArr k v) => do c <- get_coord_data k v; Ok (M1 c)
  | M1 (CPart n) => Ok (M1 (CPart n))
  | MN k a => Ok (get_coord_nd k a)
  | MNP s => Ok (MNP s)
  end.

(** coords.py 768-787: coord.index(indexer, axis). Null values of a partial
    coordinate stay partial. *)
Definition mc_index (m : mcoord) (ax : nat) (ix : indexer) : result mcoord :=
  match m with
  | M1 (CPart n) =>
      match ax with
      | O => match indexer_positions n ix with
             | Some ps => Ok (M1 (CPart (zlen ps))) | None => Err IndexError end
      | _ => Err AssertionError
      end
  | M1 c =>
      match ax with
      | O => match np_index (c_ints c) ix with
             | Some w => do c' <- get_coord_data (c_kind c) w; Ok (M1 c')
             | None => Err IndexError end
      | _ => Err AssertionError
      end
  | MN k a =>
      match nd_index a ax ix with
      | Some b => Ok (get_coord_nd k b) | None => Err IndexError end
  | MNP s =>
      match nth_error s ax with
      | Some n => match indexer_positions n ix with
                  | Some ps => Ok (MNP (put s ax (zlen ps))) | None => Err IndexError end
      | None => Err IndexError end
  end.

(** [coord[(..., ix, ...)]], a tuple with one indexer per axis: arrays keep their
    class (coords.py 1536-1540), a range is rebuilt from its values (the slice
    shortcut of 1235-1247 needs a bare slice). *)
Definition mc_getitem (m : mcoord) (ax : nat) (ix : indexer) : result mcoord :=
  match m with
  | M1 (CMono k v) =>
      match np_index v ix with Some w => Ok (M1 (CMono k w)) | None => Err IndexError end
  | M1 (CArr k v) =>
      match np_index v ix with Some w => Ok (M1 (CArr k w)) | None => Err IndexError end
  | MN k a =>
      match nd_index a ax ix with Some b => Ok (MN k b) | None => Err IndexError end
  | _ => mc_index m ax ix
  end.

(** ** The manager *)
Record cman := mkCm
  { cm_dims : list string;
    cm_coords : list (string * mcoord);
    cm_dmap : list (string * list string) }.

Fixpoint strs_eqb (a b : list string) : bool :=
  match a, b with
  | [], [] => true
  | x :: s, y :: t => String.eqb x y && strs_eqb s t
  | _, _ => false
  end.

(** coordmanager.py 185-215: the validator, in the order of its checks. *)
Definition expected_shape (dims : list string) (cmap : list (string * mcoord))
  (ds : list string) : result (list Z) :=
  map_result (fun d => if mem d dims
                       then match assoc d cmap with
                            | Some m => m_len m | None => Err KeyError end
                       else Err KeyError) ds.

Definition check_coord (dims : list string) (cmap : list (string * mcoord))
  (e : string * list string) : result unit :=
  do want <- expected_shape dims cmap (snd e);
  match assoc (fst e) cmap with
  | None => Err KeyError
  | Some m => if zlist_eqb want (m_shape m) || match want with [] => true | _ => false end
              then Ok tt else Err CoordError
  end.

Definition check_dim (dmap : list (string * list string)) (d : string) : result unit :=
  match assoc d dmap with
  | None => Err KeyError
  | Some ds => if strs_eqb ds [d] then Ok tt else Err AssertionError
  end.

Definition build_cm (dims : list string) (cmap : list (string * mcoord))
  (dmap : list (string * list string)) : result cman :=
  if forallb (fun d => match assoc d cmap with Some _ => true | None => false end) dims
  then
    do _ <- map_result (check_coord dims cmap) dmap;
    do _ <- map_result (check_dim dmap) dims;
    Ok (mkCm dims cmap dmap)
  else Err CoordError.

(** coordmanager.py 821-828. *)
Definition cm_shape (cm : cman) : result (list Z) :=
  match cm_dims cm with
  | [] => Ok [0]
  | ds => map_result (fun d => match assoc d (cm_coords cm) with
                               | Some m => m_len m | None => Err KeyError end) ds
  end.

(** coordmanager.py 780-796: get_axis. *)
Fixpoint index_of (d : string) (l : list string) : option nat :=
  match l with
  | [] => None
  | x :: t => if String.eqb d x then Some O else option_map S (index_of d t)
  end.
Definition get_axis (cm : cman) (d : string) : result nat :=
  match index_of d (cm_dims cm) with Some n => Ok n | None => Err CoordError end.

(** ** Building a manager from keyword arguments *)

(** The value part of a coordinate argument. *)
Inductive cval :=
  | VCoord (m : mcoord)            (* a coordinate *)
  | VArr (k : kind) (v : list Z)   (* a 1-D array *)
  | VNd (k : kind) (a : nd Z)      (* an N-D array *)
  | VLen (n : Z).                  (* an int: a partial coordinate *)
(** A coordinate argument. [KLimit] is a scalar given for a dim_min, dim_max or
    dim_step keyword. *)
Inductive kval :=
  | KNone
  | KSimple (v : cval)
  | KTuple (ds : list string) (v : cval)
  | KLimit (x : Z).

Definition cval_coord (v : cval) : result mcoord :=
  match v with
  | VCoord m => recoord m
  | VArr k v => do c <- get_coord_data k v; Ok (M1 c)
  | VNd k a => Ok (get_coord_nd k a)
  | VLen n => Ok (M1 (CPart n))
  end.
Definition cval_shape (v : cval) : list Z :=
  match v with
  | VCoord m => m_shape m | VArr _ v => [zlen v] | VNd _ a => nd_shape a | VLen n => [n]
  end.

Definition subset (a b : list string) : bool := forallb (fun x => mem x b) a.

(** coordmanager.py 1278-1356: _get_coord_dim_map for one item; the result also
    says whether the name is a new dimension. *)
Definition coord_item (dims : list string) (e : string * kval)
  : result (mcoord * list string * bool) :=
  let name := fst e in
  match snd e with
  | KSimple v =>
      if mem name dims then do m <- cval_coord v; Ok (m, [name], false)
      else Err CoordError
  | KTuple ds v =>
      if negb (subset ds dims) && negb (subset ds [name] && subset [name] ds)
      then Err CoordError
      else
        do m <- cval_coord v;
        let new := strs_eqb ds [name] && negb (mem name dims) in
        if zlist_eqb (m_shape m) (cval_shape v) then Ok (m, ds, new)
        else Err AssertionError
  | KNone | KLimit _ => Err Unmodelled
  end.

Definition cmap3 : Type :=
  (list (string * mcoord) * list (string * list string) * list string)%type.

Fixpoint coord_items (dims : list string) (kw : list (string * kval)) (acc : cmap3)
  : result cmap3 :=
  match kw with
  | [] => Ok acc
  | e :: t =>
      do x <- coord_item dims e;
      let '(m, ds, new) := x in
      let '(c, d, nd) := acc in
      coord_items dims t
        (assoc_set (fst e) m c, assoc_set (fst e) ds d,
         if new then nd ++ [fst e] else nd)
  end.

Definition coord_dim_map (kw : list (string * kval)) (dims : list string) : result cmap3 :=
  do x <- coord_items dims kw ([], [], []);
  let '(c, d, nd) := x in Ok (c, d, dims ++ nd).

(** coordmanager.py 1184-1272: get_coord_manager with a mapping; [shape] gives
    partial coordinates to dimensions without one. *)
Definition simple_names (kw : list (string * kval)) : list string :=
  map fst (filter (fun e => match snd e with KTuple _ _ => false | _ => true end) kw).

Definition get_cm (kw : list (string * kval)) (dims : option (list string))
  (shape : option (list Z)) : result cman :=
  let dims := match dims with Some d => d | None => simple_names kw end in
  do x <- coord_dim_map kw dims;
  let '(c, d, dims) := x in
  let missing := filter (fun n => match assoc n c with Some _ => false | None => true end) dims in
  match shape, missing with
  | Some s, _ :: _ =>
      do r <- fold_left
        (fun acc n =>
           do cd <- acc;
           match index_of n dims with
           | Some i => match nth_error s i with
                       | Some len => Ok (assoc_set n (M1 (CPart len)) (fst cd),
                                         assoc_set n [n] (snd cd))
                       | None => Err IndexError end
           | None => Err ValueError end) missing (Ok (c, d));
      build_cm dims (fst r) (snd r)
  | _, _ => build_cm dims c d
  end.

(** ** Dropping *)
Definition meets_any (a b : list string) : bool := existsb (fun x => mem x b) a.

(** coordmanager.py 492-528: the new manager and the indexers for the data. *)
Definition drop_coords (cm : cman) (names : list string) : result (cman * list indexer) :=
  if negb (existsb (fun e => mem (fst e) names) (cm_coords cm))
  then Ok (cm, map (fun _ => simple_slice None None) (cm_dims cm))
  else
    let dimdrop := map fst (filter (fun e => meets_any (snd e) names) (cm_dmap cm)) in
    let gone n := mem n dimdrop || mem n names in
    do new <- build_cm (filter (fun d => negb (mem d dimdrop)) (cm_dims cm))
                (filter (fun e => negb (gone (fst e))) (cm_coords cm))
                (filter (fun e => negb (gone (fst e))) (cm_dmap cm));
    Ok (new, map (fun d => if mem d names then simple_slice (Some 0) (Some 0)
                           else simple_slice None None) (cm_dims cm)).

(** ** Update *)

(** misc.py 437-455 with prefixes = dims and suffixes step/min/max: the regex
    (d1|d2|...).*_(step|min|max), matched at the start of the keyword. *)
Fixpoint str_drop (n : nat) (s : string) : string :=
  match n, s with
  | O, _ => s
  | S k, String _ t => str_drop k t
  | S _, EmptyString => EmptyString
  end.
Fixpoint str_contains (p s : string) : bool :=
  str_prefix p s || match s with EmptyString => false | String _ t => str_contains p t end.
Definition limit_key (dims : list string) (s : string) : bool :=
  existsb (fun d => str_prefix d s &&
     (let r := str_drop (String.length d) s in
      str_contains "_step" r || str_contains "_min" r || str_contains "_max" r)) dims
  || (match dims with [] => true | _ => false end
      && (str_contains "_step" s || str_contains "_min" s || str_contains "_max" s)).

(** [item.split("_")] into exactly two parts. *)
Fixpoint split_once (s : string) : option (string * string) :=
  match s with
  | EmptyString => None
  | String c t =>
      if Ascii.eqb c "_"%char then Some (EmptyString, t)
      else match split_once t with Some (a, b) => Some (String c a, b) | None => None end
  end.
Definition split_two (s : string) : option (string * string) :=
  match split_once s with
  | Some (a, b) => match split_once b with None => Some (a, b) | Some _ => None end
  | None => None
  end.

(** [coord.update(min=x)] etc. (coords.py 808-821): a step close to the current
    one changes nothing. Partial coordinates are not modelled. *)
Definition update_limit (m : mcoord) (attr : string) (x : Z) : result mcoord :=
  let pick a := if String.eqb attr a then Some x else None in
  if negb (mem attr ["min"; "max"; "step"]%string) then Err Unmodelled
  else
    match m with
    | M1 (CRange r) =>
        if String.eqb attr "step" && all_close (r_kind r) x (r_step r) then Ok m else
        do c <- r_update_limits r (pick "min"%string) (pick "max"%string) (pick "step"%string); Ok (M1 c)
    | M1 (CMono k v) => do c <- a_update_limits k true v (pick "min"%string) (pick "max"%string) (pick "step"%string); Ok (M1 c)
    | M1 (CArr k v) => do c <- a_update_limits k false v (pick "min"%string) (pick "max"%string) (pick "step"%string); Ok (M1 c)
    | _ => Err Unmodelled
    end.

(** coordmanager.py 267-284: coordinates dropped because a dimension they depend
    on changes length. *)
Definition dim_change_drop (cm : cman) (c : list (string * mcoord))
  (d : list (string * list string)) : result (list string) :=
  do parts <- map_result (fun e =>
      let i := fst e in
      if negb (mem i (cm_dims cm)) then Ok []
      else
        match assoc i d, assoc i (cm_coords cm) with
        | Some ds, Some old =>
            if negb (zlen ds =? 1) then Err AssertionError
            else
              do n <- m_len (snd e);
              do n0 <- m_len old;
              if n =? n0 then Ok []
              else Ok (map fst (filter (fun e' => mem i (snd e')) (cm_dmap cm)))
        | _, _ => Err KeyError
        end) c;
  Ok (List.concat parts).

Definition as_kwargs (cm : cman) : result (list (string * kval)) :=
  map_result (fun e => match assoc (fst e) (cm_dmap cm) with
                       | Some ds => Ok (fst e, KTuple ds (VCoord (snd e)))
                       | None => Err KeyError end) (cm_coords cm).

Definition set_all {A} (new : list (string * A)) (base : list (string * A)) : list (string * A) :=
  fold_left (fun acc e => assoc_set (fst e) (snd e) acc) new base.

(** coordmanager.py 309-313. The keywords are taken from a python set, so their
    order is arbitrary; here it is the order given. *)
Definition apply_limits (limits : list (string * kval)) (out : list (string * kval))
  : result (list (string * kval)) :=
  fold_left (fun acc e =>
      do o <- acc;
      match split_two (fst e) with
      | None => Err ValueError
      | Some (n, attr) =>
          match assoc n o with
          | None => Err KeyError
          | Some (KTuple ds v) =>
              match snd e, v with
              | KLimit x, VCoord m =>
                  do m' <- update_limit m attr x; Ok (assoc_set n (KTuple ds (VCoord m')) o)
              | _, _ => Err Unmodelled
              end
          | Some _ => Err Unmodelled
          end
      end) limits (Ok out).

(** coordmanager.py 249-317: update. *)
Definition is_none (e : string * kval) : bool :=
  match snd e with KNone => true | _ => false end.

Definition cm_update (cm : cman) (kw : list (string * kval)) : result cman :=
  let limits := filter (fun e => limit_key (cm_dims cm) (fst e)) kw in
  let rest := filter (fun e => negb (limit_key (cm_dims cm) (fst e))) kw in
  let todrop := map fst (filter is_none rest) in
  let toadd := filter (fun e => negb (is_none e)) rest in
  do x <- coord_dim_map toadd (cm_dims cm);
  let '(c, d, dims) := x in
  do indirect <- dim_change_drop cm c d;
  do kept <- drop_coords cm (todrop ++ indirect);
  do base <- as_kwargs (fst kept);
  do out <- apply_limits limits (set_all toadd base);
  get_cm out (Some (filter (fun x => negb (mem x todrop)) dims)) None.

(** coordmanager.py 530-548. *)
Definition disassociate (cm : cman) (names : list string) : result cman :=
  do new <- map_result (fun n => match assoc n (cm_coords cm) with
                                 | Some m => Ok (n, KTuple [] (VCoord m))
                                 | None => Err KeyError end) names;
  do kept <- drop_coords cm names;
  cm_update (fst kept) (set_all new []).

(** coordmanager.py 561-596. *)
Fixpoint set_dims_loop (cm : cman) (kw : list (string * string)) (dims : list string)
  : result (list string) :=
  match kw with
  | [] => Ok dims
  | (old, new) :: t =>
      match index_of old dims, assoc old (cm_coords cm), assoc new (cm_coords cm) with
      | Some i, Some mo, Some mn =>
          if zlist_eqb (m_shape mo) (m_shape mn) && (zlen (m_shape mn) =? 1)
          then set_dims_loop cm t (put dims i new)
          else Err CoordError
      | Some i, None, Some mn => Err KeyError
      | _, _, _ => Err CoordError
      end
  end.
(** [dict(zip(keys, vals))[k]]: the last occurrence wins. *)
Definition zip_get (keys vals : list string) (k : string) : result string :=
  match assoc k (rev (combine keys vals)) with Some v => Ok v | None => Err KeyError end.
Definition set_dims (cm : cman) (kw : list (string * string)) : result cman :=
  do dims <- set_dims_loop cm kw (cm_dims cm);
  do dmap <- map_result (fun e => do ds <- map_result (zip_get (cm_dims cm) dims) (snd e);
                                  Ok (fst e, ds)) (cm_dmap cm);
  build_cm dims (cm_coords cm) dmap.

(** ** Select and order *)

(** Arguments of select for one coordinate. *)
Inductive selarg :=
  | SelPair (lo hi : option Z)
  | SelSlice (s : pyslice)
  | SelInt (i : Z)
  | SelAll                      (* None or ... *)
  | SelArr (l : list Z)         (* an integer array *)
  | SelBools (m : list bool).   (* a boolean array *)

Definition rel_values (c : coord) (relative : bool) (l : list Z) : result (list Z) :=
  if relative then map_result (relative_value c) l else Ok l.

(** [coord.select(arg, relative=..., samples=...)] for a 1-D coordinate
    (coords.py 1089-1113, 1267-1292, 1447-1473, 1559-1584; 369-383 arrays). *)
Definition c_sel (c : coord) (relative samples : bool) (arg : selarg)
  : result (coord * indexer) :=
  let partial := match c with CPart _ => true | _ => false end in
  let value_ok := negb partial || (samples && negb relative) in
  match arg with
  | SelArr l =>
      if negb value_ok then Err CoordError
      else if samples then select_sample_array c l
      else do l' <- rel_values c relative l; select_values c l'
  | SelBools m =>
      if negb value_ok then Err CoordError
      else if samples then Err CoordError else select_bools c m
  | _ =>
      let asrange :=
        match arg with
        | SelPair lo hi => c_select c (relative && negb partial) lo hi
        | SelSlice s => match sl_step s with
                        | Some _ => Err ParameterError
                        | None => c_select c (relative && negb partial) (sl_start s) (sl_stop s) end
        | SelInt _ => Err ParameterError
        | _ => c_select c (relative && negb partial) None None
        end in
      if samples && value_ok then
        select_samples c (match arg with
                          | SelPair lo hi => SaPair lo hi
                          | SelSlice s => SaSlice s
                          | SelInt i => SaInt i
                          | _ => SaAll end)
      else asrange
  end.

(** [coord.order(array, relative=..., samples=...)] (coords.py 394-417, 1115-1124). *)
Definition c_ord (argsort : list Z -> list Z) (c : coord) (relative samples : bool)
  (l : list Z) : result (coord * indexer) :=
  match c with
  | CPart _ => if relative || negb samples then Err CoordError else order_samples c l
  | _ => if samples then order_samples c l
         else do l' <- rel_values c relative l; order_values argsort c l'
  end.

(** coordmanager.py 104-116: index the other coordinates of a dimension. *)
Definition indirect_updates (cm : cman) (dim name : string) (ix : indexer)
  (new : list (string * mcoord)) : result (list (string * mcoord)) :=
  map_result (fun e =>
    if String.eqb (fst e) name then Ok e
    else match assoc (fst e) (cm_dmap cm) with
         | None => Err KeyError
         | Some ds => match index_of dim ds with
                      | None => Ok e
                      | Some ax => do m <- mc_index (snd e) ax ix; Ok (fst e, m) end
         end) new.

(** coordmanager.py 119-156. [op] is the coordinate operation. *)
Definition select_one (cm : cman) (op : coord -> selarg -> result (coord * indexer))
  (st : list (string * mcoord) * list (string * indexer)) (e : string * selarg)
  : result (list (string * mcoord) * list (string * indexer)) :=
  match assoc (fst e) (cm_coords cm), assoc (fst e) (cm_dmap cm) with
  | Some (M1 c), Some ds =>
      do x <- op c (snd e);
      let new := assoc_set (fst e) (M1 (fst x)) (fst st) in
      match ds with
      | [] => Ok (new, snd st)
      | dim :: _ =>
          do new' <- indirect_updates cm dim (fst e) (snd x) new;
          Ok (new', assoc_set dim (snd x) (snd st))
      end
  | Some _, Some _ => Err CoordError
  | _, _ => Err AssertionError
  end.
Definition indexers_and_coords (cm : cman) (op : coord -> selarg -> result (coord * indexer))
  (kw : list (string * selarg))
  : result (list (string * mcoord) * list (string * indexer)) :=
  fold_left (fun acc e => do st <- acc; select_one cm op st e) kw
    (Ok (cm_coords cm, map (fun d => (d, simple_slice None None)) (cm_dims cm))).

Definition with_dims (cm : cman) (new : list (string * mcoord)) : result (list (string * kval)) :=
  map_result (fun e => match assoc (fst e) (cm_dmap cm) with
                       | Some ds => Ok (fst e, KTuple ds (VCoord (snd e)))
                       | None => Err KeyError end) new.

(** Insertion sort of names, as python's [sorted] on strings. *)
Fixpoint insert_str (x : string) (l : list string) : list string :=
  match l with
  | [] => [x]
  | y :: t => if String.leb x y then x :: y :: t else y :: insert_str x t
  end.
Definition sort_strs (l : list string) : list string := fold_right insert_str [] l.

Fixpoint dup_dims (l : list (list string)) : bool :=
  match l with
  | [] => false
  | x :: t => existsb (strs_eqb x) t || dup_dims t
  end.

(** coordmanager.py 598-615: split the keywords so that each dict uses a
    dimension at most once. Groups are in order of first use; the k-th dict takes
    the k-th member of every group. *)
Fixpoint group_add (ds : list string) (n : string) (gs : list (list string * list string))
  : list (list string * list string) :=
  match gs with
  | [] => [(ds, [n])]
  | (d, l) :: t => if strs_eqb d ds then (d, l ++ [n]) :: t else (d, l) :: group_add ds n t
  end.
Definition single_dim_lists (cm : cman) (kw : list (string * selarg))
  : result (list (list (string * selarg))) :=
  let used := sort_strs (filter (fun n => mem n (map fst kw)) (map fst (cm_coords cm))) in
  do dims <- map_result (fun n => match assoc n (cm_dmap cm) with
                                  | Some ds => Ok ds | None => Err KeyError end) used;
  let lookup names := List.concat (map (fun n => match assoc n kw with
                                            | Some a => [(n, a)] | None => [] end) names) in
  if negb (dup_dims dims) then Ok [lookup used]
  else
    let groups := fold_left (fun gs e => group_add (snd e) (fst e) gs) (combine used dims) [] in
    let depth := fold_left Nat.max (map (fun g => List.length (snd g)) groups) O in
    Ok (map (fun k => lookup (List.concat (map (fun g => match nth_error (snd g) k with
                                                    | Some n => [n] | None => [] end) groups)))
            (seq 0 depth)).

(** coordmanager.py 737-746. *)
Definition check_relative (cm : cman) (kw : list (string * selarg)) : result unit :=
  do used <- map_result (fun n => match assoc n (cm_dmap cm) with
                                  | Some ds => Ok ds | None => Err KeyError end)
               (filter (fun n => mem n (map fst (cm_coords cm))) (map fst kw));
  if dup_dims used then Err CoordError else Ok tt.

(** misc.py 689-710: each indexer on its own axis. *)
Fixpoint apply_indexers {A} (a : nd A) (ax : nat) (l : list indexer) : option (nd A) :=
  match l with
  | [] => Some a
  | ix :: t => match nd_index a ax ix with
               | Some b => apply_indexers b (S ax) t | None => None end
  end.

Definition dim_indexers (cm : cman) (red : list (string * indexer)) : list indexer :=
  map (fun d => match assoc d red with
                | Some ix => ix | None => simple_slice None None end) (cm_dims cm).

(** The loop of coordmanager.py 651-658 / 688-695. *)
Fixpoint select_loop {A} (op : coord -> selarg -> result (coord * indexer))
  (lists : list (list (string * selarg))) (cm : cman) (a : nd A) : result (cman * nd A) :=
  match lists with
  | [] => Ok (cm, a)
  | kw :: t =>
      do x <- indexers_and_coords cm op kw;
      do kws <- with_dims cm (fst x);
      do cm' <- cm_update cm kws;
      match apply_indexers a 0 (dim_indexers cm (snd x)) with
      | None => Err IndexError
      | Some b => select_loop op t cm' b
      end
  end.

Definition cm_select {A} (cm : cman) (a : nd A) (relative samples : bool)
  (op : coord -> selarg -> result (coord * indexer)) (kw : list (string * selarg))
  : result (cman * nd A) :=
  do _ <- (if relative || samples then check_relative cm kw else Ok tt);
  do lists <- single_dim_lists cm kw;
  select_loop op lists cm a.

(** ** Sort and snap *)
Definition m_sorted (m : mcoord) (reverse : bool) : bool :=
  match m with
  | M1 c => if reverse then c_reverse_sorted c else c_sorted c
  | _ => false
  end.

Fixpoint has_dup (l : list string) : bool :=
  match l with [] => false | x :: t => mem x t || has_dup t end.

(** coordmanager.py 374-388. *)
Definition validate_sort (cm : cman) (names : list string) : result unit :=
  do dims <- map_result (fun n => match assoc n (cm_dmap cm) with
                                  | Some ds => Ok ds | None => Err KeyError end) names;
  if existsb (fun ds => 1 <? zlen ds) dims then Err CoordSortError
  else if zlen names =? 1 then Ok tt
  else if has_dup (List.concat dims) then Err CoordSortError else Ok tt.

(** coordmanager.py 404-413. *)
Definition sort_related (cm : cman) (name dim : string) (ix : indexer)
  (new : list (string * mcoord)) : result (list (string * mcoord)) :=
  map_result (fun e =>
    if String.eqb (fst e) name then Ok e
    else match assoc (fst e) (cm_dmap cm) with
         | None => Err KeyError
         | Some ds => match index_of dim ds with
                      | None => Ok e
                      | Some ax => do m <- mc_getitem (snd e) ax ix; Ok (fst e, m) end
         end) new.

Definition dedup_strs (l : list string) : list string :=
  fold_left (fun acc x => if mem x acc then acc else acc ++ [x]) l [].

Definition sort_one (argsort : list Z -> list Z) (cm : cman) (reverse : bool)
  (st : list (string * mcoord) * list (nat * indexer)) (n : string)
  : result (list (string * mcoord) * list (nat * indexer)) :=
  match assoc n (cm_coords cm), assoc n (cm_dmap cm) with
  | Some (M1 c), Some (dim :: _) =>
      do x <- c_sort argsort c reverse;
      do ax <- get_axis cm dim;
      do new <- sort_related cm n dim (snd x) (assoc_set n (M1 (fst x)) (fst st));
      Ok (new, snd st ++ [(ax, snd x)])
  | Some _, Some [] => Err IndexError
  | Some _, Some _ => Err Unmodelled
  | _, _ => Err KeyError
  end.

(** coordmanager.py 358-435; [None] = the manager is returned unchanged. *)
Definition cm_sort (argsort : list Z -> list Z) (cm : cman) (names : list string) (reverse : bool)
  : result (option (cman * list (nat * indexer))) :=
  let names := match names with [] => cm_dims cm | _ => names end in
  do _ <- validate_sort cm names;
  if negb (forallb (fun n => mem n (map fst (cm_coords cm))) names) then Err AssertionError
  else
    let todo := dedup_strs (filter (fun n => match assoc n (cm_coords cm) with
                                 | Some m => negb (m_sorted m reverse)
                                 | None => false end) names) in
    match todo with
    | [] => Ok None
    | _ =>
        do r <- fold_left (fun acc n => do st <- acc; sort_one argsort cm reverse st n) todo
                  (Ok (cm_coords cm, []));
        do out <- build_cm (cm_dims cm) (fst r) (cm_dmap cm);
        do s0 <- cm_shape cm;
        do s1 <- cm_shape out;
        if zlist_eqb s0 s1 then Ok (Some (out, snd r)) else Err AssertionError
    end.

Fixpoint apply_axes {A} (a : nd A) (l : list (nat * indexer)) : option (nd A) :=
  match l with
  | [] => Some a
  | (ax, ix) :: t => match nd_index a ax ix with
                     | Some b => apply_axes b t | None => None end
  end.

(** coords.py snap of one coordinate; [None] = unchanged. *)
Definition m_snap (m : mcoord) : result (option coord) :=
  match m with
  | M1 (CRange _) | M1 (CPart _) | MNP _ => Ok None
  | M1 (CMono k v) => do c <- snap k true v; Ok (Some c)
  | M1 (CArr k v) => do c <- snap k false v; Ok (Some c)
  | MN _ _ => Err Unmodelled
  end.

(** coordmanager.py 437-470. *)
Definition cm_snap (argsort : list Z -> list Z) (cm : cman) (names : list string) (reverse : bool)
  : result (cman * list (nat * indexer)) :=
  let names := match names with [] => cm_dims cm | _ => names end in
  do s <- cm_sort argsort cm names reverse;
  let '(cm1, ixs) := match s with Some x => x | None => (cm, []) end in
  do ups <- map_result (fun n => match assoc n (cm_coords cm1) with
                                 | None => Err KeyError
                                 | Some m => do o <- m_snap m;
                                     Ok (match o with Some c => [(n, M1 c)] | None => [] end)
                                 end) names;
  match List.concat ups with
  | [] => Ok (cm1, ixs)
  | us =>
      do out <- build_cm (cm_dims cm1) (set_all us (cm_coords cm1)) (cm_dmap cm1);
      do s0 <- cm_shape cm;
      do s1 <- cm_shape out;
      if zlist_eqb s0 s1 then Ok (out, ixs) else Err AssertionError
  end.

(** ** Transpose *)
Inductive targ := TName (d : string) | TDots.
Definition targ_eqb (a b : targ) : bool :=
  match a, b with
  | TName x, TName y => String.eqb x y | TDots, TDots => true | _, _ => false end.
Fixpoint dup_targ (l : list targ) : bool :=
  match l with [] => false | x :: t => existsb (targ_eqb x) t || dup_targ t end.
Fixpoint remove_one (x : string) (l : list string) : option (list string) :=
  match l with
  | [] => None
  | y :: t => if String.eqb x y then Some t
              else match remove_one x t with Some r => Some (y :: r) | None => None end
  end.
Definition targ_names (l : list targ) : list string :=
  List.concat (map (fun t => match t with TName d => [d] | TDots => [] end) l).

(** coordmanager.py 892-913. *)
Definition transpose_dims (new : list targ) (old : list string) : result (list string) :=
  if dup_targ new then Err ParameterError
  else
    match fold_left (fun acc x => match acc with Some l => remove_one x l | None => None end)
                    (targ_names new) (Some old) with
    | None => Err ValueError
    | Some rest =>
        let full := List.concat (map (fun t => match t with TName d => [d] | TDots => rest end) new) in
        if subset full old && subset old full then Ok full else Err ParameterError
    end.

(** coordmanager.py 889-919; [None] = unchanged. *)
Definition cm_transpose (cm : cman) (new : list targ) : result (option cman) :=
  let new := match new with [] => map TName (rev (cm_dims cm)) | _ => new end in
  do dims <- transpose_dims new (cm_dims cm);
  if strs_eqb dims (cm_dims cm) then Ok None
  else do c <- build_cm dims (cm_coords cm) (cm_dmap cm); Ok (Some c).

(** ** Rename *)
Definition swap_name (old new x : string) : string := if String.eqb x old then new else x.
Fixpoint dict_pop {A} (k : string) (l : list (string * A)) : option (A * list (string * A)) :=
  match l with
  | [] => None
  | (k', v) :: t => if String.eqb k k' then Some (v, t)
                    else match dict_pop k t with
                         | Some (x, r) => Some (x, (k', v) :: r) | None => None end
  end.
(** coordmanager.py 921-955. *)
Definition rename_one (st : list string * list (string * mcoord) * list (string * list string))
  (e : string * string)
  : result (list string * list (string * mcoord) * list (string * list string)) :=
  let '(dims, cmap, dmap) := st in
  let '(old, new) := e in
  if String.eqb old new then Ok st
  else
    let '(dims', dmap') :=
      match index_of old dims with
      | Some i => (put dims i new,
                   map (fun e => (fst e, map (swap_name old new) (snd e))) dmap)
      | None => (dims, dmap)
      end in
    match dict_pop old cmap with
    | None => Err KeyError
    | Some (m, cmap') =>
        match dict_pop old dmap' with
        | None => Err KeyError
        | Some (ds, dmap'') => Ok (dims', assoc_set new m cmap', assoc_set new ds dmap'')
        end
    end.
Definition cm_rename (cm : cman) (kw : list (string * string)) : result cman :=
  do r <- fold_left (fun acc e => do st <- acc; rename_one st e) kw
            (Ok (cm_dims cm, cm_coords cm, cm_dmap cm));
  let '(dims, cmap, dmap) := r in build_cm dims cmap dmap.

(** ** Squeeze, decimate, flip *)

(** coordmanager.py 957-990; [None] for [dim] = all dimensions of length <= 1;
    a [None] result = unchanged. *)
Definition cm_squeeze (cm : cman) (dim : option (list string)) : result (option cman) :=
  do names <-
    match dim with
    | Some l => Ok l
    | None =>
        do bs <- map_result (fun d => match assoc d (cm_coords cm) with
                                      | Some m => do n <- m_len m; Ok (if n <=? 1 then [d] else [])
                                      | None => Err KeyError end) (cm_dims cm);
        Ok (List.concat bs)
    end;
  if negb (subset names (cm_dims cm)) then Err CoordError
  else
    do _ <- map_result (fun d => match assoc d (cm_coords cm) with
                                 | Some m => do n <- m_len m; if 1 <? n then Err CoordError else Ok tt
                                 | None => Err KeyError end) names;
    match names with
    | [] => Ok None
    | _ => do x <- drop_coords cm names; Ok (Some (fst x))
    end.

(** coordmanager.py 992-1015. *)
Definition cm_decimate (cm : cman) (dim : string) (k : Z) : result (cman * list indexer) :=
  if negb (mem dim (cm_dims cm)) then Err AssertionError
  else
    match assoc dim (cm_coords cm) with
    | Some (M1 c) =>
        do c' <- c_getitem c (IxSlice (mkSlice None None (Some k)));
        do new <- cm_update cm [(dim, KSimple (VCoord (M1 c')))];
        Ok (new, map (fun d => if String.eqb d dim then IxSlice (mkSlice None None (Some k))
                               else simple_slice None None) (cm_dims new))
    | Some _ => Err Unmodelled
    | None => Err KeyError
    end.

Definition flip_ix : indexer := IxSlice (mkSlice None None (Some (-1))).

(** coordmanager.py 1141-1181. Every flip starts from the manager's own
    coordinate. *)
Definition flip_assoc (cm : cman) (name : string) (o : list (string * kval))
  (e : string * list string) : result (list (string * kval)) :=
  if String.eqb (fst e) name then Ok o
  else match index_of name (snd e) with
       | None => Ok o
       | Some ax =>
           match assoc (fst e) (cm_coords cm) with
           | None => Err CoordError
           | Some m => do m' <- mc_getitem m ax flip_ix;
                       Ok (assoc_set (fst e) (KTuple (snd e) (VCoord m')) o)
           end
       end.
Definition flip_one (cm : cman) (o : list (string * kval)) (name : string)
  : result (list (string * kval)) :=
  match assoc name (cm_coords cm) with
  | Some (M1 c) =>
      match assoc name (cm_dmap cm) with
      | None => Err KeyError
      | Some ds =>
          do m <- mc_getitem (M1 c) 0 flip_ix;
          fold_left (fun acc e => do o <- acc; flip_assoc cm name o e) (cm_dmap cm)
            (Ok (assoc_set name (KTuple ds (VCoord m)) o))
      end
  | _ => Err CoordError
  end.
Definition cm_flip (cm : cman) (dims : list string) : result cman :=
  do out <- fold_left (fun acc n => do o <- acc; flip_one cm o n) dims (Ok []);
  cm_update cm out.

(** coordmanager.py 814-827 with core/coords.py 952-968: approximate equality. *)
Definition private (n : string) : bool :=
  match n with String c _ => Ascii.eqb c "_"%char | EmptyString => false end.
Definition public_names (cm : cman) : list string :=
  filter (fun n => mem n (cm_dims cm) || negb (private n)) (map fst (cm_coords cm)).
Definition m_approx (a b : mcoord) : bool :=
  zlist_eqb (m_shape a) (m_shape b) &&
  match a, b with
  | M1 (CPart _), M1 (CPart _) => true
  | M1 (CPart _), _ | _, M1 (CPart _) => false
  | M1 c, M1 d => all_pairs_close (c_kind d) (c_ints c) (c_ints d)
  | MN k x, MN _ y => all_pairs_close k (nd_flat x) (nd_flat y)
  | MNP _, MNP _ => true
  | _, _ => false
  end.
Definition cm_approx (a b : cman) : bool :=
  subset (cm_dims a) (cm_dims b) && subset (cm_dims b) (cm_dims a) &&
  subset (public_names a) (public_names b) && subset (public_names b) (public_names a) &&
  forallb (fun n => match assoc n (cm_coords a), assoc n (cm_coords b) with
                    | Some x, Some y => m_approx x y | _, _ => false end) (public_names a).

(** ** Patches *)
Record patch (A : Type) := mkPatch { p_cm : cman; p_data : nd A }.
Arguments mkPatch {A} p_cm p_data.
Arguments p_cm {A} p.
Arguments p_data {A} p.

(** core/patch.py 94-176 through proc/basic.py update: the data must have the
    shape of the coordinates (coordmanager.py 838-848). *)
Definition new_patch {A} (cm : cman) (a : nd A) : result (patch A) :=
  do s <- cm_shape cm;
  if zlist_eqb s (nd_shape a) then Ok (mkPatch cm a) else Err CoordDataError.

Section PatchFunctions.
Context {A : Type}.
Implicit Types p : patch A.

(** proc/coords.py select. The original patch is returned when the shape is the
    same and the coordinates are approximately equal. *)
Definition pt_select p (relative samples : bool) (kw : list (string * selarg)) : result (patch A) :=
  if negb (forallb (fun e => mem (fst e) (map fst (cm_coords (p_cm p)))) kw)
  then Err PatchCoordinateError
  else
    do x <- cm_select (p_cm p) (p_data p) relative samples
              (fun c a => c_sel c relative samples a) kw;
    if zlist_eqb (nd_shape (snd x)) (nd_shape (p_data p)) && cm_approx (fst x) (p_cm p)
    then Ok p
    else new_patch (fst x) (snd x).

(** proc/coords.py order. *)
Definition pt_order (argsort : list Z -> list Z) p (relative samples : bool)
  (kw : list (string * list Z)) : result (patch A) :=
  do x <- cm_select (p_cm p) (p_data p) relative samples
            (fun c a => match a with
                        | SelArr l => c_ord argsort c relative samples l
                        | _ => Err Unmodelled end)
            (map (fun e => (fst e, SelArr (snd e))) kw);
  new_patch (fst x) (snd x).

(** proc/coords.py sort_coords, snap_coords. *)
Definition pt_sort (argsort : list Z -> list Z) p (names : list string) (reverse : bool)
  : result (patch A) :=
  do x <- cm_sort argsort (p_cm p) names reverse;
  match x with
  | None => Ok p
  | Some (cm, ixs) =>
      match apply_axes (p_data p) ixs with
      | None => Err IndexError
      | Some a => new_patch cm a
      end
  end.
Definition pt_snap (argsort : list Z -> list Z) p (names : list string) (reverse : bool)
  : result (patch A) :=
  do x <- cm_snap argsort (p_cm p) names reverse;
  match apply_axes (p_data p) (snd x) with
  | None => Err IndexError
  | Some a => new_patch (fst x) a
  end.

(** proc/coords.py transpose. *)
Definition pt_transpose p (new : list targ) : result (patch A) :=
  let old := cm_dims (p_cm p) in
  if negb (subset (targ_names new) old) then Err ParameterError
  else
    do x <- cm_transpose (p_cm p) new;
    match x with
    | None => Ok p
    | Some cm =>
        match traverse (fun d => index_of d old) (cm_dims cm) with
        | None => Err ValueError
        | Some axes => match nd_transpose (p_data p) axes with
                       | None => Err ValueError
                       | Some a => new_patch cm a end
        end
    end.

(** proc/basic.py 778-810. *)
Definition pt_flip p (dims : list string) (flip_coords : bool) : result (patch A) :=
  match dims with
  | [] => Ok p
  | _ =>
      do axes <- map_result (get_axis (p_cm p)) dims;
      (* np.flip refuses a repeated axis *)
      if has_dup dims then Err ValueError
      else
        match apply_axes (p_data p) (map (fun ax => (ax, flip_ix)) axes) with
        | None => Err IndexError
        | Some a =>
            do cm <- (if flip_coords then cm_flip (p_cm p) dims else Ok (p_cm p));
            new_patch cm a
        end
  end.

(** proc/coords.py rename_coords, update_coords, drop_coords; proc/basic.py
    set_dims. *)
Definition pt_rename p (kw : list (string * string)) : result (patch A) :=
  do cm <- cm_rename (p_cm p) kw; new_patch cm (p_data p).
Definition pt_update_coords p (kw : list (string * kval)) : result (patch A) :=
  do cm <- cm_update (p_cm p) kw; new_patch cm (p_data p).
Definition pt_drop_coords p (names : list string) : result (patch A) :=
  if meets_any names (cm_dims (p_cm p)) then Err ParameterError
  else
    do x <- drop_coords (p_cm p) names;
    match apply_indexers (p_data p) 0 (snd x) with
    | None => Err IndexError
    | Some a => new_patch (fst x) a
    end.
Definition pt_set_dims p (kw : list (string * string)) : result (patch A) :=
  do cm <- set_dims (p_cm p) kw; new_patch cm (p_data p).

(** proc/coords.py squeeze. [np.squeeze] with no axis removes the axes of length
    one and only those; with axes they must have length one. *)
Definition ones (s : list Z) : list nat :=
  map fst (filter (fun e => snd e =? 1) (combine (seq 0 (List.length s)) s)).
Definition pt_squeeze p (dim : option (list string)) : result (patch A) :=
  do x <- cm_squeeze (p_cm p) dim;
  match x with
  | None => Ok p
  | Some cm =>
      do axes <- match dim with
                 | None => Ok (ones (nd_shape (p_data p)))
                 | Some l => do axes <- map_result (get_axis (p_cm p)) l;
                             (* np.squeeze refuses a repeated axis *)
                             if has_dup l then Err ValueError else Ok axes
                 end;
      if negb (forallb (fun ax => match nth_error (nd_shape (p_data p)) ax with
                                  | Some n => n =? 1 | None => false end) axes)
      then Err ValueError
      else
        match nd_reshape (p_data p) (drop_axes 0 axes (nd_shape (p_data p))) with
        | None => Err ValueError
        | Some a => new_patch cm a
        end
  end.

(** proc/coords.py append_dims: names with a length or an array of values. *)
Definition pt_append_dims p (new : list (string * cval)) : result (patch A) :=
  let old := cm_dims (p_cm p) in
  let kw := filter (fun e => negb (mem (fst e) old)) new in
  match kw with
  | [] => Ok p
  | _ =>
      do lens <- map_result (fun e => match cval_shape (snd e) with
                                      | [n] => Ok n | _ => Err Unmodelled end) kw;
      match nd_append (p_data p) lens with
      | None => Err ValueError
      | Some a =>
          do cm <- cm_update (p_cm p) (map (fun e => (fst e, KTuple [fst e] (snd e))) kw);
          new_patch cm a
      end
  end.

(** proc/resample.py decimate with filter_type=None (lines cited there). *)
Definition pt_decimate p (dim : string) (k : Z) : result (patch A) :=
  do x <- cm_decimate (p_cm p) dim k;
  match apply_indexers (p_data p) 0 (snd x) with
  | None => Err IndexError
  | Some a => new_patch (fst x) a
  end.

(** proc/basic.py 667-709 with samples=True: [np.roll] along one axis. *)
Definition roll_positions (n k : Z) : list Z := map (fun i => (i - k) mod n) (zrange n).
Definition pt_roll p (dim : string) (k : Z) (update : bool) : result (patch A) :=
  do ax <- get_axis (p_cm p) dim;
  match nth_error (nd_shape (p_data p)) ax, assoc dim (cm_coords (p_cm p)) with
  | Some n, Some (M1 (CRange r)) =>
      let c := CRange r in
      match nd_take (p_data p) ax (roll_positions n k) with
      | None => Err IndexError
      | Some a =>
          if update then
            match gather (c_ints c) (roll_positions (c_len c) k) with
            | None => Err IndexError
            | Some v =>
                do c' <- get_coord_data (c_kind c) v;
                do cm <- cm_update (p_cm p) [(dim, KSimple (VCoord (M1 c')))];
                new_patch cm a
            end
          else new_patch (p_cm p) a
      end
  | _, _ => Err CoordError
  end.
End PatchFunctions.

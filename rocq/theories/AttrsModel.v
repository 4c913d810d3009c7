(** Model of patch attributes: dascore/core/attrs.py (PatchAttrs) and
    dascore/utils/attrs.py (combine_patch_attrs, separate_coord_info).

    A python dict of attributes is an association list with distinct keys; its
    "coords" entry is kept apart because its value is a dict of dicts or a
    coordinate manager. Numbers and times are integers. A missing value (NaN or
    NaT) is [ANull]: it is unequal to everything, itself included. Not modelled:
    pydantic's checks of the single fields (allowed data types, string lengths),
    the normalisation of units, value conversion to the declared dtype, the
    mutation of dicts a caller passes instead of attribute objects, and attribute
    values that are arrays. Inside a summary a missing value is also unequal to
    itself, although python takes the very same object for equal there. *)
From Verif Require Import Base CoordModel FrameModel ChunkModel CmModel.
From Coq Require Import Strings.String Strings.Ascii.
Local Open Scope Z_scope.

(** ** Values *)
Inductive scal := ANone | ANull | ANum (z : Z) | AStr (s : string) | ASeq (l : list string).
Definition sdict := list (string * scal).

(** Python's [==] between attribute values. *)
Definition scal_eqb (a b : scal) : bool :=
  match a, b with
  | ANone, ANone => true
  | ANum x, ANum y => x =? y
  | AStr x, AStr y => String.eqb x y
  | ASeq x, ASeq y => strs_eqb x y
  | _, _ => false
  end.
(** Python's [==] between dicts: the same keys, equal values. *)
Definition dict_eqb {A} (eqb : A -> A -> bool) (a b : list (string * A)) : bool :=
  (zlen a =? zlen b) &&
  forallb (fun e => match assoc (fst e) b with Some w => eqb (snd e) w | None => false end) a.

(** A "coords" entry: a dict of summaries (a summary is the dict of its fields),
    or a coordinate manager with its dims and its to_summary_dict(). *)
Inductive coval := CDict (c : list (string * sdict)) | CMan (dims : list string) (c : list (string * sdict)).
Definition coval_dict (c : coval) : list (string * sdict) :=
  match c with CDict d => d | CMan _ d => d end.
(** A dict of attributes: all keys other than "coords", and "coords" if given. *)
Record adict := mkDict { d_vals : sdict; d_coords : option coval }.

Definition del {A} (k : string) (l : list (string * A)) : list (string * A) :=
  filter (fun e => negb (String.eqb k (fst e))) l.
Definition has_key {A} (k : string) (l : list (string * A)) : bool := mem k (map fst l).

(** ** Strings *)

(** [s.split(sep)] for a one-character separator. *)
Fixpoint str_split (sep : ascii) (s : string) : list string :=
  match s with
  | EmptyString => [EmptyString]
  | String c t =>
      if Ascii.eqb c sep then EmptyString :: str_split sep t
      else match str_split sep t with
           | h :: r => String c h :: r
           | [] => [String c EmptyString]
           end
  end.
(** [sep.join(l)] *)
Fixpoint str_join (sep : string) (l : list string) : string :=
  match l with
  | [] => EmptyString
  | [x] => x
  | x :: t => (x ++ sep ++ str_join sep t)%string
  end.
Definition split_us (k : string) : list string := str_split "_"%char k.
Definition word0 (k : string) : string := nth 0 (split_us k) EmptyString.
Definition word1 (k : string) : string := nth 1 (split_us k) EmptyString.

(** The fields of CoordSummary (coords.py 160-164). *)
Definition summary_fields : list string := ["dtype"; "min"; "max"; "step"; "units"]%string.

(** misc.py 440-461: is_valid_coord_str. The pattern is [.*_(dtype|min|...)], or
    the prefix followed by it, matched at the start but not to the end. Prefixes
    are plain text here, not regular expressions. *)
Definition coord_str (k : string) : bool :=
  existsb (fun f => str_contains ("_" ++ f)%string k) summary_fields.
Definition coord_str_for (p k : string) : bool :=
  str_prefix p k && coord_str (str_drop (String.length p) k).

(** ** utils/attrs.py 192-314: separate_coord_info *)

(** 219-233: _meets_required, on the keys of the dict (or set). *)
Definition cant_be_alone : list string := ["units"; "dtype"]%string.
Definition meets_required (req : list string) (strict : bool) (keys : list string) : bool :=
  match keys with
  | [] => false
  | _ =>
      let none := match req with [] => true | _ => false end in
      if none && existsb (fun k => negb (mem k cant_be_alone)) keys then true
      else if negb none || negb strict then subset req keys
      else false
  end.

(** 246-251: the words before and after the first underscore of every key that
    looks like coordinate information, in order of first appearance. *)
Definition add_word (p w : string) (m : list (string * list string)) : list (string * list string) :=
  match assoc p m with
  | Some ws => assoc_set p (ws ++ [w]) m
  | None => m ++ [(p, [w])]
  end.
Definition potential_keys (keys : list string) : list (string * list string) :=
  fold_left (fun m k => if coord_str k then add_word (word0 k) (word1 k) m else m) keys [].

(** 235-251: _get_dims. A "dims" entry that is neither text nor a sequence is not
    modelled. *)
Definition info_dims (req : list string) (o : adict) : result (list string) :=
  match d_coords o with
  | Some (CMan dims _) => Ok dims
  | _ =>
      let from_keys :=
        map fst (filter (fun e => meets_required req true (snd e))
                        (potential_keys (map fst (d_vals o)))) in
      match assoc "dims"%string (d_vals o) with
      | None | Some ANone => Ok from_keys
      | Some (AStr s) => if String.eqb s EmptyString then Ok from_keys
                         else Ok (str_split ","%char s)
      | Some (ASeq l) => match l with [] => Ok from_keys | _ => Ok l end
      | Some _ => Err Unmodelled
      end
  end.

(** 253-266: _get_coords_from_top_level for one dimension. *)
Definition flat_info (o : adict) (dim : string) : sdict :=
  let found :=
    fold_left (fun m e => if coord_str_for dim (fst e) then assoc_set (word1 (fst e)) (snd e) m else m)
              (d_vals o) [] in
  match assoc ("d_" ++ dim)%string (d_vals o) with
  | Some v => assoc_set "step"%string v found
  | None => found
  end.
Definition add_flat (req : list string) (o : adict) (out : list (string * sdict)) (dim : string)
  : list (string * sdict) :=
  let p := flat_info o dim in
  if meets_required req false (map fst p) then assoc_set dim p out else out.

(** 268-278: _get_coords_from_coord_level. *)
Definition nested_info (req : list string) (o : adict) : list (string * sdict) :=
  match d_coords o with
  | None => []
  | Some c => filter (fun e => meets_required req false (map fst (snd e))) (coval_dict c)
  end.

(** 280-290: _pop_keys on the keys other than "coords". *)
Definition pop_keys (out : list (string * sdict)) (v : sdict) : sdict :=
  fold_left (fun v e =>
    let v := fold_left (fun v f => del (fst e ++ "_" ++ f)%string v) (map fst (snd e)) v in
    if has_key "step"%string (snd e) then del ("d_" ++ fst e)%string v else v) out v.

(** 292-314. The attributes returned never hold "coords". When every dimension is
    itself a key the code returns the whole dict as coordinate information; with
    plain values there the callers modelled here fail on unpacking, hence the
    TypeError. *)
Definition separate (req : list string) (o : adict) (dims : option (list string))
  : result (list (string * sdict) * sdict) :=
  do new_dims <- info_dims req o;
  let changed := match new_dims with
                 | [] => false
                 | _ => negb (match dims with Some d => strs_eqb new_dims d | None => false end)
                 end in
  let o := if changed then mkDict (assoc_set "dims"%string (ASeq new_dims) (d_vals o)) (d_coords o) else o in
  let dims := if changed then Some new_dims else dims in
  let dl := match dims with Some d => d | None => [] end in
  let keys := map fst (d_vals o) ++ match d_coords o with Some _ => ["coords"%string] | None => [] end in
  do _ <- match dl with
          | _ :: _ => if subset dl keys then Err TypeError else Ok tt
          | [] => Ok tt
          end;
  let out := fold_left (add_flat req o) dl (nested_info req o) in
  let v := pop_keys out (d_vals o) in
  let v := match dims with
           | Some d => if has_key "dims"%string v then v else assoc_set "dims"%string (ASeq d) v
           | None => v
           end in
  Ok (out, v).

(** ** core/attrs.py: PatchAttrs *)

(** CoordSummary (coords.py 152-180): every field, with its default filled in. *)
Record summ := mkSumm { s_dtype : string; s_min : scal; s_max : scal; s_step : scal; s_units : scal }.
Definition get_or (d : scal) (k : string) (m : sdict) : scal :=
  match assoc k m with Some v => v | None => d end.
(** coords.py 144-149, 171-181: the dtype given, cut at "[", or that of the
    minimum; numbers without one count as integers. *)
Definition dtype_of (v : scal) : string :=
  match v with
  | ANum _ => "int64" | ANull => "float64" | AStr _ => "<U0" | ANone | ASeq _ => "object"
  end%string.
Definition mk_summ (m : sdict) : result summ :=
  match assoc "min"%string m with
  | None => Err KeyError
  | Some mn =>
      let dt := match assoc "dtype"%string m with
                | Some (AStr s) => if String.eqb s EmptyString then dtype_of mn else s
                | _ => dtype_of mn
                end in
      match assoc "max"%string m with
      | None => Err ValueError
      | Some mx => Ok (mkSumm (hd EmptyString (str_split "["%char dt)) mn mx
                              (get_or ANone "step" m) (get_or ANone "units" m))
      end
  end.

(** A PatchAttrs: the fields that were set other than dims and coords, extra
    attributes included, and dims and coords, which are always set
    (attrs.py 140-149). *)
Record attrs := mkAttrs { a_vals : sdict; a_dims : string; a_coords : list (string * summ) }.

(** attrs.py 88-138: the defaults of the fields. *)
Definition field_defaults : sdict :=
  [("data_type", AStr ""); ("data_category", AStr ""); ("data_units", ANone);
   ("instrument_id", AStr ""); ("acquisition_id", AStr ""); ("tag", AStr "");
   ("station", AStr ""); ("network", AStr ""); ("history", ASeq [])]%string.

(** attrs.py 34-63, 140-149: PatchAttrs from the keywords o. *)
Definition given_dims (o : adict) : result (option (list string)) :=
  match assoc "dims"%string (d_vals o) with
  | Some (AStr s) => Ok (Some (str_split ","%char s))
  | Some (ASeq l) => Ok (Some l)
  | Some ANone => Ok None
  | Some _ => Err Unmodelled
  | None => match d_coords o with Some (CMan dims _) => Ok (Some dims) | _ => Ok None end
  end.
Definition mk_attrs (o : adict) : result attrs :=
  do dims <- given_dims o;
  do iv <- separate ["min"; "max"]%string o dims;
  let (info, v) := iv in
  do cs <- map_result (fun e => do s <- mk_summ (snd e); Ok (fst e, s)) info;
  do ds <- match assoc "dims"%string v with
           | None => Ok (str_join "," (map fst cs))
           | Some (AStr s) => Ok s
           | Some (ASeq l) => Ok (str_join "," l)
           | Some _ => Err TypeError
           end;
  Ok (mkAttrs (del "dims"%string v) ds cs).

(** Reading an attribute, with the field's default when it was not set; an extra
    attribute that is absent has no value. *)
Definition attr_get (a : attrs) (k : string) : option scal :=
  match assoc k (a_vals a) with Some v => Some v | None => assoc k field_defaults end.
(** attrs.py 214-219 *)
Definition dim_tuple (a : attrs) : list string :=
  if String.eqb (a_dims a) EmptyString then [] else str_split ","%char (a_dims a).

(** attrs.py 151-171: getattr(attrs, item) for an item other than dims and coords.
    The last step reads a field of CoordSummary; its methods are not modelled. *)
Definition summ_get (s : summ) (f : string) : result scal :=
  if String.eqb f "dtype" then Ok (AStr (s_dtype s)) else if String.eqb f "min" then Ok (s_min s)
  else if String.eqb f "max" then Ok (s_max s) else if String.eqb f "step" then Ok (s_step s)
  else if String.eqb f "units" then Ok (s_units s) else Err AttributeError.
Definition attr_read (a : attrs) (item : string) : result scal :=
  match attr_get a item with
  | Some v => Ok v
  | None =>
      match split_us item with
      | [x; y] =>
          let (first, second) := if String.eqb x "d" then (y, "step"%string) else (x, y) in
          match assoc first (a_coords a) with
          | Some s => summ_get s second
          | None => Err AttributeError
          end
      | _ => Err AttributeError
      end
  end.

(** A summary as a dict of all fields, and without the fields at their default. *)
Definition summ_dict (s : summ) : sdict :=
  [("dtype", AStr (s_dtype s)); ("min", s_min s); ("max", s_max s);
   ("step", s_step s); ("units", s_units s)]%string.
Definition not_none (e : string * scal) : bool :=
  match snd e with ANone => false | _ => true end.
Definition summ_short (s : summ) : sdict :=
  [("dtype", AStr (s_dtype s)); ("min", s_min s); ("max", s_max s)]%string
  ++ filter not_none [("step", s_step s); ("units", s_units s)]%string.

(** [model_dump()]: fields first, then extras; every field. *)
Definition dump (a : attrs) : adict :=
  mkDict (map (fun e => (fst e, match assoc (fst e) (a_vals a) with Some v => v | None => snd e end))
              field_defaults
          ++ filter (fun e => negb (has_key (fst e) field_defaults)) (a_vals a)
          ++ [("dims"%string, AStr (a_dims a))])
         (Some (CDict (map (fun e => (fst e, summ_dict (snd e))) (a_coords a)))).
(** [model_dump(exclude_unset=True)]: a summary's units are left out when unset;
    an unset one and one set to None are not told apart here. *)
Definition dump_set (a : attrs) : adict :=
  mkDict (a_vals a ++ [("dims"%string, AStr (a_dims a))])
         (Some (CDict (map (fun e => (fst e, summ_dict (snd e))) (a_coords a)))).
(** [model_dump(exclude_defaults=True)] *)
Definition at_default (e : string * scal) : bool :=
  match assoc (fst e) field_defaults with Some d => scal_eqb (snd e) d | None => false end.
Definition dump_short (a : attrs) : adict :=
  mkDict (filter (fun e => negb (at_default e)) (a_vals a)
          ++ (if String.eqb (a_dims a) EmptyString then [] else [("dims"%string, AStr (a_dims a))]))
         (match a_coords a with
          | [] => None
          | _ => Some (CDict (map (fun e => (fst e, summ_short (snd e))) (a_coords a)))
          end).

(** attrs.py 233-258: update. A coordinate manager's own dump, which seeds the new
    coords there, holds no coordinate summaries and is taken as empty. *)
Definition merge_fields (new base : sdict) : sdict :=
  fold_left (fun b e => assoc_set (fst e) (snd e) b) new base.
Definition add_info (cs : list (string * sdict)) (e : string * sdict) : list (string * sdict) :=
  match assoc (fst e) cs with
  | Some old => assoc_set (fst e) (merge_fields (snd e) old) cs
  | None => assoc_set (fst e) (snd e) cs
  end.
Definition attrs_update (a : attrs) (kw : adict) : result attrs :=
  let out := dump_set a in
  let seed := match d_coords kw with
              | Some (CMan _ _) => []
              | _ => match d_coords out with Some c => coval_dict c | None => [] end
              end in
  do iv <- separate [] kw (Some (dim_tuple a));
  let (info, v) := iv in
  let vals := merge_fields v (d_vals out) in
  let cs := match d_coords kw with
            | Some (CDict []) => []
            | _ => fold_left add_info info seed
            end in
  mk_attrs (mkDict vals (Some (CDict cs))).

(** attrs.py 221-232: rename_dimension. The keywords that name dimensions come in
    the order of a python set, here the order of the list. A coordinate that is
    not there is set to None, which the constructor skips. *)
Fixpoint replace_first (o n : string) (l : list string) : result (list string) :=
  match l with
  | [] => Err ValueError
  | x :: t => if String.eqb o x then Ok (n :: t) else do r <- replace_first o n t; Ok (x :: r)
  end.
Definition move_coord (o n : string) (cs : list (string * sdict)) : list (string * sdict) :=
  match assoc o cs with
  | Some m => assoc_set n m (del o cs)
  | None => del n cs
  end.
Definition rename_dims (a : attrs) (kw : list (string * string)) : result attrs :=
  let kw := filter (fun e => mem (fst e) (dim_tuple a)) kw in
  match kw with
  | [] => Ok a
  | _ =>
      let new := dump_short a in
      do ds <- fold_left (fun r e => do l <- r; replace_first (fst e) (snd e) l) kw (Ok (dim_tuple a));
      let cs := match d_coords new with
                | None => None
                | Some c => Some (CDict (fold_left (fun c e => move_coord (fst e) (snd e) c) kw (coval_dict c)))
                end in
      mk_attrs (mkDict (assoc_set "dims"%string (ASeq ds) (d_vals new)) cs)
  end.

(** attrs.py 288-321: flat_dump() with no arguments. Whether an absent step
    becomes NaN / NaT is read off the dtype. *)
Definition null_step (s : summ) : scal :=
  match s_step s with
  | ANone => if mem (s_dtype s) ["datetime64"; "timedelta64"]%string || str_prefix "float" (s_dtype s)
             then ANull else ANone
  | v => v
  end.
Definition flat_dump (a : attrs) : sdict :=
  fold_left (fun v e =>
      assoc_set (fst e ++ "_step")%string (null_step (snd e))
        (fold_left (fun v f => assoc_set (fst e ++ "_" ++ fst f)%string (snd f) v)
                   (summ_dict (snd e)) v))
    (a_coords a) (d_vals (dump a)).

(** ** utils/attrs.py 38-190: combine_patch_attrs *)

(** What is merged: attribute objects or plain dicts. *)
Inductive model := MAttrs (a : attrs) | MDict (d : adict).
Definition model_dict (m : model) : adict :=
  match m with MAttrs a => dump_short a | MDict d => d end.

(** 84-90: the values each key takes, over the summaries that have it. *)
Definition field_values (k : string) (l : list sdict) : list scal :=
  flat_map (fun m => match assoc k m with Some v => [v] | None => [] end) l.
Fixpoint nums (l : list scal) : option (list Z) :=
  match l with
  | [] => Some []
  | ANum z :: t => match nums t with Some r => Some (z :: r) | None => None end
  | _ => None
  end.
(** python's [min] and [max] of numbers; on an empty list a ValueError. *)
Definition py_extreme (f : Z -> Z -> Z) (l : list scal) : result scal :=
  match l with
  | [] => Err ValueError
  | _ => match nums l with
         | Some (z :: t) => Ok (ANum (fold_left f t z))
         | _ => Err Unmodelled
         end
  end.
(** 108-111 with misc.py 314-334: the middle of the steps when they are close. A
    missing step makes the comparison fail. The result of merging only missing
    timedeltas is again missing in the code, None here. *)
Definition merged_step (l : list scal) : result scal :=
  if existsb (fun v => match v with ANull => true | _ => false end) l then Ok ANone
  else match nums l with
       | None => Err Unmodelled
       | Some zs =>
           let s := np_sort zs in
           if close_to_median s
           then Ok (match znth s ((zlen s - 1) / 2) with Some z => ANum z | None => ANone end)
           else Ok ANone
       end.
(** 99-104: a field that must agree over the summaries that have it. *)
Definition same_field (k : string) (l : list sdict) : result sdict :=
  match field_values k l with
  | [] => Ok []
  | v :: t => if forallb (scal_eqb v) (v :: t) then Ok [(k, v)] else Err AttributeMergeError
  end.
(** 92-112: _get_new_coord, on the summaries taken out of the dicts. *)
Definition merged_coord (l : list sdict) : result sdict :=
  match l with
  | [] => Ok []
  | _ =>
      do dt <- same_field "dtype" l;
      do un <- same_field "units" l;
      do mn <- py_extreme Z.min (field_values "min" l);
      do mx <- py_extreme Z.max (field_values "max" l);
      do st <- merged_step (field_values "step" l);
      Ok (dt ++ un ++ [("min"%string, mn); ("max"%string, mx); ("step"%string, st)])
  end.

(** 70-82 and 136-138: take the coordinate out and put the new one in, last. *)
Definition coords_of (d : adict) : list (string * sdict) :=
  match d_coords d with Some c => coval_dict c | None => [] end.
Definition put_coord (name : string) (new : sdict) (d : adict) : adict :=
  match new with
  | [] => mkDict (d_vals d) (Some (CDict (del name (coords_of d))))
  | _ => mkDict (d_vals d) (Some (CDict (del name (coords_of d) ++ [(name, new)])))
  end.
(** 114-139: _get_model_dict_list. A given coordinate is assigned in place, so
    the coordinates keep their order. *)
Definition model_dicts (ms : list model) (name : string) (drop : list string) (coord : option summ)
  : result (list adict) :=
  let ds := map (fun m => let d := model_dict m in
                   mkDict (filter (fun e => negb (mem (fst e) drop)) (d_vals d))
                          (if mem "coords" drop then None else d_coords d)) ms in
  if String.eqb name EmptyString then Ok ds
  else
    let ds := filter (fun d => has_key name (coords_of d)) ds in
    match coord with
    | Some c => Ok (map (fun d => mkDict (d_vals d)
                                    (Some (CDict (assoc_set name (summ_dict c) (coords_of d))))) ds)
    | None =>
        do new <- merged_coord (flat_map (fun d => match assoc name (coords_of d) with
                                                   | Some m => [m] | None => [] end) ds);
        Ok (map (put_coord name new) ds)
    end.

(** 141-151: _replace_null_with_none. *)
Definition null_to_none (d : adict) : adict :=
  mkDict (map (fun e => (fst e, match snd e with ANull => ANone | v => v end)) (d_vals d)) (d_coords d).
(** [==] between two such dicts. *)
Definition coval_eqb (a b : coval) : bool :=
  dict_eqb (dict_eqb scal_eqb) (coval_dict a) (coval_dict b).
Definition adict_eqb (a b : adict) : bool :=
  dict_eqb scal_eqb (d_vals a) (d_vals b)
  && match d_coords a, d_coords b with
     | Some x, Some y => coval_eqb x y
     | None, None => true
     | _, _ => false
     end.
(** 153-160: _keep_eq *)
Definition keep_eq (a b : adict) : adict :=
  mkDict (filter (fun e => match assoc (fst e) (d_vals b) with
                           | Some w => scal_eqb (snd e) w | None => false end) (d_vals a))
         (match d_coords a, d_coords b with
          | Some x, Some y => if coval_eqb x y then Some x else None
          | _, _ => None
          end).
(** A ChainMap of the dicts: the first dict that has a key gives its value. *)
Definition first_over (a b : adict) : adict :=
  mkDict (d_vals a ++ filter (fun e => negb (has_key (fst e) (d_vals a))) (d_vals b))
         (match d_coords a with Some c => Some c | None => d_coords b end).
Definition chain (l : list adict) : adict := fold_right first_over (mkDict [] None) l.

(** 162-181: _handle_other_attrs *)
Definition handle_others (conflicts : string) (l : list adict) : result (list adict) :=
  if String.eqb conflicts "keep_first" then Ok [chain l]
  else match l with
       | [] => Ok []
       | d :: t =>
           if forallb (fun x => adict_eqb (null_to_none d) (null_to_none x)) t then Ok l
           else if String.eqb conflicts "raise" then Err AttributeMergeError
           else Ok [fold_left keep_eq t d]
       end.

(** 38-66, 183-190. An empty coordinate name stands for None. *)
Definition conflict_values : list string := ["drop"; "raise"; "keep_first"]%string.
Definition combine_attrs (ms : list model) (name conflicts : string) (drop : list string)
    (coord : option summ) : result attrs :=
  if negb (mem conflicts conflict_values) then Err ParameterError
  else
    do ds <- model_dicts ms name drop coord;
    do ds <- handle_others conflicts ds;
    match ms with
    | [] => Err IndexError
    | _ => match ds with [] => Err AttributeMergeError | d :: _ => mk_attrs d end
    end.

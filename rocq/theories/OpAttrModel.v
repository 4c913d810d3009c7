(** Model of how the attributes of two patches become those of a result: _merge_models of
    dascore/utils/patch.py as it is called for operators on two patches (utils/array.py 124-128),
    that is without a coordinate manager.

    Attributes are those of AttrsModel.v. A sequence is a list, not a tuple. *)
From Verif Require Import Base FrameModel ChunkModel CmModel AttrsModel.
From Coq Require Import Strings.String Strings.Ascii.
Local Open Scope list_scope.

(** misc.py 148-152. *)
Definition all_null (v : scal) : bool := match v with ANone | ANull => true | ASeq [] => true | _ => false end.
(** models.py 76. *)
Definition private (k : string) : bool := match k with String c _ => Ascii.eqb c "_"%char | EmptyString => false end.
Definition same_key_sets (a b : sdict) : bool := forallb (fun k => has_key k b) (map fst a) && forallb (fun k => has_key k a) (map fst b).
(** models.py 68-85, 121: == of two attribute objects. *)
Definition attrs_equal (a b : attrs) : bool :=
  let d1 := d_vals (dump a) in
  let d2 := d_vals (dump b) in
  same_key_sets d1 d2
  && forallb (fun e => private (fst e) || match assoc (fst e) d2 with
                                          | Some w => scal_eqb (snd e) w || all_null (snd e) && all_null w
                                          | None => false end) d1
  && match d_coords (dump a), d_coords (dump b) with Some x, Some y => coval_eqb x y | _, _ => false end.
(** patch.py 1119-1126. *)
Definition unequal (ignore : list string) (d1 d2 : sdict) : list string :=
  map fst (filter (fun e => negb (mem (fst e) ignore) && match assoc (fst e) d2 with Some w => negb (scal_eqb w (snd e)) | None => false end) d1).
(** patch.py 1109-1133. *)
Definition merge_models (ignore : list string) (a b : attrs) : result attrs :=
  if attrs_equal a b then Ok a
  else
    let d1 := d_vals (dump a) in
    let d2 := d_vals (dump b) in
    match unequal ignore d1 d2 with
    | _ :: _ => Err IncompatiblePatchError
    | [] => combine_attrs [MDict (mkDict d1 None); MDict (mkDict d2 None)] "" "keep_first" [] None
    end.
(** constants.py 112. *)
Definition default_ignore : list string := ["history"; "dims"]%string.

(** Model of reading attributes by name: h5_matches_structure and extract_h5_attrs of
    dascore/utils/hdf5.py, maybe_get_items of dascore/utils/misc.py.

    A file maps addresses of groups and datasets to their attributes. Arrays have one dimension.
    Numpy scalars and python scalars are the same. *)
From Verif Require Import Base FrameModel AttrsModel.
From Coq Require Import Strings.String Strings.Ascii.
Local Open Scope list_scope.

Inductive hval := HNone | HText (s : string) | HBytes (s : string) | HNum (z : Z) | HArr (l : list hval).
Definition h5file := list (string * list (string * hval)).
(** misc.py 337-341. *)
Definition unbyte (v : hval) : hval := match v with HBytes s => HText s | _ => v end.
(** misc.py 430-436. *)
Definition unpack (v : hval) : hval := match v with HArr [x] => x | _ => v end.

(** hdf5.py 490-504. *)
Fixpoint matches (f : h5file) (structure : list string) : result bool :=
  match structure with
  | [] => Ok true
  | address :: rest =>
      match str_split "."%char address with
      | [base] => match assoc base f with Some _ => matches f rest | None => Ok false end
      | [base; attr] =>
          match assoc base f with
          | Some attrs => match assoc attr attrs with Some _ => matches f rest | None => Ok false end
          | None => Ok false
          end
      | _ => Err AssertionError
      end
  end.
(** hdf5.py 530-535. *)
Definition pick (f : h5file) (address : string) : result hval :=
  match str_split "."%char address with
  | [base; attr] =>
      match assoc base f with
      | Some attrs => match assoc attr attrs with Some v => Ok (unpack (unbyte v)) | None => Err KeyError end
      | None => Err KeyError
      end
  | _ => Err AssertionError
  end.
Definition hval_eqb (a b : hval) : bool :=
  match a, b with
  | HNone, HNone => true
  | HText x, HText y => String.eqb x y
  | HBytes x, HBytes y => String.eqb x y
  | HNum x, HNum y => Z.eqb x y
  | _, _ => false
  end.
(** hdf5.py 536: a lookup in a dictionary, for which arrays cannot be used. *)
Definition fill_in (fill : list (hval * hval)) (v : hval) : result hval :=
  match v with
  | HArr _ => Err TypeError
  | _ => match find (fun p => hval_eqb (fst p) v) fill with Some p => Ok (snd p) | None => Ok v end
  end.
(** hdf5.py 528-537. *)
Fixpoint extract (f : h5file) (fill : list (hval * hval)) (names : list (string * string)) (out : list (string * hval)) : result (list (string * hval)) :=
  match names with
  | [] => Ok out
  | (address, name) :: rest =>
      do v <- pick f address;
      do w <- fill_in fill v;
      extract f fill rest (assoc_set name w out)
  end.
(** misc.py 405-427. *)
Fixpoint get_items (obj : list (string * hval)) (unpacked : list string) (names : list (string * string)) (out : list (string * hval)) : list (string * hval) :=
  match names with
  | [] => out
  | (old, name) :: rest =>
      match assoc old obj with
      | None | Some HNone => get_items obj unpacked rest out
      | Some v => get_items obj unpacked rest (assoc_set name (if mem old unpacked then unpack (unbyte v) else unbyte v) out)
      end
  end.

(** Model of get_dim_axis_value (dascore/utils/patch.py 594-678): which dimensions the
    positional and keyword arguments of a patch method ask for.

    Simplifications: the keys which hold names of dimensions are the default ones; values are
    names or other hashable things, which are no names of dimensions. *)
From Verif Require Import Base CmModel FrameModel.
From Coq Require Import Strings.String.
Local Open Scope Z_scope.
Local Open Scope list_scope.

Section Ask.
Context {V : Type}.
Inductive aval := Name (s : string) | Thing (v : V).

(** patch.py 599. *)
Definition arg_keys : list string := ["dim"; "coord"; "dims"; "coords"]%string.
Definition names (a : aval) (d : string) : bool := match a with Name s => String.eqb s d | Thing _ => false end.
(** patch.py 657: the values of these keys in the order of the keys. *)
Definition implicit (kw : list (string * aval)) : list aval :=
  flat_map (fun k => match assoc k kw with Some v => [v] | None => [] end) arg_keys.
Definition explicit (kw : list (string * aval)) : list (string * aval) := filter (fun e => negb (mem (fst e) arg_keys)) kw.
(** patch.py 658, 675: everything that is asked for, in order. *)
Definition inputs (args : list aval) (kw : list (string * aval)) : list aval :=
  args ++ implicit kw ++ map (fun e => Name (fst e)) (explicit kw).
(** patch.py 654-678. *)
Definition dim_axis_value (dims : list string) (args : list aval) (kw : list (string * aval)) (multiple extra : bool) : result (list (string * nat * option aval)) :=
  let inp := inputs args kw in
  let overlap := filter (fun d => existsb (fun a => names a d) inp) dims in
  if (zlen overlap =? 0) || ((1 <? zlen overlap) && negb multiple) then Err ParameterError
  else if existsb (fun a => negb (existsb (names a) dims)) inp && negb extra then Err PatchCoordinateError
  else Ok (flat_map (fun a => match a with
                              | Name s => match index_of s dims with Some ax => [(s, ax, assoc s (explicit kw))] | None => [] end
                              | Thing _ => []
                              end) inp).
End Ask.
Arguments aval : clear implicits.

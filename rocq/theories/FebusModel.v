(** Model of recognising Febus files and listing their parts: _get_febus_version_str and
    _flatten_febus_info of dascore/io/febus/a1utils.py.

    A file has instruments, in the order of their names, with sources, in any order: the code
    goes through a set. A source has the names of its attributes, a version or none (as text) and
    zones; a zone has the names of its datasets. *)
From Verif Require Import Base FrameModel AttrsModel.
From Coq Require Import Strings.String Strings.Ascii.
Local Open Scope list_scope.

Record source := mkSource { s_attrs : list string; s_version : option string; s_zones : list (string * list string) }.
Definition febus_file := list (string * list (string * source)).
(** a1utils.py 178-183. *)
Definition expected : list string := ["AmpliPower"; "Hostname"; "WholeExtent"; "SamplingRate"]%string.
(** a1utils.py 197. *)
Definition next_version (version : string) (s : source) : string :=
  hd EmptyString (str_split "."%char (match s_version s with Some v => v | None => version end)).
(** a1utils.py 172-201. *)
Definition febus_version (f : febus_file) : string :=
  let step (acc : bool * string) (inst : string * list (string * source)) :=
    fold_left (fun (a : bool * string) (e : string * source) => (fst a && forallb (fun x => mem x (s_attrs (snd e))) expected, next_version (snd a) (snd e)))
              (snd inst) (fst acc && forallb (fun e => String.prefix "Source" (fst e)) (snd inst), snd acc) in
  let out := fold_left step f (true, "1"%string) in
  match f with
  | [] => EmptyString
  | _ => if fst out then snd out else EmptyString
  end.
(** a1utils.py 154-169: instrument, source, zone and dataset. *)
Definition slice := (string * string * string * string)%type.
Fixpoint zones (i s : string) (zs : list (string * list string)) : result (list slice) :=
  match zs with
  | [] => Ok []
  | (z, ds) :: t =>
      if String.eqb z "time" then zones i s t
      else match ds with
           | [d] => do r <- zones i s t; Ok ((i, s, z, d) :: r)
           | _ => Err AssertionError
           end
  end.
Fixpoint sources (i : string) (ss : list (string * source)) : result (list slice) :=
  match ss with
  | [] => Ok []
  | (s, x) :: t => do a <- zones i s (s_zones x); do b <- sources i t; Ok (a ++ b)
  end.
Fixpoint slices (f : febus_file) : result (list slice) :=
  match f with
  | [] => Ok []
  | (i, ss) :: t => do a <- sources i ss; do b <- slices t; Ok (a ++ b)
  end.

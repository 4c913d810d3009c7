(** What the statements about scanning and file handles are about. *)
From Verif Require Import Base IoModel.
From Coq Require Import Strings.String.
Local Open Scope Z_scope.
Local Open Scope list_scope.

(** ** Handles *)
Definition opened_in (fs : files) (h : Z) : Prop := 0 <= h < zlen (f_open fs).
(** Every handle that was not there before is closed. *)
Definition new_closed (fs fs' : files) : Prop :=
  forall h, zlen (f_open fs) <= h < zlen (f_open fs') -> znth (f_open fs') h = Some false.
(** The handles that were there before are as they were. *)
Definition old_kept (fs fs' : files) : Prop :=
  forall h, opened_in fs h -> znth (f_open fs') h = znth (f_open fs) h.
(** The handle of the caller the source is. *)
Definition own_handle (s : rsource) (h : Z) : Prop :=
  match s with SoBinary g | SoText g | SoTables g => g = h | _ => False end.

(** ** What a scan finds *)
Section Found.
Context {R : Type} (ext : option string) (timestamp : option Z) (claimed : string -> Z -> Prop).

(** The name ends with the extension, if one is given. *)
Definition has_ext (name : string) : Prop :=
  match ext with None => True | Some e => exists a, name = (a ++ e)%string end.
Definition recent (m : Z) : Prop := match timestamp with None => True | Some t => t <= m end.
Definition is_hidden (name : string) : Prop := exists r, name = ("." ++ r)%string.

(** The items offered to the readers when the path [p] is scanned and is the file or
    directory, in order. A directory that is offered and [claimed] by a directory format
    hides its contents. *)
Inductive listing : string -> node -> list (item R) -> Prop :=
  | li_file p name m : listing p (NFile name m) [IFile p]
  | li_hidden p name m es l : is_hidden p -> contents p es l -> listing p (NDir name m es) l
  | li_claimed p name m es : ~ is_hidden p -> claimed p m -> listing p (NDir name m es) [IDir p m]
  | li_dir p name m es l :
      ~ is_hidden p -> ~ claimed p m -> contents p es l -> listing p (NDir name m es) (IDir p m :: l)
with contents : string -> list node -> list (item R) -> Prop :=
  | co_nil p : contents p [] []
  | co_file p name m es l :
      has_ext name -> recent m -> ~ is_hidden name -> contents p es l ->
      contents p (NFile name m :: es) (IFile (p ++ "/" ++ name)%string :: l)
  | co_other p name m es l :
      ~ (has_ext name /\ recent m /\ ~ is_hidden name) -> contents p es l -> contents p (NFile name m :: es) l
  | co_hidden p name m es' es l : is_hidden name -> contents p es l -> contents p (NDir name m es' :: es) l
  | co_dir p name m es' es l l' :
      ~ is_hidden name -> listing (p ++ "/" ++ name)%string (NDir name m es') l -> contents p es l' ->
      contents p (NDir name m es' :: es) (l ++ l').
(** ... and for a list of sources. *)
Inductive listing_in : list (@source R) -> list (item R) -> Prop :=
  | ls_nil : listing_in [] []
  | ls_here p n l ss l' : listing p n l -> listing_in ss l' -> listing_in (SHere p n :: ss) (l ++ l')
  | ls_missing p ss l : listing_in ss l -> listing_in (SMissing p :: ss) (IFile p :: l)
  | ls_patch a ss l : listing_in ss l -> listing_in (SPatch a :: ss) (IPatch a :: l)
  | ls_thing o ss l : listing_in ss l -> listing_in (SThing o :: ss) (IObject o :: l).

(** The same without the order: [Found p n i], the item [i] is offered. *)
Inductive Found : string -> node -> item R -> Prop :=
  | found_file p name m : Found p (NFile name m) (IFile p)
  | found_dir p name m es : ~ is_hidden p -> Found p (NDir name m es) (IDir p m)
  | found_entry p name m es name' m' :
      (is_hidden p \/ ~ claimed p m) -> In (NFile name' m') es ->
      has_ext name' -> recent m' -> ~ is_hidden name' ->
      Found p (NDir name m es) (IFile (p ++ "/" ++ name')%string)
  | found_below p name m es name' m' es' i :
      (is_hidden p \/ ~ claimed p m) -> In (NDir name' m' es') es -> ~ is_hidden name' ->
      Found (p ++ "/" ++ name')%string (NDir name' m' es') i ->
      Found p (NDir name m es) i.
End Found.
(** Names as a file system has them: no slash, not empty, distinct in a directory. *)
Definition node_name (n : node) : string := match n with NFile s _ | NDir s _ _ => s end.
Fixpoint no_slash (s : string) : Prop :=
  match s with EmptyString => True | String c r => c <> Ascii.ascii_of_nat 47 /\ no_slash r end.
Inductive well_named : node -> Prop :=
  | wn_file s m : well_named (NFile s m)
  | wn_dir s m es :
      NoDup (map node_name es) -> (forall e, In e es -> no_slash (node_name e) /\ well_named e) ->
      well_named (NDir s m es).

(** The rows that come from an item: none if no reader takes it, if the file is corrupt
    or a package is missing, or if it is a directory that was not changed since. *)
Section Rows.
Context {R : Type} (reads_dirs : Z -> bool) (reader : item R -> outcome Z) (scans : Z -> item R -> @answer R) (timestamp : option Z).
Definition unchanged (i : item R) : Prop :=
  match i, timestamp with IDir _ m, Some t => t <> 0 /\ m <= t | _, _ => False end.
Definition gives (i : item R) (rows : list R) : Prop :=
  match i with
  | IPatch a => rows = [a]
  | _ =>
      match reader i with
      | Raised _ => rows = []
      | Fine io =>
          if reads_dirs io then (unchanged i /\ rows = []) \/ (~ unchanged i /\ scans io i = ARows rows)
          else match scans io i with ARows l => rows = l | _ => rows = [] end
      end
  end.
Definition lacks_package (i : item R) : Prop :=
  match i with
  | IPatch _ => False
  | _ => exists io pkg, reader i = Fine io /\ reads_dirs io = false /\ scans io i = AMissing pkg
  end.
(** The item ends the scan with an error: it cannot be looked at, a directory format
    fails for it, or a file format fails in an unexpected way. *)
Definition ends (i : item R) (e : ioerr) : Prop :=
  match i with
  | IPatch _ => False
  | _ =>
      match reader i with
      | Raised e' => e' <> EUnknownFormat /\ e = e'
      | Fine io =>
          if reads_dirs io
          then ~ unchanged i /\
               match scans io i with
               | ARows _ => False
               | ACorrupt e' | ARaises e' => e = e'
               | AMissing _ => e = EMissingDependency
               end
          else scans io i = ARaises e
      end
  end.
(** Directory formats are found for directories only. *)
Definition dirs_only (i : item R) : Prop :=
  forall io, reader i = Fine io -> reads_dirs io = true -> match i with IDir _ _ | IPatch _ => True | _ => False end.
(** A directory is claimed when a directory format takes it. *)
Definition claims (p : string) (m : Z) : Prop := exists io, reader (IDir p m) = Fine io /\ reads_dirs io = true.
End Rows.

(** [o] is the last of the readers that are as asked. *)
Definition last_such (P : Z -> Prop) (l : list Z) (o : option Z) : Prop :=
  match o with
  | None => forall x, In x l -> ~ P x
  | Some x => P x /\ exists pre post, l = pre ++ x :: post /\ forall y, In y post -> ~ P y
  end.
(** Sources that are all recognised one after the other, files by file formats and
    directories by directory formats, when the last reader for directories and the last
    for files are given as hints. *)
Section Hints.
Context {R : Type} (reads_dirs : Z -> bool) (detect : hints -> item R -> outcome Z) (scans : Z -> item R -> @answer R).
Inductive plain_item : @source R -> item R -> bool -> Prop :=
  | pi_file p name m : plain_item (SHere p (NFile name m)) (IFile p) false
  | pi_dir p name m es : ~ is_hidden p -> plain_item (SHere p (NDir name m es)) (IDir p m) true
  | pi_missing p : plain_item (SMissing p) (IFile p) false
  | pi_thing o : plain_item (SThing o) (IObject o) false.
Inductive recognised : list Z -> list (@source R) -> list (list R) -> Prop :=
  | re_nil done : recognised done [] []
  | re_patch done a ss rowss : recognised done ss rowss -> recognised done (SPatch a :: ss) ([a] :: rowss)
  | re_cons done s i dir hd hf io rows ss rowss :
      plain_item s i dir ->
      last_such (fun r => reads_dirs r = true) done hd -> last_such (fun r => reads_dirs r = false) done hf ->
      detect (hd, hf) i = Fine io -> reads_dirs io = dir -> scans io i = ARows rows ->
      recognised (done ++ [io]) ss rowss -> recognised done (s :: ss) (rows :: rowss).
End Hints.

(** Model of the input/output core: utils/io.py (IOResourceManager and the handle
    classes), utils/hdf5.py 421-456, io/core.py 404-453 (_type_caster), the generator
    utils/misc.py 164-236 (_iter_filesystem, iterate) and io/core.py scan with
    _iterate_scan_inputs.

    Handles are numbers of a list of flags (open or closed). Generators are trees: a
    yielded value and what happens when the generator is resumed, with or without the
    signal "skip". Not modelled: progress bars, warnings, KeyboardInterrupt, and
    _get_required_type for functions. *)
From Verif Require Import Base.
From Coq Require Import Strings.String Strings.Ascii.
Local Open Scope Z_scope.
Local Open Scope list_scope.

Inductive ioerr := EUnknownFormat | ENotFound | EStopIteration | EMissingDependency | ENotImplemented | EValue | EType | EOs | EOther (n : Z).
Inductive outcome (A : Type) := Fine (a : A) | Raised (e : ioerr).
Arguments Fine {A} a.
Arguments Raised {A} e.

(** * Handles *)

(** The types a reader or writer can ask for: none; str; Path; BinaryReader and
    BinaryWriter; TextReader and TextWriter; the four HDF5 classes; any class without
    [get_handle]. *)
Inductive rtype := RNone | RStr | RPath | RBinary (writer : bool) | RText (writer : bool) | RHdf (k : Z) | RPlain (k : Z).
Definition rtype_eqb (a b : rtype) : bool :=
  match a, b with
  | RNone, RNone | RStr, RStr | RPath, RPath => true
  | RBinary x, RBinary y | RText x, RText y => Bool.eqb x y
  | RHdf x, RHdf y | RPlain x, RPlain y => x =? y
  | _, _ => false
  end.
(** What a manager is made for: a path, an open stream or HDF5 file of the caller, or
    some other object. *)
Inductive rsource := SoPath (p : string) | SoBinary (h : Z) | SoText (h : Z) | SoTables (h : Z) | SoObject.
(** What a request returns. *)
Inductive rvalue := VSource | VStr | VPath | VHandle (h : Z).

(** The files: which handles are open, and the paths whose parent directories were
    made on the way. *)
Record files := mkFiles { f_open : list bool; f_made : list string }.
Definition is_open (fs : files) (h : Z) : bool := match znth (f_open fs) h with Some b => b | None => false end.

Section Handles.
(** Whether a path exists, and whether it can be opened as a type. *)
Context (there : string -> bool) (opens : string -> rtype -> bool).

(** [_maybe_make_parent_directory] (utils/misc.py 368-374) and [open]. *)
Definition open_path (fs : files) (p : string) (t : rtype) : outcome rvalue * files :=
  let fs := if there p then fs else mkFiles (f_open fs) (f_made fs ++ [p]) in
  if opens p t then (Fine (VHandle (zlen (f_open fs))), mkFiles (f_open fs ++ [true]) (f_made fs))
  else (Raised EOs, fs).
(** [resource.seek(0)] raises on a closed stream. *)
Definition rewound (fs : files) (h : Z) (reset : bool) : outcome rvalue * files :=
  if reset && negb (is_open fs h) then (Raised EValue, fs) else (Fine (VHandle h), fs).

(** utils/io.py 100-111: get_handle_from_resource, with the [get_handle] methods at
    utils/io.py 40-52 (binary; TextWriter inherits it), 67-79 (text) and
    utils/hdf5.py 427-437. Objects that cannot be opened raise TypeError, which
    becomes NotImplementedError. *)
Definition get_handle (fs : files) (s : rsource) (t : rtype) : outcome rvalue * files :=
  match t with
  | RNone => (Fine VSource, fs)
  | RPlain _ =>
      match s with
      | SoBinary h | SoText h | SoTables h => (Fine (VHandle h), fs)
      | _ => (Fine VSource, fs)
      end
  | RStr => (Fine VStr, fs)
  | RPath => match s with SoPath _ => (Fine VPath, fs) | _ => (Raised EType, fs) end
  | RBinary w =>
      match s with
      | SoBinary h => rewound fs h (negb w)
      | SoPath p => open_path fs p t
      | _ => (Raised ENotImplemented, fs)
      end
  | RText false =>
      match s with
      | SoText h => rewound fs h true
      | SoPath p => open_path fs p t
      | _ => (Raised ENotImplemented, fs)
      end
  | RText true =>
      match s with
      | SoBinary h => rewound fs h false
      | SoPath p => open_path fs p t
      | _ => (Raised ENotImplemented, fs)
      end
  | RHdf _ =>
      match s with
      | SoTables h => (Fine (VHandle h), fs)
      | SoPath p => open_path fs p t
      | _ => (Raised ENotImplemented, fs)
      end
  end.

Definition close (fs : files) (h : Z) : files :=
  mkFiles (map (fun e => if fst e =? h then false else snd e) (combine (zrange (zlen (f_open fs))) (f_open fs))) (f_made fs).
Definition close_value (fs : files) (v : rvalue) : files := match v with VHandle h => close fs h | _ => fs end.

(** ** IOResourceManager (utils/io.py 114-163) *)
Definition cache := list (rtype * rvalue).
Definition lookup (t : rtype) (c : cache) : option rvalue := option_map snd (find (fun e => rtype_eqb (fst e) t) c).
(** 136-151: get_resource. The managers are listed from the innermost, made for the
    next one, to the outermost, made for the source. *)
Fixpoint get_resource (s : rsource) (ms : list cache) (fs : files) (t : rtype)
  : outcome rvalue * (list cache * files) :=
  match t with
  | RNone => (Fine VSource, (ms, fs))
  | _ =>
      match ms with
      | [] => (Raised (EOther 0), (ms, fs))
      | [c] =>
          match lookup t c with
          | Some v => (Fine v, (ms, fs))
          | None =>
              match get_handle fs s t with
              | (Fine v, fs') => (Fine v, ([c ++ [(t, v)]], fs'))
              | (Raised e, fs') => (Raised e, (ms, fs'))
              end
          end
      | c :: ms' =>
          match get_resource s ms' fs t with (o, (ms'', fs')) => (o, (c :: ms'', fs')) end
      end
  end.
(** 153-156: close_all; the cache is kept. *)
Definition close_all (c : cache) (fs : files) : files := fold_left close_value (map snd c) fs.

(** What happens inside a [with] block: requests, inner [with] blocks on managers made
    for the manager, and exceptions. A failing request raises unless it is caught, as
    in _get_format (io/core.py 377-386). *)
Inductive body :=
  | BDone
  | BRaise (e : ioerr)
  | BGet (t : rtype) (caught : bool) (k : outcome rvalue -> body)
  | BWith (inner : body) (k : body).
(** [__exit__] closes and does not hold the exception back. The exception of an inner
    block ends the outer one. *)
Fixpoint run (s : rsource) (b : body) (ms : list cache) (fs : files) : outcome unit * (list cache * files) :=
  match b with
  | BDone => (Fine tt, (ms, fs))
  | BRaise e => (Raised e, (ms, fs))
  | BGet t caught k =>
      match get_resource s ms fs t with
      | (Raised e, (ms', fs')) =>
          if caught then run s (k (Raised e)) ms' fs' else (Raised e, (ms', fs'))
      | (v, (ms', fs')) => run s (k v) ms' fs'
      end
  | BWith inner k =>
      match run s inner ([] :: ms) fs with
      | (o, (c :: ms', fs')) =>
          let fs'' := close_all c fs' in
          match o with Fine _ => run s k ms' fs'' | Raised e => (Raised e, (ms', fs'')) end
      | (o, ([], fs')) => (Raised (EOther 1), ([], fs'))
      end
  end.
(** [with IOResourceManager(source) as man: body]. *)
Definition with_manager (s : rsource) (b : body) (fs : files) : outcome unit * (list cache * files) :=
  match run s b [[]] fs with
  | (o, (c :: ms, fs')) => (o, (c :: ms, close_all c fs'))
  | x => x
  end.

(** ** _type_caster (io/core.py 404-453)

    The call of a reader's method with a resource that still has to be opened. [func]
    tells what the method does with what it gets. *)
Definition cast_call {A} (s : rsource) (t : rtype) (is_get_format : bool) (failed : A)
  (func : rvalue -> outcome A) (fs : files) : outcome A * files :=
  match t with
  | RNone => (func VSource, fs)
  | _ =>
      match get_handle fs s t with
      | (Raised e, fs') => ((if is_get_format then Fine failed else Raised e), fs')
      | (Fine v, fs') =>
          match func v with
          | Raised e => ((if is_get_format then Fine failed else Raised e), fs')
          | Fine a =>
              let same := match s, v with
                          | SoBinary h, VHandle g | SoText h, VHandle g | SoTables h, VHandle g => h =? g
                          | _, _ => false
                          end in
              (Fine a, if same then fs' else close_value fs' v)
          end
      end
  end.
End Handles.

(** * Scanning *)

(** A file or directory with its name and modification time; a directory with its
    entries in the order os.scandir gives them. *)
Inductive node := NFile (name : string) (mtime : Z) | NDir (name : string) (mtime : Z) (entries : list node).
(** What the scan loop gets: a file or directory of the file system, or an object that is
    passed through: a patch (with its attributes) or anything else. *)
Inductive item (R : Type) := IFile (p : string) | IDir (p : string) (mtime : Z) | IPatch (a : R) | IObject (o : string).
Arguments IFile {R} p.
Arguments IDir {R} p mtime.
Arguments IPatch {R} a.
Arguments IObject {R} o.

Section Scan.
Context {R : Type}.

(** A generator: finished, or a yielded value and what follows when it is resumed by
    [next] ([false]) or by [send("skip")] ([true]). *)
Inductive gen := GDone | GYield (v : option (item R)) (k : bool -> gen).

Definition starts_with (c : ascii) (s : string) : bool :=
  match s with String d _ => Ascii.eqb c d | EmptyString => false end.
Definition dot : ascii := Ascii.ascii_of_nat 46.
Definition hidden (s : string) : bool := starts_with dot s.
Definition join (p name : string) : string := (p ++ "/" ++ name)%string.
(** [str.endswith]. *)
Definition ends_with (s suffix : string) : bool :=
  let n := String.length s in let m := String.length suffix in
  Nat.leb m n && String.eqb (String.substring (n - m) m s) suffix.

Section Listing.
Context (ext : option string) (timestamp : option Z) (dirs : bool).
(** utils/misc.py 205-208, with skip_hidden. *)
Definition file_ok (name : string) (mtime : Z) : bool :=
  match ext with Some e => ends_with name e | None => true end
  && match timestamp with Some t => t <=? mtime | None => true end
  && negb (hidden name).
(** utils/misc.py 196-221: _iter_filesystem of one path; [k] is what follows. *)
Fixpoint iter_fs (path : string) (n : node) (k : gen) {struct n} : gen :=
  match n with
  | NFile _ _ => GYield (Some (IFile path)) (fun _ => k)
  | NDir _ mt entries =>
      let contents :=
        (fix loop (es : list node) : gen :=
          match es with
          | [] => k
          | e :: es' =>
              match e with
              | NFile name m =>
                  if file_ok name m then GYield (Some (IFile (join path name))) (fun _ => loop es') else loop es'
              | NDir name _ _ => if hidden name then loop es' else iter_fs (join path name) e (loop es')
              end
          end) entries in
      if dirs && negb (hidden path)
      then GYield (Some (IDir path mt)) (fun skip => if skip then GYield None (fun _ => k) else contents)
      else contents
  end.
End Listing.

(** One element of the sources: an existing path, a path that does not exist (it is
    yielded as it is), a patch, or another object. *)
Inductive source := SHere (p : string) (n : node) | SMissing (p : string) | SPatch (a : R) | SThing (o : string).
(** The argument of scan as [iterate] sees it: a sequence that can be iterated again (a
    single source counts as one), or an iterator, which is used up after once. *)
Inductive sources := Again (l : list source) | Once (l : list source).
(** io/core.py 721-730: _iterate_scan_inputs. *)
Fixpoint iter_inputs (ext : option string) (timestamp : option Z) (dirs : bool) (l : list source) : gen :=
  match l with
  | [] => GDone
  | SHere p n :: l' => iter_fs ext timestamp dirs p n (iter_inputs ext timestamp dirs l')
  | SMissing p :: l' => GYield (Some (IFile p)) (fun _ => iter_inputs ext timestamp dirs l')
  | SPatch a :: l' => GYield (Some (IPatch a)) (fun _ => iter_inputs ext timestamp dirs l')
  | SThing o :: l' => GYield (Some (IObject o)) (fun _ => iter_inputs ext timestamp dirs l')
  end.
(** io/core.py 767-776: _count_generator runs over the sources once. *)
Definition after_count (s : sources) : list source := match s with Again l => l | Once _ => [] end.

(** ** The loop of scan (io/core.py 868-931) *)

(** What a reader's scan method does: rows, one of the exceptions that mean a corrupt
    file, a missing package, or another exception. *)
Inductive answer := ARows (l : list R) | ACorrupt (e : ioerr) | AMissing (pkg : string) | ARaises (e : ioerr).
(** The last reader used for directories and for files. *)
Definition hints := (option Z * option Z)%type.
Section Loop.
(** [reads_dirs]: a reader's input type is "directory". [detect]: the reader found for
    an item given the hints (C43). [scans]: what its scan method does. *)
Context (reads_dirs : Z -> bool) (detect : hints -> item R -> outcome Z) (scans : Z -> item R -> answer) (timestamp : option Z).

Definition hinted (h : hints) (io : Z) : hints := if reads_dirs io then (Some io, snd h) else (fst h, Some io).
(** io/core.py 574-578: no time stamp, or zero, means always. Only directories are
    looked at; a file given to a directory reader counts as updated. *)
Definition updated_after (i : item R) : bool :=
  match timestamp with
  | None => true
  | Some t => (t =? 0) || match i with IDir _ m => t <? m | _ => true end
  end.
Fixpoint scan_loop (g : gen) (h : hints) (missing : list string) (out : list R) : outcome (list R * list string) :=
  match g with
  | GDone => Fine (out, missing)
  | GYield None _ => Raised EType
  | GYield (Some (IPatch a)) k => scan_loop (k false) h missing (out ++ [a])
  | GYield (Some i) k =>
      match detect h i with
      | Raised EUnknownFormat => scan_loop (k false) h missing out
      | Raised e => Raised e
      | Fine io =>
          let h := hinted h io in
          if reads_dirs io then
            match k true with
            | GDone => Raised EStopIteration
            | GYield _ k' =>
                if negb (updated_after i) then scan_loop (k' false) h missing out
                else match scans io i with
                     | ARows rows => scan_loop (k' false) h missing (out ++ rows)
                     | ACorrupt e | ARaises e => Raised e
                     | AMissing _ => Raised EMissingDependency
                     end
            end
          else
            match scans io i with
            | ARows rows => scan_loop (k false) h missing (out ++ rows)
            | ACorrupt _ => scan_loop (k false) h missing out
            | AMissing p => scan_loop (k false) h (missing ++ [p]) out
            | ARaises e => Raised e
            end
      end
  end.
(** io/core.py 798-931: scan, with _handle_missing_optionals (779-796). *)
Definition scan (ext : option string) (s : sources) : outcome (list R) :=
  match scan_loop (iter_inputs ext timestamp true (after_count s)) (None, None) [] [] with
  | Fine (out, missing) =>
      match missing, out with
      | _ :: _, [] => Raised EMissingDependency
      | _, _ => Fine out
      end
  | Raised e => Raised e
  end.
End Loop.
End Scan.

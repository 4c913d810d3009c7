(** Model of the reader registry (dascore/io/core.py 103-398, _FiberIOManager):
    registering readers, loading plugins, the order readers are tried in and the
    detection of a file's format.

    A reader (FiberIO instance) is an integer, its identity: FiberIO defines
    __hash__ but not __eq__, so membership in sets and dicts is identity. Its
    class attributes are looked up in a [world] and do not change. Warnings and
    the resource manager that opens files are not modelled. *)
From Verif Require Import Base FrameModel CmModel.
From Coq Require Import Strings.String Strings.Ascii.
Local Open Scope Z_scope.
Local Open Scope list_scope.

(** core.py 467-520: the class attributes the registry reads. A string given as
    preferred_extensions is iterated letter by letter; here it is the list of what
    iter() gives. *)
Record world := mkWorld
  { w_name : Z -> string; w_ver : Z -> string; w_exts : Z -> list string; w_type : Z -> string }.

(** An entry point: its name and the readers that loading it registers, in order.
    Importing the module runs FiberIO.__init_subclass__ (core.py 584-592) for every
    class in it; eps()() then makes another instance of one of them, which
    register_fiberio ignores. An entry point that fails registers what it reached
    before failing; the exception only becomes a warning (188-199). *)
Definition eps_t := list (string * list Z).

(** The manager. Dictionaries are association lists in insertion order; sets are
    lists. [m_known], [m_loads], [m_bytype], [m_prio] and [m_got] are the caches of
    known_formats, load_plugins, _get_fiber_io_by_input_type,
    _get_prioritized_list and get_fiberio. A cached answer of
    _get_fiber_io_by_input_type for a registered type is the set in the
    dictionary itself and keeps growing: [None]. *)
Definition request := (option string * option string * option string)%type.
Record mgr := mkMgr
  { m_vers : list (string * list (string * Z));
    m_exts : list (string * list Z);
    m_types : list (string * list Z);
    m_ids : list (string * string);
    m_failed : list string;
    m_known : option (list string);
    m_loads : list (option string);
    m_bytype : list (option string * option (list Z));
    m_prio : list (option string * list Z);
    m_got : list (request * option Z) }.

(** core.py 110-118. *)
Definition empty_mgr : mgr := mkMgr [] [] [] [] [] None [] [] [] [].

(** str.upper for ASCII names. *)
Definition upper_char (c : ascii) : ascii :=
  let n := nat_of_ascii c in
  if (Nat.leb 97 n && Nat.leb n 122)%bool then ascii_of_nat (n - 32) else c.
Fixpoint upper (s : string) : string :=
  match s with EmptyString => EmptyString | String c t => String (upper_char c) (upper t) end.

(** A lookup in a defaultdict(list). *)
Definition get_list {A} (k : string) (d : list (string * list A)) : list A :=
  match assoc k d with Some l => l | None => [] end.
Definition touch {A} (k : string) (d : list (string * list A)) : list (string * list A) :=
  if mem k (map fst d) then d else d ++ [(k, [])].
Definition push {A} (x : A) (d : list (string * list A)) (k : string) : list (string * list A) :=
  assoc_set k (get_list k d ++ [x]) d.
Definition has_reader (x : Z) (l : list Z) : bool := existsb (Z.eqb x) l.
Definition id_eqb (a b : string * string) : bool := String.eqb (fst a) (fst b) && String.eqb (snd a) (snd b).

(** name.split("__", maxsplit=1)[0]. *)
Fixpoint ep_format (s : string) : string :=
  match s with
  | EmptyString => EmptyString
  | String c t => if str_prefix "__" s then EmptyString else String c (ep_format t)
  end.

Section Manager.
  Variable w : world.
  Variable eps : eps_t.
  (** Iteration order of a python set of strings. *)
  Variable order : list string -> list string.

  (** core.py 203-214. *)
  Definition register (m : mgr) (x : Z) : mgr :=
    let f := upper (w_name w x) in
    let v := w_ver w x in
    if existsb (id_eqb (f, v)) (m_ids m) then m
    else mkMgr (assoc_set f (assoc_set v x (get_list f (m_vers m))) (m_vers m))
               (fold_left (push x) (w_exts w x) (m_exts m))
               (push x (m_types m) (w_type w x))
               (m_ids m ++ [(f, v)])
               (m_failed m) (m_known m) (m_loads m) (m_bytype m) (m_prio m) (m_got m).

  Definition set_vers d (m : mgr) : mgr :=
    mkMgr d (m_exts m) (m_types m) (m_ids m) (m_failed m) (m_known m) (m_loads m) (m_bytype m) (m_prio m) (m_got m).
  Definition set_exts d (m : mgr) : mgr :=
    mkMgr (m_vers m) d (m_types m) (m_ids m) (m_failed m) (m_known m) (m_loads m) (m_bytype m) (m_prio m) (m_got m).
  Definition add_failed f (m : mgr) : mgr :=
    mkMgr (m_vers m) (m_exts m) (m_types m) (m_ids m) (m_failed m ++ [f]) (m_known m) (m_loads m) (m_bytype m) (m_prio m) (m_got m).
  Definition set_known k (m : mgr) : mgr :=
    mkMgr (m_vers m) (m_exts m) (m_types m) (m_ids m) (m_failed m) (Some k) (m_loads m) (m_bytype m) (m_prio m) (m_got m).
  Definition add_load f (m : mgr) : mgr :=
    mkMgr (m_vers m) (m_exts m) (m_types m) (m_ids m) (m_failed m) (m_known m) (m_loads m ++ [f]) (m_bytype m) (m_prio m) (m_got m).
  Definition add_bytype t l (m : mgr) : mgr :=
    mkMgr (m_vers m) (m_exts m) (m_types m) (m_ids m) (m_failed m) (m_known m) (m_loads m) (m_bytype m ++ [(t, l)]) (m_prio m) (m_got m).
  Definition add_prio t l (m : mgr) : mgr :=
    mkMgr (m_vers m) (m_exts m) (m_types m) (m_ids m) (m_failed m) (m_known m) (m_loads m) (m_bytype m) (m_prio m ++ [(t, l)]) (m_got m).
  Definition add_got q l (m : mgr) : mgr :=
    mkMgr (m_vers m) (m_exts m) (m_types m) (m_ids m) (m_failed m) (m_known m) (m_loads m) (m_bytype m) (m_prio m) (m_got m ++ [(q, l)]).

  (** core.py 128-132: known_formats, a cached_property. *)
  Definition known (m : mgr) : list string * mgr :=
    match m_known m with
    | Some k => (k, m)
    | None => let k := nodup string_dec (map (fun e => ep_format (fst e)) eps ++ map fst (m_vers m)) in
              (k, set_known k m)
    end.
  (** core.py 134-138. *)
  Definition is_unloaded (m : mgr) (f : string) : bool :=
    negb (mem f (map fst (m_vers m))) && negb (mem f (m_failed m)).
  Definition unloaded (m : mgr) : list string * mgr :=
    let '(k, m) := known m in (sort_strs (filter (is_unloaded m) k), m).

  (** core.py 180-201: the loop of load_plugins for one format: every entry point
      whose name starts with it. *)
  Definition entries_of (form : string) : list Z :=
    List.concat (map snd (filter (fun e => str_prefix form (fst e)) eps)).
  Definition load_one (m : mgr) (form : string) : mgr :=
    let m := fold_left register (entries_of form) m in
    if mem form (map fst (m_vers m)) then m else add_failed form m.
  (** core.py 172-201: load_plugins. The assertion of line 201 always holds
      (theorem C43_load_assertion) and is left out. *)
  Definition load_body (m : mgr) (fmt : option string) : mgr :=
    if match fmt with Some f => mem f (map fst (m_vers m)) | None => false end then m
    else
      let '(u, m) := unloaded m in
      match u with
      | [] => m
      | _ => fold_left load_one (match fmt with Some f => [f] | None => u end) m
      end.
  Definition opt_eqb (a b : option string) : bool :=
    match a, b with Some x, Some y => String.eqb x y | None, None => true | _, _ => false end.
  Definition load (m : mgr) (fmt : option string) : mgr :=
    if existsb (opt_eqb fmt) (m_loads m) then m else add_load fmt (load_body m fmt).

  Fixpoint cached {A} (t : option string) (l : list (option string * A)) : option A :=
    match l with [] => None | (t', a) :: r => if opt_eqb t t' then Some a else cached t r end.

  (** core.py 140-149. *)
  Definition of_type (m : mgr) (t : option string) : list Z :=
    match t with Some s => get_list s (m_types m) | None => [] end.
  Definition by_type (m : mgr) (t : option string) : list Z * mgr :=
    match cached t (m_bytype m) with
    | Some (Some l) => (l, m)
    | Some None => (of_type m t, m)
    | None =>
        if match t with Some s => mem s (map fst (m_types m)) | None => false end
        then (of_type m t, add_bytype t None m)
        else let l := List.concat (map snd (m_types m)) in (l, add_bytype t (Some l) m)
    end.

  (** sorted(..., reverse=True) of a dictionary's items by key: python compares
      strings by code points. *)
  Fixpoint insert_desc (p : string * Z) (l : list (string * Z)) : list (string * Z) :=
    match l with
    | [] => [p]
    | q :: t => if String.leb (fst q) (fst p) then p :: q :: t else q :: insert_desc p t
    end.
  Definition newest_first (d : list (string * Z)) : list Z := map snd (fold_right insert_desc [] d).

  (** core.py 151-170: _get_prioritized_list. Reading [_format_version] of a format
      that failed to load creates an empty entry. *)
  Definition prio (m : mgr) (t : option string) : list Z * mgr :=
    match cached t (m_prio m) with
    | Some l => (l, m)
    | None =>
        let m := load m None in
        let '(k, m) := known m in
        let k := order k in
        let lists := map (fun f => newest_first (get_list f (m_vers m))) k in
        let m := set_vers (fold_left (fun d f => touch f d) k (m_vers m)) m in
        let maybe := List.concat (map (firstn 1) lists) ++ List.concat (map (skipn 1) lists) in
        let '(valid, m) := by_type m t in
        let out := filter (fun x => has_reader x valid) maybe in
        (out, add_prio t out m)
    end.

  (** The generators are lists of stages: what is yielded before the manager is
      looked at again. *)
  Definition stage := mgr -> result (list Z) * mgr.
  Definition truthy (s : option string) : bool :=
    match s with Some EmptyString | None => false | _ => true end.

  (** core.py 298-323: _yield_format_version, after the load of line 288. *)
  Definition format_stage (fmt : string) (ver : option string) : stage := fun m =>
    let m := load (load m (Some fmt)) (Some (upper fmt)) in
    match get_list (upper fmt) (m_vers m) with
    | [] => (Err UnknownFiberFormatError, snd (known m))
    | d =>
        if truthy ver
        then match assoc (match ver with Some v => v | None => EmptyString end) d with
             | Some x => (Ok [x], m)
             | None => (Err UnknownFiberFormatError, m)
             end
        else (Ok (newest_first d), m)
    end.
  (** core.py 325-336: _yield_extensions. *)
  Definition ext_stage (ext : string) (t : option string) : stage := fun m =>
    let m := load m None in
    let '(valid, m) := by_type m t in
    (Ok (filter (fun x => has_reader x valid) (get_list ext (m_exts m))),
     set_exts (touch ext (m_exts m)) m).
  Definition rest_stage (ext : string) (t : option string) : stage := fun m =>
    let '(l, m) := prio m t in
    (Ok (filter (fun x => negb (has_reader x (get_list ext (m_exts m)))) l), m).
  Definition prio_stage (t : option string) : stage := fun m =>
    let '(l, m) := prio m t in (Ok l, m).

  (** core.py 246-296: yield_fiberio. *)
  Definition yield_fiberio (fmt ver ext : option string) (hint : list (string * Z)) (t : option string)
    : list stage :=
    if truthy ver && negb (truthy fmt) then [fun m => (Err UnknownFiberFormatError, m)]
    else match fmt with
         | Some f => [format_stage f ver]
         | None =>
             match match t with Some s => assoc s hint | None => None end with
             | Some x => [fun m => (Ok [x], m)]
             | None => []
             end
             ++ match ext with
                | Some e => [ext_stage e t; rest_stage e t]
                | None => [prio_stage t]
                end
         end.

  (** Everything the generator yields. *)
  Fixpoint run_all (ss : list stage) (m : mgr) : result (list Z) * mgr :=
    match ss with
    | [] => (Ok [], m)
    | s :: t =>
        match s m with
        | (Err e, m) => (Err e, m)
        | (Ok l, m) => match run_all t m with
                       | (Ok r, m) => (Ok (l ++ r), m)
                       | (Err e, m) => (Err e, m)
                       end
        end
    end.

  (** core.py 216-244: get_fiberio, the first reader or None; answers are cached. *)
  Fixpoint first_of (ss : list stage) (m : mgr) : result (option Z) * mgr :=
    match ss with
    | [] => (Ok None, m)
    | s :: t =>
        match s m with
        | (Err e, m) => (Err e, m)
        | (Ok (x :: _), m) => (Ok (Some x), m)
        | (Ok [], m) => first_of t m
        end
    end.
  Definition req_eqb (a b : request) : bool :=
    let '(f, v, e) := a in let '(f', v', e') := b in opt_eqb f f' && opt_eqb v v' && opt_eqb e e'.
  Definition get_fiberio (q : request) (m : mgr) : result (option Z) * mgr :=
    match find (fun p => req_eqb q (fst p)) (m_got m) with
    | Some p => (Ok (snd p), m)
    | None =>
        let '(f, v, e) := q in
        match first_of (yield_fiberio f v e [] None) m with
        | (Ok x, m) => (Ok x, add_got q x m)
        | (Err e, m) => (Err e, m)
        end
    end.

  (** core.py 338-389: _get_format. [answer x] is what the reader says about the
      file: [None] when its get_format raised or gave something falsy. *)
  Fixpoint find_answer {A} (answer : Z -> option A) (l : list Z) : option A :=
    match l with [] => None | x :: t => match answer x with Some a => Some a | None => find_answer answer t end end.
  Fixpoint detect {A} (answer : Z -> option A) (ss : list stage) (m : mgr) : result A * mgr :=
    match ss with
    | [] => (Err UnknownFiberFormatError, m)
    | s :: t =>
        match s m with
        | (Err e, m) => (Err e, m)
        | (Ok l, m) => match find_answer answer l with
                       | Some a => (Ok a, m)
                       | None => detect answer t m
                       end
        end
    end.
  Definition get_format {A} (answer : Z -> option A) (ext fmt ver : option string)
    (hint : list (string * Z)) (t : string) (m : mgr) : result A * mgr :=
    detect answer (yield_fiberio fmt ver ext hint (Some t)) m.
End Manager.

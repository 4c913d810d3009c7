(** Model of method namespaces (dascore/utils/namespace.py, dascore/utils/plugins.py):
    registered namespace classes, lazily loaded entry points and the namespaces kept by
    patches and spools.

    Simplifications: a class is a number (its place in the order of definition) with at most
    one parent; its attributes are functions or other values. Loading an entry point defines
    some classes and does not fail. Attributes which are found without __getattr__ are left
    out, except namespaces kept from earlier access. *)
From Verif Require Import Base.
From Coq Require Import Strings.String.
Local Open Scope Z_scope.
Local Open Scope list_scope.

(** An attribute: a function wrapped by _pass_to_host_method so many times, or another value. *)
Inductive attr := Func (wraps : nat) | Other.
(** A class statement; [None] for name, group or parent if it does not set them. *)
Record stmt := mkStmt { s_parent : option Z; s_group : option string; s_name : option string; s_body : list (string * attr) }.
Record cls := mkCls { k_parent : option Z; k_group : option string; k_name : option string; k_attrs : list (string * attr) }.
(** [n_kept]: namespaces in the __dict__ of objects; [n_loaded]: results kept by
    functools.cache (plugins.py 31); [n_warned]: classes whose definition warned. *)
Record nstate := mkNs
  { n_classes : list cls; n_reg : list ((option string * string) * Z);
    n_kept : list ((Z * string) * Z); n_loaded : list (string * string); n_warned : list Z }.
Definition ns_start : nstate := mkNs [] [] [] [] [].

Definition opt_str_eqb (a b : option string) : bool :=
  match a, b with Some x, Some y => String.eqb x y | None, None => true | _, _ => false end.
Definition key_is (k l : option string * string) : bool := opt_str_eqb (fst k) (fst l) && String.eqb (snd k) (snd l).
Fixpoint find_key (k : option string * string) (l : list ((option string * string) * Z)) : option Z :=
  match l with [] => None | (k', i) :: t => if key_is k k' then Some i else find_key k t end.
Fixpoint find_kept (o : Z) (n : string) (l : list ((Z * string) * Z)) : option Z :=
  match l with [] => None | ((o', n'), i) :: t => if (o =? o') && String.eqb n n' then Some i else find_kept o n t end.

Definition private (k : string) : bool := prefix "_" k.
(** namespace.py 28-31: __setattr__ of the metaclass. *)
Definition stored (k : string) (a : attr) : attr :=
  match a with Func n => if private k then Func n else Func (S n) | Other => Other end.
(** namespace.py 57-75. A name and a group which are not set come from the parent; the registry
    is a dictionary, here with the newest entry first. *)
Definition define (st : nstate) (s : stmt) : nstate :=
  let parent := match s_parent s with Some i => znth (n_classes st) i | None => None end in
  let own (x : option string) (f : cls -> option string) := match x with Some y => Some y | None => match parent with Some c => f c | None => None end end in
  let c := mkCls (match parent with Some _ => s_parent s | None => None end) (own (s_group s) k_group) (own (s_name s) k_name) (map (fun e => (fst e, stored (fst e) (snd e))) (s_body s)) in
  let i := zlen (n_classes st) in
  match k_name c with
  | None => mkNs (n_classes st ++ [c]) (n_reg st) (n_kept st) (n_loaded st) (n_warned st)
  | Some n =>
      mkNs (n_classes st ++ [c]) (((k_group c, n), i) :: n_reg st) (n_kept st) (n_loaded st)
        (match find_key (k_group c, n) (n_reg st) with Some _ => i :: n_warned st | None => n_warned st end)
  end.

(** plugins.py 12-27: of entry points with the same name the last one counts. *)
Fixpoint last_named {B} (n : string) (l : list (string * B)) : option B :=
  match l with
  | [] => None
  | (m, b) :: t => match last_named n t with Some x => Some x | None => if String.eqb n m then Some b else None end
  end.
Section Namespaces.
  (** The classes each entry point of a group defines, by name, and the group of each object. *)
  Variable points : string -> list (string * list stmt).
  Variable owner : Z -> string.

  (** plugins.py 30-40. *)
  Definition load_point (st : nstate) (g n : string) : nstate :=
    if existsb (fun x => String.eqb g (fst x) && String.eqb n (snd x)) (n_loaded st) then st
    else
      let st := mkNs (n_classes st) (n_reg st) (n_kept st) ((g, n) :: n_loaded st) (n_warned st) in
      match last_named n (points g) with Some l => fold_left define l st | None => st end.
  (** namespace.py 104-121. *)
  Definition access (st : nstate) (o : Z) (n : string) : result Z * nstate :=
    match find_kept o n (n_kept st) with
    | Some i => (Ok i, st)
    | None =>
        let st := load_point st (owner o) n in
        match find_key (Some (owner o), n) (n_reg st) with
        | Some i => (Ok i, mkNs (n_classes st) (n_reg st) (((o, n), i) :: n_kept st) (n_loaded st) (n_warned st))
        | None => (Err AttributeError, st)
        end
    end.
  Inductive nop := ODefine (s : stmt) | OAccess (o : Z) (n : string).
  Definition ns_step (st : nstate) (op : nop) : nstate :=
    match op with ODefine s => define st s | OAccess o n => snd (access st o n) end.
  Definition ns_run (st : nstate) (ops : list nop) : nstate := fold_left ns_step ops st.
End Namespaces.

Fixpoint look (k : string) (l : list (string * attr)) : option attr :=
  match l with [] => None | (n, v) :: t => if String.eqb n k then Some v else look k t end.
(** An attribute of the class or of its parents. *)
Fixpoint class_attr (fuel : nat) (cs : list cls) (i : Z) (k : string) : option attr :=
  match fuel, znth cs i with
  | S f, Some c =>
      match look k (k_attrs c) with
      | Some a => Some a
      | None => match k_parent c with Some j => class_attr f cs j k | None => None end
      end
  | _, _ => None
  end.
(** What a function gets as its first argument if it is called as a method of a namespace:
    namespace.py 18-20. The host has no attribute _obj. *)
Inductive receiver := Host | Namespace.
Definition called (a : option attr) : result receiver :=
  match a with
  | Some (Func O) => Ok Namespace
  | Some (Func 1) => Ok Host
  | Some (Func _) => Err AttributeError
  | Some Other => Err TypeError
  | None => Err AttributeError
  end.
Definition method (st : nstate) (i : Z) (k : string) : result receiver :=
  called (class_attr (S (Z.to_nat i)) (n_classes st) i k).

(** What the reader registry is meant to do. *)
From Verif Require Import Base BaseFacts FrameModel RegistryModel.
From Coq Require Import Strings.String Permutation Sorted.
Local Open Scope Z_scope.
Local Open Scope list_scope.

(** A reader is registered under its upper-case format and its version. *)
Definition format_of (w : world) (x : Z) : string := upper (w_name w x).
Definition key (w : world) (x : Z) : string * string := (format_of w x, w_ver w x).

(** The readers that count after a sequence of registrations: the first with each
    format and version. *)
Fixpoint known_key (w : world) (x : Z) (l : list Z) : bool :=
  match l with [] => false | y :: t => id_eqb (key w x) (key w y) || known_key w x t end.
Definition add_reader (w : world) (l : list Z) (x : Z) : list Z := if known_key w x l then l else l ++ [x].
Definition add_readers (w : world) (l log : list Z) : list Z := fold_left (add_reader w) log l.

(** What can happen to a manager. *)
Inductive op :=
  | Register (xs : list Z)                            (* FiberIO subclasses are defined: a module is imported *)
  | LoadPlugins (fmt : option string)
  | Known
  | Get (q : request)
  | Yield (fmt ver ext : option string) (hint : list (string * Z)) (t : option string)
  | Detect (answer : Z -> option Z) (fmt ver ext : option string) (hint : list (string * Z)) (t : string).

Definition apply_op (w : world) (eps : eps_t) (order : list string -> list string) (m : mgr) (o : op) : mgr :=
  match o with
  | Register xs => fold_left (register w) xs m
  | LoadPlugins fmt => load w eps m fmt
  | Known => snd (known eps m)
  | Get q => snd (get_fiberio w eps order q m)
  | Yield f v e h t => snd (run_all (yield_fiberio w eps order f v e h t) m)
  | Detect a f v e h t => snd (get_format w eps order a e f v h t m)
  end.
Definition after (w : world) (eps : eps_t) (order : list string -> list string) (ops : list op) : mgr :=
  fold_left (apply_op w eps order) ops empty_mgr.
Definition set_order (order : list string -> list string) : Prop := forall l, Permutation (order l) l.

(** A registered reader, as the manager finds it by format and version. *)
Definition registered (w : world) (m : mgr) (x : Z) : Prop :=
  assoc (w_ver w x) (get_list (format_of w x) (m_vers m)) = Some x.

(** The plugins are coherent: every reader comes with an entry point named after
    its format, no two readers have the same format and version, and all readers
    of a format live in one module. *)
Definition plugin (eps : eps_t) (x : Z) : Prop := exists e, In e eps /\ In x (snd e).
Definition coherent (w : world) (eps : eps_t) : Prop :=
  (forall x, plugin eps x -> exists e, In e eps /\ In x (snd e) /\ ep_format (fst e) = format_of w x) /\
  (forall x y, plugin eps x -> plugin eps y -> key w x = key w y -> x = y) /\
  (forall e x y, In e eps -> In x (snd e) -> plugin eps y -> format_of w y = format_of w x -> In y (snd e)).

(** The readers for an input type; a type no reader has means any reader. *)
Definition fits (w : world) (eps : eps_t) (t : option string) (x : Z) : Prop :=
  match t with
  | Some s => (exists y, plugin eps y /\ w_type w y = s) -> w_type w x = s
  | None => True
  end.

(** Uses of the manager that define no readers but the plugins'. *)
Definition plugins_only (eps : eps_t) (o : op) : Prop :=
  match o with Register xs => exists e, In e eps /\ snd e = xs | _ => True end.

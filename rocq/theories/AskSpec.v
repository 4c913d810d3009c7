(** Specification vocabulary for arguments that name dimensions (C98). *)
From Verif Require Import Base CmModel AskModel.
From Coq Require Import Strings.String.
Local Open Scope Z_scope.
Local Open Scope list_scope.

(** The keys whose values are names. *)
Definition name_key (k : string) : Prop := In k ["dim"; "coord"; "dims"; "coords"]%string.
(** An argument is asked for: it is positional, the value of such a key, or another key. *)
Definition asked {V} (args : list (aval V)) (kw : list (string * aval V)) (a : aval V) : Prop :=
  In a args \/ (exists k, name_key k /\ In (k, a) kw) \/ (exists k v, a = Name k /\ In (k, v) kw /\ ~ name_key k).
Definition is_dim {V} (dims : list string) (a : aval V) : Prop := exists d, a = Name d /\ In d dims.
Definition several {V} (dims : list string) (args : list (aval V)) kw : Prop :=
  exists d e, d <> e /\ In d dims /\ In e dims /\ asked args kw (Name d) /\ asked args kw (Name e).
(** The names of the result in order. *)
Definition out_names {V} (out : list (string * nat * option (aval V))) : list string := map (fun e => fst (fst e)) out.

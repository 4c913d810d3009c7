(** Specification vocabulary for XML read into dictionaries (C101). *)
From Verif Require Import Base FrameModel XmlModel.
From Coq Require Import Strings.String Permutation.
Local Open Scope list_scope.

Definition named (t : string) (l : list elem) : list elem := filter (fun e => String.eqb (tag_of e) t) l.
(** Names in the order in which each is seen first. *)
Fixpoint first_seen (l : list string) : list string :=
  match l with [] => [] | x :: t => x :: filter (fun y => negb (String.eqb x y)) (first_seen t) end.
(** What is under a key, given the values of the children with that tag. *)
Inductive under : list xval -> option xval -> Prop :=
  | under_none : under [] None
  | under_one v : under [v] (Some v)
  | under_many v w t : under (v :: w :: t) (Some (XList (v :: w :: t))).
(** Python's == of such values: the order of the keys does not matter. *)
Inductive same_val : xval -> xval -> Prop :=
  | same_text t : same_val (XText t) (XText t)
  | same_list l l' : Forall2 same_val l l' -> same_val (XList l) (XList l')
  | same_dict d d' : (forall k v, assoc k d = Some v -> exists v', assoc k d' = Some v' /\ same_val v v') ->
      (forall k, assoc k d = None -> assoc k d' = None) -> same_val (XDict d) (XDict d').
(** Two elements differ only by their tags, the text beside children, and how children with
    different tags follow each other. *)
Inductive alike : elem -> elem -> Prop :=
  | alike_leaf t t' x : alike (El t x []) (El t' x [])
  | alike_node t t' x x' k k' : k <> [] -> k' <> [] -> (forall n, Forall2 alike (named n k) (named n k')) -> alike (El t x k) (El t' x' k').
(** The texts of the elements without children. *)
Fixpoint leaves (e : elem) : list (option string) := match e with El _ x k => match k with [] => [x] | _ => flat_map leaves k end end.
Fixpoint texts (v : xval) : list (option string) :=
  match v with XText t => [t] | XList l => flat_map texts l | XDict d => flat_map (fun p => texts (snd p)) d end.

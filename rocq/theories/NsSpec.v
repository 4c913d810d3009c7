(** Specification vocabulary for namespaces (C97). *)
From Verif Require Import Base NsModel.
From Coq Require Import Strings.String.
Local Open Scope Z_scope.
Local Open Scope list_scope.

(** Class [i] is a namespace of the group with the name. *)
Definition is_namespace (st : nstate) (g : option string) (n : string) (i : Z) : Prop :=
  exists c, znth (n_classes st) i = Some c /\ k_group c = g /\ k_name c = Some n.
(** [i] is the last such class. *)
Definition latest_namespace (st : nstate) (g : option string) (n : string) (i : Z) : Prop :=
  is_namespace st g n i /\ forall j, is_namespace st g n j -> j <= i.
(** What can become of a state; objects and entry points are given. *)
Definition later (points : string -> list (string * list stmt)) (owner : Z -> string) (st st' : nstate) : Prop :=
  exists ops, st' = ns_run points owner st ops.
Definition reached (points : string -> list (string * list stmt)) (owner : Z -> string) (st : nstate) : Prop := later points owner ns_start st.
(** Of the entry points with the same name the last one counts. *)
Definition last_point (l : list (string * list stmt)) (n : string) (b : list stmt) : Prop :=
  exists l1 l2, l = l1 ++ (n, b) :: l2 /\ ~ In n (map fst l2).

(** Specification vocabulary for the attributes of operators on two patches (C102). *)
From Verif Require Import Base FrameModel AttrsModel AttrsSpec.
From Coq Require Import Strings.String.
Local Open Scope list_scope.

(** The attributes of two patches: none of the names can be taken for information about a
    coordinate of either, and both have dimensions. *)
Definition two_patches (a b : attrs) : Prop :=
  family [a; b] /\ clear_names a /\ clear_names b /\ a_dims a <> EmptyString /\ a_dims b <> EmptyString.
(** What an attribute object says under a name, the dimensions included. *)
Definition says (a : attrs) (k : string) : option scal := if String.eqb k "dims" then Some (AStr (a_dims a)) else value_of a k.
(** Both have the attribute, it counts, and its values are not equal. *)
Definition conflict (ignore : list string) (a b : attrs) (k : string) : Prop :=
  ~ In k ignore /\ exists v w, says a k = Some v /\ says b k = Some w /\ (v <> w \/ v = ANull).
Definition null (v : scal) : Prop := v = ANone \/ v = ANull \/ v = ASeq [].
(** Equal attributes: the same names and, apart from names with an underscore in front, equal
    values, where missing values count as equal. *)
Definition equal_values (a b : attrs) : Prop :=
  forall k, match says a k, says b k with
            | Some v, Some w => (exists r, k = ("_" ++ r)%string) \/ (v = w) \/ (null v /\ null w)
            | None, None => True
            | _, _ => False
            end.

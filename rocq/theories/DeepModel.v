(** Model of deep_equality_check (dascore/utils/misc.py 781-877), which compares spools
    (core/spool.py 160-164, 890-901).

    Objects are numbers; a mapping has the numbers of its values, other objects may have an
    equals method and a __dict__. What their == and equals say is given. Keys are strings.
    A mapping has neither. The recursion is limited by [fuel]. *)
From Verif Require Import Base CmModel FrameModel.
From Coq Require Import Strings.String.
Local Open Scope list_scope.

Inductive node :=
  | NMap (entries : list (string * nat))
  | NThing (has_equals : bool) (dict : option nat).
Definition heap := list node.
Definition map_of (h : heap) (a : nat) : option (list (string * nat)) := match nth_error h a with Some (NMap e) => Some e | _ => None end.
Definition has_equals (h : heap) (a : nat) : bool := match nth_error h a with Some (NThing b _) => b | _ => false end.
Definition dict_of (h : heap) (a : nat) : option nat := match nth_error h a with Some (NThing _ d) => d | _ => None end.

(** A loop that ends at the first value which is not True. *)
Fixpoint all_of {K} (f : K -> option bool) (l : list K) : option bool :=
  match l with [] => Some true | k :: t => match f k with Some true => all_of f t | r => r end end.
(** misc.py 853. *)
Definition same_keys (e e' : list (string * nat)) : bool :=
  forallb (fun k => mem k (map fst e')) (map fst e) && forallb (fun k => mem k (map fst e)) (map fst e').
(** misc.py 845. *)
Definition seen (visited : list (nat * nat)) (a b : nat) : bool :=
  existsb (fun p => (Nat.eqb (fst p) a && Nat.eqb (snd p) b) || (Nat.eqb (fst p) b && Nat.eqb (snd p) a)) visited.

Section Deep.
  (** _robust_equality_check (818-834) and the equals method. *)
  Variable robust equals : nat -> nat -> bool.
  Variable h : heap.

  (** misc.py 856-874: two values under the same key. *)
  Definition compare_values (rec : nat -> nat -> option bool) (x y : nat) : option bool :=
    if Nat.eqb x y then Some true
    else match map_of h x, map_of h y with
         | Some _, Some _ => rec x y
         | _, _ =>
             if has_equals h x && has_equals h y then Some (equals x y)
             else match dict_of h x, dict_of h y with
                  | Some d, Some d' => rec d d'
                  | _, _ => Some (robust x y)
                  end
         end.
  (** misc.py 836-877. *)
  Fixpoint deep_equal (fuel : nat) (visited : list (nat * nat)) (a b : nat) : option bool :=
    match fuel with
    | O => None
    | S f =>
        if seen visited a b then Some true
        else match map_of h a, map_of h b with
             | Some e, Some e' =>
                 if same_keys e e'
                 then all_of (fun k => match assoc k e, assoc k e' with
                                       | Some x, Some y => compare_values (deep_equal f ((a, b) :: visited)) x y
                                       | _, _ => Some true
                                       end) (map fst e)
                 else Some false
             | _, _ => Some (robust a b)
             end
    end.
End Deep.

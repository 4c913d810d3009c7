(** Model of XML read into dictionaries (dascore/utils/xml.py).

    An element has a tag, a text and children. What the function does not look at is left out:
    attributes, the text after an element and comments. Parsing (ElementTree.fromstring, line 10)
    is left out. *)
From Verif Require Import Base FrameModel.
From Coq Require Import Strings.String.
Local Open Scope list_scope.

Inductive elem := El (tag : string) (text : option string) (kids : list elem).
Definition tag_of (e : elem) : string := match e with El t _ _ => t end.
Definition kids_of (e : elem) : list elem := match e with El _ _ k => k end.
(** None, a string, a list or a dictionary with its keys in order of insertion. *)
Inductive xval := XText (t : option string) | XList (l : list xval) | XDict (d : list (string * xval)).

(** xml.py 29-35. *)
Fixpoint add_child (d : list (string * xval)) (t : string) (v : xval) : list (string * xval) :=
  match d with
  | [] => [(t, v)]
  | (k, x) :: r =>
      if String.eqb k t then (k, match x with XList l => XList (l ++ [v]) | _ => XList [x; v] end) :: r
      else (k, x) :: add_child r t v
  end.
(** xml.py 14-36. *)
Fixpoint to_dict (e : elem) : xval :=
  match e with
  | El _ text kids =>
      match kids with
      | [] => XText text
      | _ => XDict (fold_left (fun d k => add_child d (tag_of k) (to_dict k)) kids [])
      end
  end.

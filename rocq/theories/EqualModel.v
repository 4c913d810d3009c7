(** Model of Patch equality: Patch.equals (dascore/proc/basic.py), CoordManager.equals
    (core/coordmanager.py), BaseCoord.approx_equal (core/coords.py) and all_close
    (utils/misc.py).

    Simplifications: numbers are exact rationals, [None] is NaN (NaT); infinities, complex
    numbers and strings as coordinate values or data are left out; values of attributes are
    texts, numbers, null or tuples of texts; units are texts. *)
From Verif Require Import Base NdModel.
From Coq Require Import Strings.String QArith Qabs.
Local Open Scope Z_scope.
Local Open Scope list_scope.

Inductive vals : Type := Nums (l : list (option Q)) | Times (l : list (option Z)).
(** A coordinate with values or (coords.py 1025-1034) one with partial information only. *)
Inductive body : Type := Full (v : vals) | Part (start stop step : option Q).
Record ecoord : Type := mkEc { ec_shape : list Z; ec_units : option string; ec_body : body }.
Inductive aval : Type := AText (s : string) | ANum (q : Q) | ANull | ATuple (l : list string).
(** What equality of patches looks at; the attributes leave out coords (basic.py 174-180). *)
Record epatch : Type := mkEp {
  ep_dims : list string;
  ep_coords : list (string * ecoord);
  ep_attrs : list (string * aval);
  ep_data : nd (option Q) }.

Fixpoint forall2b {A B} (f : A -> B -> bool) (l : list A) (m : list B) : bool :=
  match l, m with
  | [], [] => true
  | x :: t, y :: u => (f x y && forall2b f t u)%bool
  | _, _ => false
  end.
Fixpoint look {A} (k : string) (l : list (string * A)) : option A :=
  match l with
  | [] => None
  | (n, v) :: t => if String.eqb n k then Some v else look k t
  end.
Definition has_name (l : list string) (n : string) : bool := existsb (String.eqb n) l.
Definition same_set (l m : list string) : bool := (forallb (has_name m) l && forallb (has_name l) m)%bool.

(** numpy.isclose with the default tolerances. *)
Definition isclose (x y : Q) : bool := Qle_bool (Qabs (x - y)) ((1 # 100000000) + (1 # 100000) * Qabs y)%Q.
(** misc.py 138-142: null on either side counts as close. *)
Definition close_or_null (x y : option Q) : bool := match x, y with Some a, Some b => isclose a b | _, _ => true end.
(** misc.py 145: NaT is equal to nothing. *)
Definition same_time (x y : option Z) : bool := match x, y with Some a, Some b => Z.eqb a b | _, _ => false end.
(** misc.py 128-145; isclose raises TypeError for times. *)
Definition all_close (v w : vals) : bool :=
  match v, w with
  | Nums l, Nums m => forall2b close_or_null l m
  | Times l, Times m => forall2b same_time l m
  | Nums [], Times [] | Times [], Nums [] => true
  | _, _ => false
  end.
(** models.py 83 for a field which is a number or null. *)
Definition same_field (x y : option Q) : bool :=
  match x, y with Some a, Some b => Qeq_bool a b | None, None => true | _, _ => false end.
Definition same_units (x y : option string) : bool :=
  match x, y with Some a, Some b => String.eqb a b | None, None => true | _, _ => false end.
(** coords.py 952-968; [==] of partial coordinates is models.py 68-85. *)
Definition approx_equal (c d : ecoord) : bool :=
  (forall2b Z.eqb (ec_shape c) (ec_shape d) &&
   match ec_body c, ec_body d with
   | Part a b s, Part a' b' s' => same_units (ec_units c) (ec_units d) && same_field a a' && same_field b b' && same_field s s'
   | Full v, Full w => all_close v w
   | _, _ => false
   end)%bool.
Definition private (n : string) : bool := String.prefix "_" n.
(** coordmanager.py 806-808. *)
Definition public_names (p : epatch) : list string :=
  filter (fun n => has_name (ep_dims p) n || negb (private n))%bool (map fst (ep_coords p)).
(** coordmanager.py 800-815. *)
Definition coords_equal (p q : epatch) : bool :=
  (same_set (ep_dims p) (ep_dims q) && same_set (public_names p) (public_names q) &&
   forallb (fun n => match look n (ep_coords p), look n (ep_coords q) with Some c, Some d => approx_equal c d | _, _ => false end) (public_names p))%bool.
(** attrs.py 92-126 without history and coords. *)
Definition required : list string :=
  ["data_type"; "data_category"; "data_units"; "instrument_id"; "acquisition_id"; "tag"; "station"; "network"; "dims"]%string.
(** basic.py 174-180. *)
Definition compared (only_required : bool) (l : list (string * aval)) : list (string * aval) :=
  if only_required then filter (fun kv => has_name required (fst kv)) l else l.
Definition aval_eq (x y : aval) : bool :=
  match x, y with
  | AText s, AText t => String.eqb s t
  | ANum a, ANum b => Qeq_bool a b
  | ANull, ANull => true
  | ATuple l, ATuple m => forall2b String.eqb l m
  | _, _ => false
  end.
(** basic.py 181-192; two nulls count as equal. *)
Definition attrs_equal (l m : list (string * aval)) : bool :=
  (same_set (map fst l) (map fst m) &&
   forallb (fun k => match look k l, look k m with Some x, Some y => aval_eq x y | _, _ => false end) (map fst l))%bool.
Definition same_value (x y : option Q) : bool := match x, y with Some a, Some b => Qeq_bool a b | _, _ => false end.
Definition close_value (x y : option Q) : bool := match x, y with Some a, Some b => isclose a b | _, _ => false end.
(** basic.py 194-197; arrays of other shapes would be broadcast or raise. *)
Definition data_equal (close : bool) (a b : nd (option Q)) : result bool :=
  if forall2b Z.eqb (nd_shape a) (nd_shape b) then Ok (forall2b (if close then close_value else same_value) (nd_flat a) (nd_flat b))
  else Err Unmodelled.
(** basic.py 136-198; [None] is something other than a patch. *)
Definition pt_equals (p : epatch) (other : option epatch) (only_required close : bool) : result bool :=
  match other with
  | None => Ok false
  | Some q =>
      if negb (coords_equal p q) then Ok false
      else if negb (attrs_equal (compared only_required (ep_attrs p)) (compared only_required (ep_attrs q))) then Ok false
      else data_equal close (ep_data p) (ep_data q)
  end.

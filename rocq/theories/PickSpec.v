(** Specification vocabulary for reading attributes by name (C103). *)
From Verif Require Import Base FrameModel PickModel.
From Coq Require Import Strings.String Strings.Ascii.
Local Open Scope list_scope.

Definition dotless (s : string) : Prop := forall a b, s <> (a ++ String "."%char b)%string.
(** The address of an attribute: that of an object, a dot, and a name. *)
Definition attr_address (a base attr : string) : Prop := a = (base ++ String "."%char attr)%string /\ dotless base /\ dotless attr.
Definition proper (a : string) : Prop := dotless a \/ exists base attr, attr_address a base attr.
Definition at_address (f : h5file) (a : string) (v : hval) : Prop :=
  exists base attr attrs, attr_address a base attr /\ assoc base f = Some attrs /\ assoc attr attrs = Some v.
(** An address names something in the file. *)
Definition present (f : h5file) (a : string) : Prop := (dotless a /\ exists attrs, assoc a f = Some attrs) \/ exists v, at_address f a v.
(** What a stored value is read as. *)
Inductive reads : hval -> hval -> Prop :=
  | reads_none : reads HNone HNone
  | reads_text s : reads (HText s) (HText s)
  | reads_bytes s : reads (HBytes s) (HText s)
  | reads_number z : reads (HNum z) (HNum z)
  | reads_single x : reads (HArr [x]) x
  | reads_array l : List.length l <> 1%nat -> reads (HArr l) (HArr l).
Definition scalar (v : hval) : Prop := forall l, v <> HArr l.
Definition filled (fill : list (hval * hval)) (x y : hval) : Prop := scalar x /\ (In (x, y) fill \/ (~ In x (map fst fill) /\ y = x)).
(** The value of an item, arrays with one element replaced by it if asked for. *)
Definition item_value (unpacked : bool) (v x : hval) : Prop :=
  if unpacked then reads v x else match v with HBytes s => x = HText s | _ => x = v end.

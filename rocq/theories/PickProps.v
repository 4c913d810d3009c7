(** C103: attributes read by name. *)
From Verif Require Import Base FrameModel AttrsModel AttrsProofs PickModel PickSpec PickProofs.
From Coq Require Import Strings.String Strings.Ascii.
Local Open Scope string_scope.
Local Open Scope list_scope.

(** A file matches a structure exactly if it has every object and attribute of it. *)
Theorem C103_matches : forall f st, (forall a, In a st -> proper a) -> exists r, matches f st = Ok r /\ (r = true <-> forall a, In a st -> present f a).
Proof. exact matches_ok. Qed.
Print Assumptions C103_matches.
(** The check fails only for an address with two dots or more, if all before it are there. *)
Theorem C103_matches_refused : forall f st e, matches f st = Err e -> e = AssertionError /\ exists l a r, st = l ++ a :: r /\ ~ proper a /\ forall x, In x l -> present f x.
Proof. exact matches_error. Qed.
Print Assumptions C103_matches_refused.
(** The new names are those of the map. Each has the value at the last address mapped to it, as
    text if it was stored as bytes, without the array if it has one element, and replaced if the
    replacements say so. *)
Theorem C103_extract : forall f fill nm out, NoDup (map fst fill) -> extract f fill nm [] = Ok out -> (forall n, In n (map fst out) <-> In n (map snd nm)) /\
  forall l a n r, nm = l ++ (a, n) :: r -> ~ In n (map snd r) -> exists v x y, at_address f a v /\ reads v x /\ filled fill x y /\ assoc n out = Some y.
Proof. exact extract_result. Qed.
Print Assumptions C103_extract.
(** Extraction fails only because of an address: without the attribute, not of an attribute, or
    of an array which is not a single value. *)
Theorem C103_extract_refused : forall f fill nm e, extract f fill nm [] = Err e -> exists a, In a (map fst nm) /\
  ((e = KeyError /\ (exists b c, attr_address a b c) /\ ~ present f a) \/ (e = AssertionError /\ forall b c, ~ attr_address a b c) \/
   (e = TypeError /\ exists v l, at_address f a v /\ reads v (HArr l))).
Proof. intros f fill nm e. apply extract_err. Qed.
Print Assumptions C103_extract_refused.
(** It succeeds if every address has a single value. *)
Theorem C103_extract_ok : forall f fill nm, (forall a n, In (a, n) nm -> exists v x, at_address f a v /\ reads v x /\ scalar x) -> exists out, extract f fill nm [] = Ok out.
Proof. intros f fill nm. apply extract_ok. Qed.
Print Assumptions C103_extract_ok.
(** After a check of the structure, attributes which are single values can be extracted. *)
Theorem C103_checked : forall f fill nm, matches f (map fst nm) = Ok true -> (forall a, In a (map fst nm) -> exists b c, attr_address a b c) ->
  (forall a v l, In a (map fst nm) -> at_address f a v -> ~ reads v (HArr l)) -> exists out, extract f fill nm [] = Ok out.
Proof. exact checked. Qed.
Print Assumptions C103_checked.
(** Items are read if they are there and not None, and never fail. *)
Theorem C103_items : forall obj un nm, (forall n, In n (map fst (get_items obj un nm [])) <-> exists old v, In (old, n) nm /\ assoc old obj = Some v /\ v <> HNone) /\
  forall l old n r v, nm = l ++ (old, n) :: r -> (forall x w, In (x, n) r -> assoc x obj = Some w -> w = HNone) -> assoc old obj = Some v -> v <> HNone ->
    exists x, assoc n (get_items obj un nm []) = Some x /\ item_value (mem old un) v x.
Proof. exact items_result. Qed.
Print Assumptions C103_items.

Definition das : h5file := [("DasMetadata", [("unit", HBytes "m"); ("rate", HArr [HNum 5]); ("lens", HArr [HNum 1; HNum 2]); ("code", HArr [HBytes "x"]); ("gap", HText "NaN")])].
Lemma address base attr : dotlessb base = true -> dotlessb attr = true -> attr_address (base ++ String "."%char attr) base attr.
Proof. intros A B. split; [reflexivity|]. split; apply dotlessb_ok; assumption. Qed.
(** Bytes are not always read as text: an array with one element is replaced by it afterwards. *)
Theorem C103_bytes_refuted : at_address das "DasMetadata.code" (HArr [HBytes "x"]) /\ extract das [] [("DasMetadata.code", "code")] [] = Ok [("code", HBytes "x")].
Proof.
  split; [|reflexivity]. exists "DasMetadata", "code". eexists. split; [apply (address "DasMetadata" "code"); reflexivity|]. split; reflexivity.
Qed.
Print Assumptions C103_bytes_refuted.
(** An attribute with more than one value cannot be extracted, even if nothing is replaced and
    the file passed the check. *)
Theorem C103_arrays_refuted : matches das ["DasMetadata.lens"] = Ok true /\ extract das [] [("DasMetadata.lens", "lens")] [] = Err TypeError.
Proof. split; reflexivity. Qed.
Print Assumptions C103_arrays_refuted.

Example C103_witness :
  matches das ["DasMetadata"; "DasMetadata.unit"] = Ok true /\ matches das ["DasMetadata"; "Other.unit"] = Ok false /\ matches das ["DasMetadata.none"; "a.b.c"] = Ok false /\
  matches das ["a"; "a.b.c"] = Ok false /\ matches das ["DasMetadata"; "a.b.c"] = Err AssertionError /\
  extract das [(HText "NaN", HNum 0)] [("DasMetadata.unit", "u"); ("DasMetadata.rate", "r"); ("DasMetadata.gap", "g"); ("DasMetadata.gap", "u")] [] = Ok [("u", HNum 0); ("r", HNum 5); ("g", HNum 0)] /\
  extract das [] [("DasMetadata", "x")] [] = Err AssertionError /\ extract das [] [("DasMetadata.no", "x")] [] = Err KeyError /\
  get_items [("a", HBytes "s"); ("b", HArr [HNum 1]); ("c", HNone); ("d", HArr [HNum 2])] ["b"] [("a", "A"); ("b", "B"); ("c", "C"); ("d", "D"); ("e", "E")] [] =
    [("A", HText "s"); ("B", HNum 1); ("D", HArr [HNum 2])].
Proof. repeat split; reflexivity. Qed.
Example C103_witness_checked : NoDup (map fst [(HText "NaN", HNum 0)]) /\ matches das (map fst [("DasMetadata.unit", "u"); ("DasMetadata.rate", "r")]) = Ok true /\
  forall a, In a (map fst [("DasMetadata.unit", "u"); ("DasMetadata.rate", "r")]) -> exists b c, attr_address a b c.
Proof.
  split; [repeat constructor; intros []|]. split; [reflexivity|].
  intros a [<-|[<-|[]]]; [exists "DasMetadata", "unit"; apply (address "DasMetadata" "unit")|exists "DasMetadata", "rate"; apply (address "DasMetadata" "rate")]; reflexivity.
Qed.

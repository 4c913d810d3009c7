(** C101: XML read into dictionaries. *)
From Verif Require Import Base BaseFacts FrameModel XmlModel XmlSpec XmlProofs.
From Coq Require Import Strings.String Permutation.
Local Open Scope string_scope.
Local Open Scope list_scope.

(** An element without children becomes its text. *)
Theorem C101_leaf : forall t x, to_dict (El t x []) = XText x.
Proof. reflexivity. Qed.
Print Assumptions C101_leaf.
(** An element with children becomes a dictionary with the tags of the children in the order of
    their first appearance. Under a tag is the value of the only child with it or the list of the
    values of all of them in order. *)
Theorem C101_node : forall t x k, k <> [] -> exists d, to_dict (El t x k) = XDict d /\ map fst d = first_seen (map tag_of k) /\ NoDup (map fst d) /\
  forall n, under (map to_dict (named n k)) (assoc n d).
Proof. exact xml_node. Qed.
Print Assumptions C101_node.
(** The texts of all elements without children are in the result, each as often as in the file. *)
Theorem C101_texts : forall e, Permutation (texts (to_dict e)) (leaves e).
Proof. exact xml_texts. Qed.
Print Assumptions C101_texts.
(** Results are equal exactly if the elements differ only by the tag of the outermost one, the
    text beside children, and the order of children with different tags. *)
Theorem C101_same : forall a b, same_val (to_dict a) (to_dict b) <-> alike a b.
Proof. exact xml_same. Qed.
Print Assumptions C101_same.

Definition leaf (t x : string) : elem := El t (Some x) [].
(** Text beside children is lost, and so is how children with different tags follow each other. *)
Theorem C101_lossless_refuted : (exists a b, kids_of a = kids_of b /\ a <> b /\ tag_of a = tag_of b /\ to_dict a = to_dict b) /\
  (exists a b, a <> b /\ to_dict a = to_dict b /\ leaves a <> leaves b).
Proof.
  split.
  - exists (El "r" (Some "text") [leaf "a" "1"]), (El "r" None [leaf "a" "1"]). repeat split. discriminate.
  - exists (El "r" None [leaf "a" "1"; leaf "b" "2"; leaf "a" "3"]), (El "r" None [leaf "a" "1"; leaf "a" "3"; leaf "b" "2"]). split; [discriminate|]. split; [reflexivity|discriminate].
Qed.
Print Assumptions C101_lossless_refuted.
(** What a reader gets under a tag depends on how many children there are: for one child it is
    not a list. *)
Theorem C101_lists_refuted : exists one two, to_dict (El "r" None [one]) = XDict [("z", XText (Some "1"))] /\
  to_dict (El "r" None [one; two]) = XDict [("z", XList [XText (Some "1"); XText (Some "2")])].
Proof. exists (leaf "z" "1"), (leaf "z" "2"). split; reflexivity. Qed.
Print Assumptions C101_lists_refuted.
Example C101_witness :
  to_dict (El "r" (Some "
 ") [leaf "a" "1"; El "b" None [leaf "x" "2"; leaf "x" "3"; leaf "x" "4"]; leaf "a" "5"; El "c" None []]) =
    XDict [("a", XList [XText (Some "1"); XText (Some "5")]); ("b", XDict [("x", XList [XText (Some "2"); XText (Some "3"); XText (Some "4")])]); ("c", XText None)] /\
  alike (El "r" None [leaf "a" "1"; leaf "b" "2"]) (El "q" (Some "t") [leaf "b" "2"; leaf "a" "1"]) /\
  ~ alike (El "r" None [leaf "a" "1"; leaf "a" "2"]) (El "r" None [leaf "a" "2"; leaf "a" "1"]) /\
  ~ alike (El "r" None []) (El "r" None [leaf "a" "2"]).
Proof.
  split; [reflexivity|]. split; [|split].
  - apply C101_same. cbn. constructor; intros k; cbn; destruct (String.eqb k "a") eqn:A, (String.eqb k "b") eqn:B; try discriminate.
    + apply String.eqb_eq in A. apply String.eqb_eq in B. congruence.
    + intros v [= <-]. eexists. split; [reflexivity|constructor].
    + intros v [= <-]. eexists. split; [reflexivity|constructor].
    + reflexivity.
  - rewrite <- C101_same. cbn. intros H. inversion H as [| |? ? H1 H2]; subst. destruct (H1 "a" _ eq_refl) as (v & E & S1). cbn in E. injection E as <-. inversion S1 as [|? ? F|]; subst. inversion F as [|? ? ? ? X Y]; subst. inversion X.
  - rewrite <- C101_same. cbn. intros H. inversion H.
Qed.

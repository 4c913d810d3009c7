(** C102: the attributes of operators on two patches. *)
From Verif Require Import Base BaseFacts FrameModel AttrsModel AttrsSpec AttrsProofs7 AttrsProofs11 OpAttrModel OpAttrSpec OpAttrProofs.
From Coq Require Import Strings.String.
Local Open Scope string_scope.
Local Open Scope list_scope.

(** The result has every attribute of either patch, with the value of the first patch that has
    it. *)
Theorem C102_result : forall ignore a b r, two_patches a b -> merge_models ignore a b = Ok r ->
  forall k, says r k = match says a k with Some v => Some v | None => says b k end.
Proof. exact op_result. Qed.
Print Assumptions C102_result.
(** Patches are refused only because of an attribute which both have with unequal values. *)
Theorem C102_refused : forall ignore a b e, two_patches a b -> merge_models ignore a b = Err e -> e = IncompatiblePatchError /\ exists k, conflict ignore a b k.
Proof. exact op_refused. Qed.
Print Assumptions C102_refused.
(** They are refused if there is one, unless the attributes count as equal. *)
Theorem C102_conflict : forall ignore a b k, two_patches a b -> conflict ignore a b k -> ~ equal_values a b -> merge_models ignore a b = Err IncompatiblePatchError.
Proof. exact op_conflict. Qed.
Print Assumptions C102_conflict.
(** Patches with equal attributes have them in the result. *)
Theorem C102_equal : forall ignore a b, two_patches a b -> equal_values a b -> a_coords a = a_coords b ->
  (forall n s, In (n, s) (a_coords a) -> ~ In ANull [s_min s; s_max s; s_step s; s_units s]) -> merge_models ignore a b = Ok a.
Proof. exact op_equal. Qed.
Print Assumptions C102_equal.
(** The ignored attributes of operators. *)
Theorem C102_defaults : forall k, In k default_ignore <-> k = "history" \/ k = "dims".
Proof. intros k. cbn. intuition congruence. Qed.
Print Assumptions C102_defaults.
(** Which patch is first matters only for attributes which are ignored. *)
Theorem C102_order : forall ignore a b r r' k, two_patches a b -> two_patches b a -> merge_models ignore a b = Ok r -> merge_models ignore b a = Ok r' ->
  ~ equal_values a b -> ~ In k ignore -> says r k = says r' k.
Proof. exact op_order. Qed.
Print Assumptions C102_order.

Definition with_nan (h : list string) : attrs := mkAttrs [("gauge", ANull); ("history", ASeq h)] "time" [("time", mkSumm "int64" (ANum 0) (ANum 9) (ANum 1) ANone)].
Definition with_private (n : Z) (h : list string) : attrs := mkAttrs [("_n", ANum n); ("history", ASeq h)] "time" [("time", mkSumm "int64" (ANum 0) (ANum 9) (ANum 1) ANone)].
Definition with_tag (t : string) (h : list string) (more : sdict) : attrs :=
  mkAttrs (("tag", AStr t) :: ("history", ASeq h) :: more) "time" [("time", mkSumm "int64" (ANum 0) (ANum 9) (ANum 1) ANone)].
Lemma two a b : familyb [a; b] = true -> clearb a = true -> clearb b = true -> a_dims a <> "" -> a_dims b <> "" -> two_patches a b.
Proof. intros F A B C D. split; [apply familyb_ok, F|]. split; [apply clearb_ok, A|]. split; [apply clearb_ok, B|]. split; assumption. Qed.
(** The history is not ignored: patches with the same missing value as an attribute, or with
    different private attributes, can be added if their histories are equal but not otherwise. *)
Theorem C102_history_refuted : In "history" default_ignore /\
  (exists a b, two_patches a a /\ two_patches a b /\ (forall k, k <> "history" -> says a k = says b k) /\
    merge_models default_ignore a a = Ok a /\ merge_models default_ignore a b = Err IncompatiblePatchError) /\
  (exists a b c, two_patches a b /\ two_patches a c /\ (forall k, k <> "history" -> says b k = says c k) /\
    merge_models default_ignore a b = Ok a /\ merge_models default_ignore a c = Err IncompatiblePatchError).
Proof.
  assert (S : forall l l' d d' c c', (forall k, k <> "history" -> assoc k l = assoc k l') -> d = d' -> forall k, k <> "history" -> says (mkAttrs l d c) k = says (mkAttrs l' d' c') k).
  { intros l l' d d' c c' H <- k N. unfold says. destruct (String.eqb k "dims"); [reflexivity|]. rewrite !AttrsProofs.value_assoc. cbn [a_vals]. rewrite (H k N). reflexivity. }
  split; [left; reflexivity|]. split.
  - exists (with_nan []), (with_nan ["x"]). split; [apply two; try discriminate; vm_compute; reflexivity|]. split; [apply two; try discriminate; vm_compute; reflexivity|]. split; [|split; vm_compute; reflexivity].
    apply S; [|reflexivity]. intros k N. cbn. apply String.eqb_neq in N. rewrite N. reflexivity.
  - exists (with_private 1 []), (with_private 2 []), (with_private 2 ["x"]). split; [apply two; try discriminate; vm_compute; reflexivity|]. split; [apply two; try discriminate; vm_compute; reflexivity|]. split; [|split; vm_compute; reflexivity].
    apply S; [|reflexivity]. intros k N. cbn. apply String.eqb_neq in N. rewrite N. reflexivity.
Qed.
Print Assumptions C102_history_refuted.
Example C102_witness : two_patches (with_tag "a" ["x"] [("gauge", ANum 3)]) (with_tag "a" ["y"] [("pulse", ANum 5)]) /\
  (exists r, merge_models default_ignore (with_tag "a" ["x"] [("gauge", ANum 3)]) (with_tag "a" ["y"] [("pulse", ANum 5)]) = Ok r /\
    says r "gauge" = Some (ANum 3) /\ says r "pulse" = Some (ANum 5) /\ says r "history" = Some (ASeq ["x"]) /\ says r "tag" = Some (AStr "a") /\ says r "dims" = Some (AStr "time")) /\
  conflict default_ignore (with_tag "a" [] []) (with_tag "b" [] []) "tag" /\ ~ equal_values (with_tag "a" [] []) (with_tag "b" [] []) /\
  merge_models default_ignore (with_tag "a" [] []) (with_tag "b" [] []) = Err IncompatiblePatchError /\
  (exists r, merge_models ["tag"] (with_tag "a" [] []) (with_tag "b" [] []) = Ok r /\ says r "tag" = Some (AStr "a")) /\
  equal_values (with_nan []) (with_nan []).
Proof.
  split; [apply two; try discriminate; vm_compute; reflexivity|]. split; [eexists; split; [vm_compute; reflexivity|repeat split]|]. split; [|split; [|split; [vm_compute; reflexivity|split]]].
  - split; [cbn; intuition discriminate|]. do 2 eexists. split; [reflexivity|]. split; [reflexivity|]. left. discriminate.
  - intros H. specialize (H "tag"). cbn in H. destruct H as [[r E]|[E|[[E|[E|E]] _]]]; discriminate.
  - eexists. split; vm_compute; reflexivity.
  - intros k. destruct (says (with_nan []) k); [right; left; reflexivity|exact I].
Qed.

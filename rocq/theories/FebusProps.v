(** C108: recognising Febus files and listing their parts. *)
From Verif Require Import Base FrameModel FebusModel FebusSpec FebusProofs.
From Coq Require Import Strings.String Strings.Ascii Permutation.
Local Open Scope string_scope.
Local Open Scope list_scope.

(** Files of another kind get no version. *)
Theorem C108_others : forall f, ~ fingerprint f -> febus_version f = EmptyString.
Proof. exact not_febus. Qed.
Print Assumptions C108_others.
(** Without a version in any source it is 1. *)
Theorem C108_default : forall f, fingerprint f -> (forall s, In s (all_sources f) -> s_version s = None) -> febus_version f = "1".
Proof. exact version_default. Qed.
Print Assumptions C108_default.
(** Otherwise it is the first number of the version of the last source that has one. *)
Theorem C108_last : forall f l s r v m, fingerprint f -> all_sources f = l ++ s :: r -> s_version s = Some v -> (forall x, In x r -> s_version x = None) -> major v m -> febus_version f = m.
Proof. exact version_last. Qed.
Print Assumptions C108_last.
(** Every version has a first number, and only one. *)
Theorem C108_major : forall v, exists m, major v m /\ forall n, major v n -> n = m.
Proof. intros v. eexists. split; [apply major_hd|]. intros n N. exact (major_unique v _ _ N (major_hd v)). Qed.
Print Assumptions C108_major.
(** If the versions agree in the first number, the order of the sources is irrelevant. *)
Theorem C108_order : forall f g m, reordered f g -> (forall s v, In s (all_sources f) -> s_version s = Some v -> major v m) -> febus_version f = febus_version g.
Proof. exact version_order. Qed.
Print Assumptions C108_order.
(** Listed are the zones which are not the times, in order and with their dataset. *)
Theorem C108_slices : forall f out, slices f = Ok out -> map (fun e : slice => let '(i, s, z, d) := e in (i, s, z, [d])) out = listed f.
Proof. exact slices_order. Qed.
Print Assumptions C108_slices.
(** A slice is listed exactly if the file has a zone with that dataset only. *)
Theorem C108_slice : forall f out, slices f = Ok out -> forall i s z d, In (i, s, z, d) out <-> zone_of f i s z [d].
Proof. exact slices_spec. Qed.
Print Assumptions C108_slice.
(** Listing works exactly if every zone has one dataset; otherwise an assertion fails. *)
Theorem C108_listed : forall f, (exists out, slices f = Ok out) <-> forall i s z ds, zone_of f i s z ds -> List.length ds = 1%nat.
Proof. exact slices_ok. Qed.
Print Assumptions C108_listed.
Theorem C108_assertion : forall f e, slices f = Err e -> e = AssertionError.
Proof. exact slices_err. Qed.
Print Assumptions C108_assertion.

Definition ex_source (v : option string) : source := mkSource ["Hostname"; "AmpliPower"; "SamplingRate"; "WholeExtent"; "Version"] v [("Zone1", ["StrainRate"]); ("time", [])].
Definition ex_file (v w : option string) : febus_file := [("fa1", [("Source1", ex_source v); ("Source2", ex_source w)])].
(** The order of sources is irrelevant: false, since a set is gone through and the last counts. *)
Theorem C108_order_refuted : ~ forall f g, reordered f g -> febus_version f = febus_version g.
Proof.
  intros H. specialize (H (ex_file (Some "2.1") (Some "3")) [("fa1", [("Source2", ex_source (Some "3")); ("Source1", ex_source (Some "2.1"))])]).
  assert (R : reordered (ex_file (Some "2.1") (Some "3")) [("fa1", [("Source2", ex_source (Some "3")); ("Source1", ex_source (Some "2.1"))])]) by (constructor; [split; [reflexivity|apply perm_swap]|constructor]).
  specialize (H R). vm_compute in H. discriminate.
Qed.
Print Assumptions C108_order_refuted.
(** Files with a fingerprint are recognised: false, a version which is empty or starts with a dot
    gives the answer for other files. *)
Theorem C108_recognised_refuted : ~ forall f, fingerprint f -> febus_version f <> EmptyString.
Proof.
  intros H. apply (H (ex_file None (Some ".5"))); [|reflexivity]. apply good_spec; [discriminate|reflexivity].
Qed.
Print Assumptions C108_recognised_refuted.
(** A file of this kind has a source: false, instruments without any are enough. *)
Theorem C108_sources_refuted : ~ forall f, febus_version f <> EmptyString -> all_sources f <> [].
Proof. intros H. apply (H [("anything", [])]); [discriminate|reflexivity]. Qed.
Print Assumptions C108_sources_refuted.

Example C108_order_witness : febus_version (ex_file (Some "2.1") (Some "3.0")) = "3" /\ febus_version (ex_file (Some "2.1") None) = "2" /\ febus_version (ex_file None None) = "1".
Proof. repeat split. Qed.
Example C108_fingerprint_witness : fingerprint (ex_file None (Some "2.1")) /\ ~ fingerprint [("fa1", [("source", ex_source None)])].
Proof. split; [apply good_spec; [discriminate|reflexivity]|]. intros F. apply good_spec in F; [|discriminate]. discriminate. Qed.
Example C108_major_witness : major "2.1" "2".
Proof. exact (major_hd "2.1"). Qed.
Example C108_slices_witness : slices (ex_file None None) = Ok [("fa1", "Source1", "Zone1", "StrainRate"); ("fa1", "Source2", "Zone1", "StrainRate")].
Proof. reflexivity. Qed.
Example C108_assertion_witness : slices [("fa1", [("Source1", mkSource [] None [("Zone1", ["A"; "B"])])])] = Err AssertionError.
Proof. reflexivity. Qed.

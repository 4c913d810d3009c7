(** C97: method namespaces. *)
From Verif Require Import Base BaseFacts NsModel NsSpec NsProofs.
From Coq Require Import Strings.String Lia.
Local Open Scope Z_scope.
Local Open Scope string_scope.
Local Open Scope list_scope.

(** The registry has the class defined last for each group and name, and nothing else. *)
Theorem C97_registry : forall points owner st g n, reached points owner st ->
  forall i, find_key (g, n) (n_reg st) = Some i <-> latest_namespace st g n i.
Proof. exact registry_ok. Qed.
Print Assumptions C97_registry.
(** An attribute that the object does not have yet is the last class with this name in the group
    of the object, entry points included. Without one it is an AttributeError. *)
Theorem C97_access : forall points owner st o n, reached points owner st -> exists r st', access points owner st o n = (r, st') /\
  match r with
  | Ok i => (find_kept o n (n_kept st) = Some i /\ st' = st) \/ (find_kept o n (n_kept st) = None /\ latest_namespace st' (Some (owner o)) n i)
  | Err e => e = AttributeError /\ find_kept o n (n_kept st) = None /\ forall i, ~ is_namespace st' (Some (owner o)) n i
  end.
Proof. exact access_ok. Qed.
Print Assumptions C97_access.
(** An object that has given a namespace gives it again, whatever is defined later. *)
Theorem C97_sticky : forall points owner st o n i st1 st2, reached points owner st -> access points owner st o n = (Ok i, st1) ->
  later points owner st1 st2 -> access points owner st2 o n = (Ok i, st2).
Proof. exact sticky. Qed.
Print Assumptions C97_sticky.
(** Entry points are loaded at most once; names loaded before define nothing. *)
Theorem C97_once : forall points owner st, reached points owner st -> NoDup (n_loaded st) /\
  forall o n, In (owner o, n) (n_loaded st) -> n_classes (snd (access points owner st o n)) = n_classes st.
Proof. intros points owner st R. split; [exact (loaded_once points owner st R)|]. intros o n. exact (loaded_classes points owner st o n R). Qed.
Print Assumptions C97_once.
(** The entry point is loaded when it is first asked for: the last one with this name. *)
Theorem C97_loads : forall points owner st o n, reached points owner st -> find_kept o n (n_kept st) = None -> ~ In (owner o, n) (n_loaded st) ->
  In (owner o, n) (n_loaded (snd (access points owner st o n))) /\
  (forall b, last_point (points (owner o)) n b -> n_classes (snd (access points owner st o n)) = n_classes (fold_left define b st)) /\
  (~ In n (map fst (points (owner o))) -> n_classes (snd (access points owner st o n)) = n_classes st).
Proof. exact loads. Qed.
Print Assumptions C97_loads.
(** Exactly the classes that take the place of an earlier one warn. *)
Theorem C97_warns : forall points owner st, reached points owner st ->
  forall i, In i (n_warned st) <-> exists g n j, is_namespace st g n i /\ is_namespace st g n j /\ j < i.
Proof. exact warned_ok. Qed.
Print Assumptions C97_warns.
(** Public functions of a class get the host, private ones the namespace; functions of the parent
    stay as they are for the parent, and later classes change nothing. *)
Theorem C97_methods : forall points owner st s, reached points owner st ->
  (forall k, look k (s_body s) = Some (Func 0) -> method (define st s) (zlen (n_classes st)) k = Ok (if private k then Namespace else Host)) /\
  (forall k, look k (s_body s) = Some Other -> method (define st s) (zlen (n_classes st)) k = Err TypeError) /\
  (forall k, s_parent s = None -> look k (s_body s) = None -> method (define st s) (zlen (n_classes st)) k = Err AttributeError) /\
  (forall j k, s_parent s = Some j -> 0 <= j < zlen (n_classes st) -> look k (s_body s) = None -> method (define st s) (zlen (n_classes st)) k = method st j k) /\
  (forall i k, 0 <= i < zlen (n_classes st) -> method (define st s) i k = method st i k).
Proof.
  intros points owner st s R. split; [intros k; exact (method_own points owner st s k R)|]. split; [intros k; exact (method_other points owner st s k R)|]. split; [intros k; exact (method_missing points owner st s k R)|].
  split; [intros j k; exact (method_inherited points owner st s j k R)|]. intros i k. exact (method_kept points owner st s i k R).
Qed.
Print Assumptions C97_methods.

(** A class has the name and the group of its parent unless it sets its own. *)
Theorem C97_names : forall points owner st s, reached points owner st -> exists c, n_classes (define st s) = n_classes st ++ [c] /\
  k_group c = (match s_group s with Some g => Some g | None => match s_parent s with Some j => match znth (n_classes st) j with Some d => k_group d | None => None end | None => None end end) /\
  k_name c = (match s_name s with Some g => Some g | None => match s_parent s with Some j => match znth (n_classes st) j with Some d => k_name d | None => None end | None => None end end).
Proof. intros points owner st s _. exact (names_ok st s). Qed.
Print Assumptions C97_names.

Definition g1 := "dascore.patch_namespace".
(** PatchNameSpace and SpoolNameSpace, namespace.py 78-89. *)
Definition base_ops : list nop := [ODefine (mkStmt None (Some g1) None []); ODefine (mkStmt None (Some "dascore.spool_namespace") None [])].
Definition user_ns : stmt := mkStmt (Some 0) None (Some "viz") [("wiggle", Func 0); ("_scale", Func 0); ("size", Other)].
Definition all_patches (o : Z) : string := if (o <? 100)%Z then g1 else "dascore.spool_namespace".
Definition entry (g : string) : list (string * list stmt) := if String.eqb g g1 then [("viz", [mkStmt (Some 0) None (Some "viz") []]); ("io", [mkStmt (Some 0) None (Some "io") []])] else [].
(** A namespace of the user is replaced by the entry point of the same name as soon as a patch is asked for it. *)
Theorem C97_override_refuted : exists points owner ops st i, st = ns_run points owner ns_start ops /\
  latest_namespace st (Some (owner 1)) "viz" i /\ fst (access points owner st 1 "viz") = Ok (i + 1).
Proof.
  exists entry, all_patches, (base_ops ++ [ODefine user_ns]). eexists. exists 2. split; [reflexivity|]. split; [|reflexivity].
  apply (C97_registry entry all_patches); [eexists; reflexivity|reflexivity].
Qed.
Print Assumptions C97_override_refuted.
(** A public function taken from another namespace class is wrapped twice and cannot be called. *)
Theorem C97_reused_refuted : exists points owner st s k i, reached points owner st /\ method st i k = Ok Host /\
  (exists c, znth (n_classes st) i = Some c /\ look k (k_attrs c) = look k (s_body s)) /\
  method (define st s) (zlen (n_classes st)) k = Err AttributeError.
Proof.
  exists entry, all_patches. eexists. exists (mkStmt (Some 0) None (Some "new") [("wiggle", Func 1)]), "wiggle", 2. split; [exists (base_ops ++ [ODefine user_ns]); reflexivity|].
  split; [reflexivity|]. split; [eexists; split; reflexivity|reflexivity].
Qed.
Print Assumptions C97_reused_refuted.
Example C97_witness :
  let st := ns_run entry all_patches ns_start (base_ops ++ [ODefine user_ns; OAccess 1 "io"; OAccess 1 "none"; ODefine (mkStmt (Some 2) None None [("size", Func 0)])]) in
  reached entry all_patches st /\ zlen (n_classes st) = 5 /\ n_warned st = [4] /\ n_loaded st = [(g1, "none"); (g1, "io")] /\
  access entry all_patches st 1 "io" = (Ok 3, st) /\ fst (access entry all_patches st 100 "io") = Err AttributeError /\
  method st 4 "wiggle" = Ok Host /\ method st 4 "_scale" = Ok Namespace /\ method st 4 "size" = Ok Host /\ method st 2 "size" = Err TypeError.
Proof. split; [eexists; reflexivity|]. repeat split. Qed.

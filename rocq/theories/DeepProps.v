(** C99: deep equality. *)
From Verif Require Import Base BaseFacts FrameModel DeepModel DeepSpec DeepProofs.
From Coq Require Import Strings.String Lia Arith.
Local Open Scope string_scope.
Local Open Scope list_scope.

(** The comparison ends for all objects, also if they contain themselves, and says False exactly
    if a difference can be reached. *)
Theorem C99_decides : forall robust equals h, symmetric robust -> symmetric equals -> forall a b fuel, (List.length h * List.length h < fuel)%nat ->
  exists r, deep_equal robust equals h fuel [] a b = Some r /\ (r = false <-> differ robust equals h a b).
Proof. exact decides. Qed.
Print Assumptions C99_decides.
(** A difference which is reported is there, whatever == and equals do. *)
Theorem C99_sound : forall robust equals h fuel visited a b, deep_equal robust equals h fuel visited a b = Some false -> differ robust equals h a b.
Proof. exact only. Qed.
Print Assumptions C99_sound.
Theorem C99_symmetric : forall robust equals h, symmetric robust -> symmetric equals -> forall a b fuel, (List.length h * List.length h < fuel)%nat ->
  deep_equal robust equals h fuel [] a b = deep_equal robust equals h fuel [] b a.
Proof. exact deep_sym. Qed.
Print Assumptions C99_symmetric.
(** A mapping is equal to itself even if its values are not. *)
Theorem C99_self : forall robust equals h a fuel, map_of h a <> None -> deep_equal robust equals h (S fuel) [] a a = Some true.
Proof. exact deep_self. Qed.
Print Assumptions C99_self.
(** What the words of the specification read from an object. *)
Theorem C99_reads : forall h a, (forall e, map_of h a = Some e <-> nth_error h a = Some (NMap e)) /\
  (has_equals h a = true <-> exists d, nth_error h a = Some (NThing true d)) /\ (forall d, dict_of h a = Some d <-> exists b, nth_error h a = Some (NThing b (Some d))).
Proof. exact reads. Qed.
Print Assumptions C99_reads.

(** numpy: arrays of one dimension are broadcast, other lengths are errors (misc.py 832-834). *)
Definition array_eq (a b : list Z) : bool :=
  if Nat.eqb (List.length a) (List.length b) then forallb (fun p => Z.eqb (fst p) (snd p)) (combine a b)
  else match a, b with
       | [x], _ => forallb (Z.eqb x) b
       | _, [y] => forallb (fun x => Z.eqb x y) a
       | _, _ => false
       end.
Definition by_array (arrays : list (list Z)) (a b : nat) : bool :=
  match nth_error arrays a, nth_error arrays b with Some x, Some y => array_eq x y | _, _ => Nat.eqb a b end.
Definition abc : heap := [NThing false None; NThing false None; NThing false None; NMap [("x", 0%nat)]; NMap [("x", 1%nat)]; NMap [("x", 2%nat)]].
(** Arrays of different lengths can be equal, and equality is not transitive: the empty array is
    equal to every array with one element. *)
Theorem C99_arrays_refuted : exists arrays, let eq := deep_equal (by_array arrays) (by_array arrays) abc 40 [] in
  eq 3%nat 4%nat = Some true /\ eq 4%nat 5%nat = Some true /\ eq 3%nat 5%nat = Some false /\
  nth_error arrays 0 = Some [1%Z] /\ nth_error arrays 1 = Some [] /\ nth_error arrays 2 = Some [2%Z].
Proof. exists [[1%Z]; []; [2%Z]]. repeat split. Qed.
Print Assumptions C99_arrays_refuted.
(** Mappings that contain themselves, directly or in the __dict__ of an object. *)
Definition loop : heap := [NMap [("me", 0%nat); ("n", 4%nat)]; NMap [("n", 4%nat); ("me", 1%nat)]; NMap [("n", 5%nat); ("me", 2%nat)]; NMap [("me", 0%nat)];
  NThing false None; NThing false None; NThing true (Some 0%nat); NThing false (Some 1%nat); NMap [("o", 6%nat)]; NMap [("o", 7%nat)]; NThing false (Some 2%nat); NMap [("o", 10%nat)]].
Example C99_witness : symmetric Nat.eqb /\ (forall a b, In (a, b) [(0, 1); (8, 9)]%nat -> deep_equal Nat.eqb Nat.eqb loop 200 [] a b = Some true) /\
  (forall a b, In (a, b) [(0, 2); (0, 3); (8, 11); (0, 6)]%nat -> deep_equal Nat.eqb Nat.eqb loop 200 [] a b = Some false) /\
  deep_equal (fun _ _ => false) (fun _ _ => false) loop 200 [] 2 2 = Some true /\ differ Nat.eqb Nat.eqb loop 8 11.
Proof.
  split; [intros a b; apply Nat.eqb_sym|]. split; [intros a b [[= <- <-]|[[= <- <-]|[]]]; reflexivity|]. split; [intros a b [[= <- <-]|[[= <- <-]|[[= <- <-]|[[= <- <-]|[]]]]]; reflexivity|]. split; [reflexivity|].
  apply (C99_sound Nat.eqb Nat.eqb loop 200 []). reflexivity.
Qed.

(** Property C93: equal patches. Model: EqualModel.v. *)
From Verif Require Import Base NdModel NdSpec AttrsModel EqualModel EqualSpec EqualProofs.
From Coq Require Import Strings.Ascii Strings.String QArith Qabs Lqa Lia.
Local Open Scope Z_scope.
Local Open Scope list_scope.
Local Open Scope string_scope.

(** Equality never fails, and is true just for patches with the same dimensions in the same
    order, coordinates near each other, the same attributes and equal (close) data. *)
Theorem C93_equals : forall p q, wf_ep p -> wf_ep q -> forall only close, exists b, pt_equals p (Some q) only close = Ok b /\ (b = true <-> alike p q only (eqrel close)).
Proof. exact equals_ok. Qed.
Print Assumptions C93_equals.
Theorem C93_other : forall p only close, pt_equals p None only close = Ok false.
Proof. reflexivity. Qed.
Print Assumptions C93_other.
(** A patch is equal to itself just when it has no NaN in its data and no NaT in its coordinates. *)
Theorem C93_self : forall p only close, wf_ep p -> (pt_equals p (Some p) only close = Ok true <-> settled p).
Proof. exact self_ok. Qed.
Print Assumptions C93_self.
(** Equality goes both ways for patches with the very same coordinates. *)
Theorem C93_symmetric : forall p q only, wf_ep p -> wf_ep q -> named (public p) (fun c d => c = d) (ep_coords p) (ep_coords q) ->
  pt_equals p (Some q) only false = Ok true -> pt_equals q (Some p) only false = Ok true.
Proof. exact equals_sym. Qed.
Print Assumptions C93_symmetric.
(** Equal patches are close, and patches equal in all attributes in the required ones. *)
Theorem C93_close : forall p q only, wf_ep p -> wf_ep q -> pt_equals p (Some q) only false = Ok true -> pt_equals p (Some q) only true = Ok true.
Proof. exact weaker. Qed.
Print Assumptions C93_close.
Theorem C93_required : forall p q close, wf_ep p -> wf_ep q -> pt_equals p (Some q) false close = Ok true -> pt_equals p (Some q) true close = Ok true.
Proof. exact fewer. Qed.
Print Assumptions C93_required.

Definition two (u : option string) (x y : Q) (history : list string) (d : option Q) : epatch :=
  mkEp ["distance"; "time"]
    [("distance", mkEc [2] u (Full (Nums [Some x; Some y]))); ("time", mkEc [1] (Some "s") (Full (Times [Some 7]))); ("_hidden", mkEc [1] None (Full (Nums [Some x])))]
    [("tag", AText "a"); ("dims", AText "distance,time"); ("history", ATuple history); ("data_units", ANull)]
    (mkNd [2; 1] [Some 1%Q; d]).
Lemma two_wf u x y h d : wf_ep (two u x y h d).
Proof.
  split.
  - repeat constructor; cbn; intuition discriminate.
  - repeat constructor; cbn; intuition discriminate.
  - cbn. constructor; [|constructor; [|constructor]]; eexists; (split; [cbn; auto|reflexivity]).
  - exists "distance,time". split; [cbn; auto|reflexivity].
Qed.
Example C93_witness : let p := two None 0 5 ["a"] (Some 3%Q) in wf_ep p /\ settled p /\
  pt_equals p (Some (two None 0 5 ["b"] (Some 3%Q))) true false = Ok true /\ pt_equals p (Some (two None 0 5 ["b"] (Some 3%Q))) false false = Ok false /\
  pt_equals p (Some (two None 0 6 ["a"] (Some 3%Q))) true false = Ok false /\ pt_equals p (Some (two None 0 5 ["a"] (Some (300000001 # 100000000)))) true false = Ok false /\
  pt_equals p (Some (two None 0 5 ["a"] (Some (300000001 # 100000000)))) true true = Ok true.
Proof.
  cbv zeta. split; [apply two_wf|]. split; [|repeat split].
  split; [intros v [<-|[<-|[]]]; discriminate|]. intros n c l _ [E|[E|[E|[]]]] B; injection E as <- <-; try discriminate. injection B as <-. intros t [<-|[]]. discriminate.
Qed.
(** Patches with NaN are not equal to themselves. *)
Theorem C93_self_refuted : ~ forall p, wf_ep p -> pt_equals p (Some p) true false = Ok true.
Proof. intro H. specialize (H (two None 0 5 [] None) (two_wf _ _ _ _ _)). discriminate. Qed.
Print Assumptions C93_self_refuted.
(** The tolerance for coordinates is taken from the second patch. *)
Theorem C93_symmetric_refuted : ~ forall p q, wf_ep p -> wf_ep q -> pt_equals p (Some q) true false = Ok true -> pt_equals q (Some p) true false = Ok true.
Proof.
  intro H. specialize (H (two None 0 100000 [] (Some 3%Q)) (two None 0 (100001000005 # 1000000) [] (Some 3%Q)) (two_wf _ _ _ _ _) (two_wf _ _ _ _ _) eq_refl). vm_compute in H. discriminate.
Qed.
Print Assumptions C93_symmetric_refuted.
(** Nor does equality carry over from one patch to the next. *)
Theorem C93_transitive_refuted : ~ forall p q r, wf_ep p -> wf_ep q -> wf_ep r -> pt_equals p (Some q) true false = Ok true -> pt_equals q (Some r) true false = Ok true -> pt_equals p (Some r) true false = Ok true.
Proof.
  intro H. specialize (H (two None 0 5 [] (Some 3%Q)) (two None (1 # 100000000) 5 [] (Some 3%Q)) (two None (2 # 100000000) 5 [] (Some 3%Q)) (two_wf _ _ _ _ _) (two_wf _ _ _ _ _) (two_wf _ _ _ _ _) eq_refl eq_refl). vm_compute in H. discriminate.
Qed.
Print Assumptions C93_transitive_refuted.
(** Metres are equal to feet: the units of coordinates with values are not compared. *)
Theorem C93_units_refuted : ~ forall p q c d, wf_ep p -> wf_ep q -> In ("distance", c) (ep_coords p) -> In ("distance", d) (ep_coords q) ->
  pt_equals p (Some q) false false = Ok true -> ec_units c = ec_units d.
Proof.
  intro H. specialize (H (two (Some "m") 0 5 [] (Some 3%Q)) (two (Some "ft") 0 5 [] (Some 3%Q)) _ _ (two_wf _ _ _ _ _) (two_wf _ _ _ _ _) (or_introl eq_refl) (or_introl eq_refl) eq_refl). discriminate.
Qed.
Print Assumptions C93_units_refuted.

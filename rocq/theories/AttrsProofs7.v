(** Deciding that attribute sets can be merged, for the examples. *)
From Verif Require Import Base BaseFacts FrameModel CmModel CmProofs AttrsModel AttrsSpec AttrsProofs AttrsProofs2.
From Coq Require Import Strings.String.
Local Open Scope Z_scope.

Fixpoint nodupb (l : list string) : bool :=
  match l with [] => true | x :: t => negb (mem x t) && nodupb t end.
Lemma nodupb_ok l : nodupb l = true -> NoDup l.
Proof.
  induction l as [|x t IH]; cbn [nodupb]; [constructor|]. rewrite Bool.andb_true_iff, Bool.negb_true_iff. intros (A & B).
  constructor; [now apply mem_false|now apply IH].
Qed.
Definition tidy_summb (s : summ) : bool := negb (String.eqb (s_dtype s) EmptyString) && negb (str_contains "[" (s_dtype s)).
Definition tidyb (a : attrs) : bool :=
  nodupb (map fst (a_vals a)) && nodupb (map fst (a_coords a))
  && negb (mem "dims" (map fst (a_vals a))) && negb (mem "coords" (map fst (a_vals a)))
  && (negb (String.eqb (a_dims a) EmptyString) || match a_coords a with [] => true | _ => false end)
  && negb (mem "dims" (names_of a)) && negb (mem "coords" (names_of a))
  && forallb (fun e => tidy_summb (snd e)) (a_coords a).
Definition apartb (cs : list string) (k : string) : bool :=
  negb (str_contains "_min" k) && forallb (fun c => negb (str_prefix c k) && negb (String.eqb k ("d_" ++ c))) cs.
Definition familyb (l : list attrs) : bool :=
  forallb tidyb l
  && forallb (fun a => forallb (fun b => forallb (apartb (names_of b)) (map fst (a_vals a))) l) l.

Lemma apartb_ok cs k : apartb cs k = true -> apart cs k.
Proof.
  unfold apartb, apart. rewrite Bool.andb_true_iff, Bool.negb_true_iff, forallb_forall. intros (A & B). split.
  - intros C. apply str_contains_spec in C. congruence.
  - intros c C. specialize (B c C). rewrite Bool.andb_true_iff, !Bool.negb_true_iff in B. destruct B as (B1 & B2). split.
    + intros S. apply str_prefix_starts in S. congruence.
    + now apply String.eqb_neq.
Qed.
Lemma tidyb_ok a : tidyb a = true -> tidy a.
Proof.
  unfold tidyb. rewrite !Bool.andb_true_iff, !Bool.negb_true_iff, forallb_forall.
  intros (((((((A & B) & C) & D) & E) & F) & G) & H). constructor.
  - now apply nodupb_ok.
  - now apply nodupb_ok.
  - split; now apply mem_false.
  - intros Z. rewrite Z in E. cbn in E. destruct (a_coords a); [reflexivity|discriminate].
  - split; now apply mem_false.
  - intros n s I. specialize (H _ I). cbn [snd] in H. unfold tidy_summb in H. rewrite Bool.andb_true_iff, !Bool.negb_true_iff in H.
    destruct H as (H1 & H2). split; [now apply String.eqb_neq|]. intros X. apply str_contains_spec in X. congruence.
Qed.
Lemma familyb_ok l : familyb l = true -> family l.
Proof.
  unfold familyb. rewrite Bool.andb_true_iff, !forallb_forall. intros (A & B). split.
  - intros a I. apply tidyb_ok. auto.
  - intros a b k Ia Ib K. specialize (B a Ia). rewrite forallb_forall in B. specialize (B b Ib). rewrite forallb_forall in B.
    apply apartb_ok. auto.
Qed.

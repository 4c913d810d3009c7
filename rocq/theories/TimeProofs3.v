(** A timedelta's text is read back as that timedelta. *)
From Coq Require Import ZArith List Bool Lia Strings.String Strings.Ascii Decimal.
From Coq Require Import Numbers.DecimalString Numbers.DecimalZ Numbers.DecimalPos.
From Verif Require Import Base TimeModel.
Local Open Scope Z_scope.
Local Open Scope list_scope.

Lemma chars_app a b : list_ascii_of_string (a ++ b)%string = list_ascii_of_string a ++ list_ascii_of_string b.
Proof. induction a as [|c a IH]; [reflexivity|]. cbn. now rewrite IH. Qed.

Definition solid (l : list ascii) : Prop := Forall (fun c => blank c = false) l.

Lemma words_solid w : forall cur s, solid w -> words_aux cur (w ++ s) = words_aux (rev w ++ cur) s.
Proof.
  induction w as [|c w IH]; intros cur s H; [reflexivity|].
  inversion H as [|? ? B R]; subst. cbn [app words_aux rev]. rewrite B, IH by exact R.
  now rewrite <- app_assoc.
Qed.

Lemma uint_solid d : solid (list_ascii_of_string (NilEmpty.string_of_uint d)).
Proof. induction d; cbn; constructor; (reflexivity || assumption). Qed.
Lemma zuint_solid d : solid (list_ascii_of_string (NilZero.string_of_uint d)).
Proof. destruct d; cbn; constructor; try reflexivity; try apply uint_solid. constructor. Qed.
Lemma int_solid d : solid (list_ascii_of_string (NilZero.string_of_int d)).
Proof. destruct d as [d|d]; [apply zuint_solid|]. cbn. constructor; [reflexivity|apply zuint_solid]. Qed.

Lemma int_chars_nonempty d : list_ascii_of_string (NilZero.string_of_int d) <> [].
Proof. destruct d as [d|d]; destruct d; discriminate. Qed.

Lemma words_two d b : solid (list_ascii_of_string b) -> b <> EmptyString ->
  words (NilZero.string_of_int d ++ " " ++ b)%string = [NilZero.string_of_int d; b].
Proof.
  intros S N. unfold words. rewrite chars_app, words_solid by apply int_solid.
  rewrite app_nil_r. assert (X := int_chars_nonempty d).
  set (w := list_ascii_of_string (NilZero.string_of_int d)) in *.
  cbn [list_ascii_of_string append words_aux]. change (blank " "%char) with true. cbv iota.
  destruct (rev w) as [|c r] eqn:R.
  - exfalso. apply X. rewrite <- (rev_involutive w), R. reflexivity.
  - rewrite <- R, rev_involutive.
    assert (W : words_aux [] (list_ascii_of_string b) = [list_ascii_of_string b]).
    { rewrite <- (app_nil_r (list_ascii_of_string b)) at 1. rewrite words_solid by exact S.
      rewrite app_nil_r. cbn [words_aux].
      destruct (rev (list_ascii_of_string b)) as [|c' r'] eqn:R'.
      - exfalso. apply N. rewrite <- (string_of_list_ascii_of_string b).
        rewrite <- (rev_involutive (list_ascii_of_string b)), R'. reflexivity.
      - rewrite <- R', rev_involutive. reflexivity. }
    rewrite W. cbn [map]. unfold w. rewrite !string_of_list_ascii_of_string. reflexivity.
Qed.

Lemma to_int_nonnil n : Z.to_int n <> Pos Nil /\ Z.to_int n <> Neg Nil.
Proof.
  destruct n as [|p|p]; cbn [Z.to_int]; (split; [intros H|intros H]); try discriminate H;
  exact (Unsigned.to_uint_nonnil p (f_equal (fun i => match i with Pos u | Neg u => u end) H)).
Qed.

Lemma py_int_str n : py_int (NilZero.string_of_int (Z.to_int n)) = Some n.
Proof.
  assert (E : option_map Z.of_int (NilZero.int_of_string (NilZero.string_of_int (Z.to_int n))) = Some n).
  { destruct (to_int_nonnil n) as [A B]. rewrite NilZero.isi by assumption. cbn. now rewrite of_to. }
  rewrite <- E. unfold py_int. destruct (Z.to_int n) as [d|d]; destruct d; reflexivity.
Qed.

Lemma read_back u n : in_int64 n = true -> n <> int64_min ->
  time_delta_from_str (str_timedelta u (Some n)) = Ok (u, Some n).
Proof.
  intros I N. unfold str_timedelta, time_delta_from_str.
  rewrite words_two; [|destruct u; repeat constructor|destruct u; discriminate].
  rewrite py_int_str, I.
  assert (T : time_of n = Some n) by (unfold time_of; now rewrite (proj2 (Z.eqb_neq _ _) N)). rewrite T.
  destruct u; reflexivity.
Qed.

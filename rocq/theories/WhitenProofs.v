(** Proofs for the arguments of whiten (C104). *)
From Verif Require Import Base BaseFacts FrameModel CmProofs WhitenModel WhitenSpec.
From Coq Require Import Strings.String QArith Lqa Lia.
Local Open Scope list_scope.

Lemma strip_spec p s r : strip p s = Some r <-> s = (p ++ r)%string.
Proof.
  revert s. induction p as [|a p IH]; intros s; cbn; [split; [intros [= ->]; reflexivity|intros ->; reflexivity]|].
  destruct s as [|b s]; [split; discriminate|]. destruct (Ascii.eqb_spec a b) as [->|N]; [rewrite IH; split; [intros ->; reflexivity|intros [= ->]; reflexivity]|]. split; [discriminate|]. intros [= -> _]. contradiction.
Qed.
Lemma strip_none p s : strip p s = None <-> forall r, s <> (p ++ r)%string.
Proof.
  destruct (strip p s) as [r|] eqn:E; [apply strip_spec in E; split; [discriminate|intros H; elim (H r E)]|]. split; [intros _ r X; apply strip_spec in X; congruence|reflexivity].
Qed.
Theorem forward_spec d t : forward_rename d = t <-> transformed d t.
Proof.
  unfold forward_rename, transformed. destruct (strip "ift_" d) as [r|] eqn:E.
  - apply strip_spec in E. split; [intros <-; left; exact E|]. intros [H|[H _]]; [rewrite H in E; injection E as ->; reflexivity|elim (H r E)].
  - pose proof (proj1 (strip_none _ _) E) as N. split; [intros <-; right; auto|]. intros [H|[_ ->]]; [elim (N t H)|reflexivity].
Qed.
Theorem inverse_spec d t : inverse_rename d = t <-> restored d t.
Proof.
  unfold inverse_rename, restored. destruct (strip "ft_" d) as [r|] eqn:E.
  - apply strip_spec in E. split; [intros <-; left; exact E|]. intros [H|[H _]]; [rewrite H in E; injection E as ->; reflexivity|elim (H r E)].
  - pose proof (proj1 (strip_none _ _) E) as N. split; [intros <-; right; auto|]. intros [H|[_ ->]]; [elim (N t H)|reflexivity].
Qed.
Theorem rename_back d : (forall r, d <> ("ift_ft_" ++ r)%string) -> inverse_rename (forward_rename d) = d.
Proof.
  intros N. apply inverse_spec. destruct (proj1 (forward_spec d _) eq_refl) as [H|[_ ->]]; [|left; reflexivity].
  right. split; [|exact H]. intros r E. apply (N r). rewrite H, E. reflexivity.
Qed.

Lemma whiten_dim_ok dims kw d r : whiten_dim dims kw = Ok (d, r) <-> meant dims kw d r.
Proof.
  unfold whiten_dim, meant. destruct kw as [|[k q] [|? ?]].
  - destruct (mem "time" dims || mem "ft_time" dims) eqn:A.
    + apply Bool.orb_true_iff in A. rewrite !mem_In' in A. split; [intros [= <- <-]; left; auto|]. intros [(_ & _ & -> & ->)|(H & _)]; [reflexivity|discriminate H].
    + apply Bool.orb_false_iff in A as [A B]. apply mem_false in A. apply mem_false in B. split; [discriminate|]. intros [(_ & [H|H] & _)|(H & _)]; [contradiction|contradiction|discriminate H].
  - destruct (negb (mem k dims) && negb (mem (forward_rename k) dims)) eqn:A.
    + apply andb_prop in A as [A B]. apply Bool.negb_true_iff, mem_false in A. apply Bool.negb_true_iff, mem_false in B. split; [discriminate|]. intros [(H & _)|(H & H2)]; [discriminate H|]. injection H as -> ->.
      exfalso. destruct H2 as [H2|(t & T & H2)]; [exact (A H2)|]. apply forward_spec in T. subst t. exact (B H2).
    + apply Bool.andb_false_iff in A. rewrite !Bool.negb_false_iff, !mem_In' in A. split; [|intros [(H & _)|(H & _)]; [discriminate H|injection H as -> ->; reflexivity]].
      intros [= <- <-]. right. split; [reflexivity|]. destruct A as [A|A]; [left; exact A|right]. exists (forward_rename k). split; [apply forward_spec; reflexivity|exact A].
  - split; [discriminate|]. intros [(H & _)|(H & _)]; discriminate.
Qed.
Lemma qltb_spec a b : qltb a b = true <-> (a < b)%Q.
Proof. unfold qltb. rewrite Bool.negb_true_iff. destruct (Qle_bool b a) eqn:E; [apply Qle_bool_iff in E; split; [discriminate|lra]|]. split; [intros _|reflexivity]. destruct (Qlt_le_dec a b) as [L|L]; [exact L|]. apply Qle_bool_iff in L. congruence. Qed.
Lemma qltb_false a b : qltb a b = false <-> (b <= a)%Q.
Proof. pose proof (qltb_spec a b) as H. destruct (qltb a b); [split; [discriminate|]; pose proof (proj1 H eq_refl); lra|]. split; [intros _|reflexivity]. destruct (Qlt_le_dec a b) as [L|L]; [apply H in L; discriminate|exact L]. Qed.
Lemma qle_false a b : Qle_bool a b = false <-> (b < a)%Q.
Proof. rewrite <- qltb_spec. unfold qltb. rewrite Bool.negb_true_iff. reflexivity. Qed.
Lemma smooth_ok fmax s w : check_smooth fmax s w = Ok tt <-> good_smoothing fmax (Some s) w.
Proof.
  unfold check_smooth, good_smoothing. split.
  - destruct (match w with None => false | Some LOther => true | Some (LFloat x) => qltb x 0 || qltb 1 x end) eqn:W; [discriminate|]. destruct (Qle_bool s 0) eqn:A; [discriminate|]. destruct (Qle_bool fmax s) eqn:B; [discriminate|].
    intros _ s' [= <-]. apply qle_false in A. apply qle_false in B. split; [exact A|]. split; [exact B|]. destruct w as [[x|]|]; [right; exists x; apply Bool.orb_false_iff in W as [W1 W2]; apply qltb_false in W1; apply qltb_false in W2; auto|discriminate|left; reflexivity].
  - intros H. destruct (H s eq_refl) as (A & B & C). apply qle_false in A. apply qle_false in B. rewrite A, B. destruct C as [->|(x & -> & X & Y)]; [reflexivity|]. rewrite (proj2 (qltb_false x 0) X), (proj2 (qltb_false 1 x) Y). reflexivity.
Qed.
Lemma spaced_cons step x y t : spaced step (x :: y :: t) <-> (x + 2 * step <= y)%Q /\ spaced step (y :: t).
Proof.
  split.
  - intros H. split; [apply (H [] x y t); reflexivity|]. intros l a b u E. apply (H (x :: l) a b u). cbn. rewrite E. reflexivity.
  - intros [A H] [|e l] a b u E; cbn in E; injection E; intros; subst; [exact A|]. eapply H. eassumption.
Qed.
Lemma range_ok step r : check_range step r = Ok tt <-> spaced step r.
Proof.
  assert (G : existsb (fun d => qltb d (step * 2)) (diffs r) = false <-> spaced step r).
  { induction r as [|x [|y t] IH].
    - split; [|reflexivity]. intros _ [|? ?] a b u E; discriminate.
    - split; [|reflexivity]. intros _ [|? [|? ?]] a b u E; discriminate.
    - rewrite spaced_cons, <- IH. change (diffs (x :: y :: t)) with ((y - x)%Q :: diffs (y :: t)). cbn [existsb]. rewrite Bool.orb_false_iff, qltb_false. split; intros [A B]; (split; [lra|exact B]). }
  unfold check_range. rewrite <- G. destruct (existsb _ _); split; congruence.
Qed.
Lemma smooth_err fmax s w e : check_smooth fmax s w = Err e -> e = ParameterError.
Proof. unfold check_smooth. destruct (match w with None => false | Some LOther => true | Some (LFloat x) => qltb x 0 || qltb 1 x end), (Qle_bool s 0), (Qle_bool fmax s); congruence. Qed.
Lemma spaced_nil step : spaced step [].
Proof. intros [|? ?] a b u E; discriminate. Qed.
Theorem args_ok dims kw fmax step smooth water d t : whiten_args dims kw fmax step smooth water = Ok (d, t) <->
  transformed d t /\ good_smoothing fmax smooth water /\ exists r, meant dims kw d r /\ good_range step r.
Proof.
  unfold whiten_args. destruct (whiten_dim dims kw) as [[d0 r0]|e] eqn:D; cbn [bind].
  2:{ split; [discriminate|]. intros (_ & _ & r & M & _). apply whiten_dim_ok in M. congruence. }
  assert (U : forall r, meant dims kw d r -> d = d0 /\ r = r0) by (intros r M; apply whiten_dim_ok in M; rewrite D in M; injection M as <- <-; auto).
  apply whiten_dim_ok in D. cbn [fst snd].
  assert (SM : (match smooth with None => Ok tt | Some s => check_smooth fmax s water end) = Ok tt <-> good_smoothing fmax smooth water) by (destruct smooth as [s|]; [apply smooth_ok|split; [intros _ s X; discriminate|reflexivity]]).
  assert (RM : (match r0 with Some ((_ :: _) as r) => check_range step r | _ => Ok tt end) = Ok tt <-> good_range step r0).
  { destruct r0 as [[|x l]|]; [split; [intros _ l [= <-]; apply spaced_nil|reflexivity]| |split; [intros _ l X; discriminate|reflexivity]]. rewrite range_ok. split; [intros H l' [= <-]; exact H|intros H; apply H; reflexivity]. }
  destruct (match smooth with None => Ok tt | Some s => check_smooth fmax s water end) as [[]|e]; cbn [bind].
  2:{ split; [discriminate|]. intros (_ & G & _). apply SM in G. discriminate. }
  destruct (match r0 with Some ((_ :: _) as r) => check_range step r | _ => Ok tt end) as [[]|e]; cbn [bind].
  2:{ split; [discriminate|]. intros (_ & _ & r & M & G). destruct (U r M) as [_ ->]. apply RM in G. discriminate. }
  split.
  - intros [= <- <-]. split; [apply forward_spec; reflexivity|]. split; [apply SM; reflexivity|]. exists r0. split; [exact D|apply RM; reflexivity].
  - intros (T & _ & r & M & _). destruct (U r M) as [-> _]. apply forward_spec in T. rewrite T. reflexivity.
Qed.
Theorem args_err dims kw fmax step smooth water e : whiten_args dims kw fmax step smooth water = Err e -> e = ParameterError.
Proof.
  unfold whiten_args. destruct (whiten_dim dims kw) as [[d0 r0]|e0] eqn:D; cbn [bind fst snd].
  - destruct smooth as [s|]; [destruct (check_smooth fmax s water) as [[]|e1] eqn:C; cbn [bind]; [|intros [= <-]; exact (smooth_err _ _ _ _ C)]|cbn [bind]];
    (destruct r0 as [[|x l]|]; cbn [bind]; try discriminate; unfold check_range; destruct (existsb _ _); cbn [bind]; congruence).
  - intros [= <-]. revert D. unfold whiten_dim. destruct kw as [|[k q] [|? ?]]; [destruct (mem "time" dims || mem "ft_time" dims)|destruct (negb (mem k dims) && negb (mem (forward_rename k) dims))|]; congruence.
Qed.
Theorem spaced_increasing step r : (0 <= step)%Q -> spaced step r -> forall i j x y, (i < j)%nat -> nth_error r i = Some x -> nth_error r j = Some y -> (x + 2 * step <= y)%Q.
Proof.
  intros P. induction r as [|a r IH]; intros SP i j x y L X Y; [destruct i; discriminate|]. destruct r as [|b t]; [destruct j as [|[|j]]; [lia|discriminate|discriminate]|].
  apply spaced_cons in SP as [A B]. destruct j as [|j]; [lia|]. cbn in Y. destruct i as [|i]; cbn in X.
  - injection X as <-. destruct j as [|j]; [cbn in Y; injection Y as <-; exact A|]. pose proof (IH B 0%nat (Datatypes.S j) b y ltac:(lia) eq_refl Y). lra.
  - apply (IH B i j x y ltac:(lia) X Y).
Qed.

(** Proofs for slope masks (C89). *)
From Verif Require Import Base BaseFacts CoordModel NdModel NdSpec NdProofs FrameModel CmModel CmProofs MuteModel MuteProofs MuteProofs2 MoveProofs TaperProofs2 EdgeModel EdgeSpec EdgeProofs.
From Coq Require Import Strings.String QArith Qabs Lqa Lia.
Local Open Scope Z_scope.
Local Open Scope list_scope.

Lemma within_iff s a b : within s a b = true <-> (a <= s /\ s <= b)%Q.
Proof. unfold within. rewrite Bool.andb_true_iff, !Qle_bool_iff. reflexivity. Qed.
Lemma within_not s a b : within s a b = false <-> (s < a \/ b < s)%Q.
Proof.
  destruct (within s a b) eqn:E.
  - apply within_iff in E. split; [discriminate|]. intros [H|H]; lra.
  - split; [intros _|reflexivity]. destruct (Qlt_le_dec s a) as [H|H]; [left; exact H|]. destruct (Qlt_le_dec b s) as [H'|H']; [right; exact H'|].
    exfalso. assert (within s a b = true) by (apply within_iff; split; assumption). congruence.
Qed.
Lemma ramp_ext ramp : rises ramp -> forall x y, (0 <= x)%Q -> (x <= 1)%Q -> (x == y)%Q -> (ramp x == ramp y)%Q.
Proof. intros (_ & _ & M) x y H0 H1 E. apply Qle_antisym; apply M; lra. Qed.
Lemma ramp_bounds ramp x : rises ramp -> (0 <= x)%Q -> (x <= 1)%Q -> (0 <= ramp x /\ ramp x <= 1)%Q.
Proof. intros (R0 & R1 & M) H0 H1. split; [rewrite <- R0|rewrite <- R1]; apply M; lra. Qed.
Lemma share s a b : (a < b)%Q -> (a <= s)%Q -> (s <= b)%Q -> (0 <= (s - a) / (b - a) /\ (s - a) / (b - a) <= 1)%Q.
Proof. intros H1 H2 H3. split; [apply Qle_shift_div_l; lra|apply Qle_shift_div_r; lra]. Qed.
Lemma ramp_over_ok ramp s a b : (a < b)%Q -> ramp_over ramp s a b = Some (ramp ((s - a) / (b - a)))%Q.
Proof. intro H. unfold ramp_over. destruct (Qeq_bool (b - a) 0) eqn:E; [apply Qeq_bool_iff in E; lra|reflexivity]. Qed.

Definition out (invert : bool) (v : Q) : Q := if invert then (1 - v)%Q else v.
Lemma mask_ok ramp a b c d s : rises ramp -> (a <= b)%Q -> (b <= c)%Q -> (c < d)%Q ->
  exists v, weight ramp a b c d s v /\ forall invert, exists w, mask_of ramp invert (a, b, c, d) (Some s) = Some w /\ (w == out invert v)%Q.
Proof.
  intros R Hab Hbc Hcd. pose proof R as (R0 & R1 & M). unfold mask_of.
  destruct (within s c d) eqn:W3.
  { apply within_iff in W3. rewrite (ramp_over_ok ramp s c d Hcd). pose proof (share s c d Hcd (proj1 W3) (proj2 W3)) as Sh.
    pose proof (ramp_bounds ramp _ R (proj1 Sh) (proj2 Sh)) as B. exists (1 - ramp ((s - c) / (d - c)))%Q. split.
    - split; [lra|]. split; [|split; [|split]].
      + intros [_ H]. assert (E : (ramp ((s - c) / (d - c)) == 0)%Q); [|rewrite E; ring].
        rewrite <- R0. apply ramp_ext; try tauto. assert (s - c == 0)%Q as E by lra. rewrite E. field. lra.
      + intros [H|H]; [lra|]. assert (E : (ramp ((s - c) / (d - c)) == 1)%Q); [|rewrite E; ring].
        rewrite <- R1. apply ramp_ext; try tauto. assert (s - c == d - c)%Q as E by lra. rewrite E. field. lra.
      + intros [_ H]. lra.
      + intros _. reflexivity.
    - intro invert. destruct invert; eexists; (split; [reflexivity|]); cbn [out]; ring. }
  apply within_not in W3. destruct (within s b c) eqn:W2.
  { apply within_iff in W2. exists 1%Q. split.
    - split; [lra|]. repeat split; intros; try reflexivity; lra.
    - intro invert. destruct invert; eexists; (split; [reflexivity|]); reflexivity. }
  apply within_not in W2. destruct (within s a b) eqn:W1.
  { apply within_iff in W1. assert (Hab' : (a < b)%Q) by lra. rewrite (ramp_over_ok ramp s a b Hab'). pose proof (share s a b Hab' (proj1 W1) (proj2 W1)) as Sh.
    pose proof (ramp_bounds ramp _ R (proj1 Sh) (proj2 Sh)) as B. exists (ramp ((s - a) / (b - a)))%Q. split.
    - split; [exact B|]. split; [lra|]. split; [lra|]. split; [reflexivity|lra].
    - intro invert. destruct invert; eexists; (split; [reflexivity|]); cbn [out option_map]; ring. }
  apply within_not in W1. exists 0%Q. split.
  - split; [lra|]. split; [lra|]. split; [reflexivity|]. split; lra.
  - intro invert. destruct invert; eexists; (split; [reflexivity|]); reflexivity.
Qed.

Lemma slope_ok directional f k s : (s * (k + epsilon) == f)%Q -> ~ (k + epsilon == 0)%Q ->
  exists s', slope_at directional f k = Some s' /\ (s' == if directional then s else Qabs s)%Q.
Proof.
  intros H N. unfold slope_at. destruct (Qeq_bool (k + epsilon) 0) eqn:E; [apply Qeq_bool_iff in E; contradiction|].
  assert (K : (f / (k + epsilon) == s)%Q) by (rewrite <- H; field; exact N). destruct directional; eexists; (split; [reflexivity|]); [exact K|rewrite K; reflexivity].
Qed.
Lemma weight_ext ramp a b c d s s' v : rises ramp -> (a <= b)%Q -> (c < d)%Q -> (s == s')%Q -> weight ramp a b c d s v -> weight ramp a b c d s' v.
Proof.
  intros R Hab Hcd E (B & W1 & W2 & W3 & W4). split; [exact B|]. split; [intro H; apply W1; lra|]. split; [intro H; apply W2; lra|]. split.
  - intros H. rewrite W3 by lra. apply ramp_ext; try exact R; try (apply share; lra). rewrite E. reflexivity.
  - intros H. rewrite W4 by lra. assert (X : (ramp ((s - c) / (d - c)) == ramp ((s' - c) / (d - c)))%Q); [|rewrite X; reflexivity].
    apply ramp_ext; try exact R; try (apply share; lra). rewrite E. reflexivity.
Qed.

Lemma masked_ok ramp invert directional a b c d fs ks af ak (x : nd Q) : rises ramp -> (a <= b)%Q -> (b <= c)%Q -> (c < d)%Q ->
  wf_nd x -> nth_error (nd_shape x) af = Some (zlen fs) -> nth_error (nd_shape x) ak = Some (zlen ks) ->
  (forall k, In k ks -> ~ (k + epsilon == 0)%Q) ->
  exists y, masked ramp invert directional (a, b, c, d) fs ks af ak x = Some y /\ wf_nd y /\ nd_shape y = nd_shape x /\
    forall ix i j f k s v, nth_error ix af = Some i -> nth_error ix ak = Some j -> znth fs i = Some f -> znth ks j = Some k -> nd_get x ix = Some v ->
      (s * (k + epsilon) == f)%Q ->
      exists w r, weight ramp a b c d (if directional then s else Qabs s) w /\ nd_get y ix = Some (Some r) /\ (r == v * out invert w)%Q.
Proof.
  intros R Hab Hbc Hcd W Sf Sk K. unfold masked.
  assert (P : Forall (fun n => 0 <= n) (nd_shape x)) by apply W.
  set (g := fun ix => match nth_error ix af, nth_error ix ak, nd_get x ix with
    | Some i, Some j, Some x0 =>
        match znth fs i, znth ks j with
        | Some f, Some k => Some (option_map (fun m => x0 * m)%Q (mask_of ramp invert (a, b, c, d) (slope_at directional f k)))
        | _, _ => None
        end
    | _, _, _ => None
    end).
  destruct (nd_build_total (nd_shape x) g P) as (y & Y).
  { intros ix I. destruct (inb_axis _ _ _ _ I Sf) as (i & Ei & Bi). destruct (inb_axis _ _ _ _ I Sk) as (j & Ej & Bj).
    destruct (nd_get_total x ix W I) as (v & V). subst g. cbv beta. rewrite Ei, Ej, V.
    destruct (znth_ok fs i Bi) as (f & F). destruct (znth_ok ks j Bj) as (k & Kk). rewrite F, Kk. eauto. }
  exists y. split; [exact Y|]. destruct (nd_build_spec _ _ _ P Y) as (Sy & Wy & Gy). split; [exact Wy|]. split; [exact Sy|].
  intros ix i j f k s v Ei Ej F Kk V H. assert (I : inb (nd_shape x) ix) by (eapply nd_get_inb, V).
  assert (Nk : ~ (k + epsilon == 0)%Q). { apply K. unfold znth in Kk. destruct (j <? 0); [discriminate|]. eapply nth_error_In, Kk. }
  destruct (slope_ok directional f k s H Nk) as (s' & Hs & Es).
  destruct (mask_ok ramp a b c d s' R Hab Hbc Hcd) as (w & Ww & Wo). destruct (Wo invert) as (w' & M & Ew).
  exists w, (v * w')%Q. split; [eapply weight_ext; eassumption|]. split; [|rewrite Ew; reflexivity].
  destruct (Gy ix I) as (z & Gz & Zy). rewrite Zy, <- Gz. subst g. cbv beta. rewrite Ei, Ej, V, F, Kk, Hs, M. reflexivity.
Qed.

Lemma weight_rises ramp a b c d s t v w : rises ramp -> (a <= b)%Q -> (b <= c)%Q -> (c < d)%Q -> weight ramp a b c d s v -> weight ramp a b c d t w -> (s <= t)%Q ->
  ((t <= c)%Q -> (v <= w)%Q) /\ ((b <= s)%Q -> (w <= v)%Q).
Proof.
  intros R Hab Hbc Hcd (Bv & V1 & V2 & V3 & V4) (Bw & W1 & W2 & W3 & W4) L. split.
  - intro Tc. destruct (Qlt_le_dec t b) as [Tb|Tb]; [|rewrite (W1 (conj Tb Tc)); apply Bv].
    destruct (Qlt_le_dec s a) as [Sa|Sa]; [rewrite (V2 (or_introl Sa)); apply Bw|]. assert (Sb : (s < b)%Q) by lra. assert (Ta : (a <= t)%Q) by lra.
    rewrite (V3 (conj Sa Sb)), (W3 (conj Ta Tb)). assert (Hab' : (a < b)%Q) by lra. apply R; [apply share; lra| |apply share; lra].
    apply Qmult_le_compat_r; [lra|]. apply Qlt_le_weak, Qinv_lt_0_compat. lra.
  - intro Sb. destruct (Qlt_le_dec c s) as [Sc|Sc]; [|rewrite (V1 (conj Sb Sc)); apply Bw].
    destruct (Qlt_le_dec t d) as [Td|Td]; [|rewrite (W2 (or_intror Td)); apply Bv]. assert (Tc : (c < t)%Q) by lra. assert (Sd : (s < d)%Q) by lra.
    rewrite (V4 (conj Sc Sd)), (W4 (conj Tc Td)).
    assert (X : (ramp ((s - c) / (d - c)) <= ramp ((t - c) / (d - c)))%Q); [|lra]. apply R; [apply share; lra| |apply share; lra].
    apply Qmult_le_compat_r; [lra|]. apply Qlt_le_weak, Qinv_lt_0_compat. lra.
Qed.

Lemma slopes_ok names dims a b c d : (a <= b)%Q -> (b <= c)%Q -> (c <= d)%Q -> In (fst dims) names -> In (snd dims) names ->
  check_slopes names dims (SArray [a; b; c; d]) = Ok (a, b, c, d) /\ check_slopes names dims (SSeq [a; b; c; d]) = Ok (a, b, c, d).
Proof.
  intros H1 H2 H3 I1 I2. apply mem_dims in I1. apply mem_dims in I2. unfold check_slopes. cbn [slopes_of removelast tl]. split.
  - assert (K : all_le [a; b; c] [b; c; d] = true).
    { cbn. rewrite (proj2 (Qle_bool_iff a b) H1), (proj2 (Qle_bool_iff b c) H2), (proj2 (Qle_bool_iff c d) H3). reflexivity. }
    rewrite K, I1, I2. reflexivity.
  - assert (K : lex_le [a; b; c] [b; c; d] = true).
    { cbn. rewrite (proj2 (Qle_bool_iff a b) H1), (proj2 (Qle_bool_iff b c) H2), (proj2 (Qle_bool_iff c d) H3).
      destruct (Qeq_bool a b), (Qeq_bool b c), (Qeq_bool c d); reflexivity. }
    rewrite K, I1, I2. reflexivity.
Qed.
Lemma slopes_refused names dims :
  (forall l, zlen l <> 4 -> check_slopes names dims (SArray l) = Err ParameterError /\ check_slopes names dims (SSeq l) = Err ParameterError) /\
  (forall a b c d, ((b < a) \/ (c < b) \/ (d < c))%Q -> check_slopes names dims (SArray [a; b; c; d]) = Err ParameterError) /\
  (forall s, ~ In (fst dims) names \/ ~ In (snd dims) names -> check_slopes names dims s = Err ParameterError).
Proof.
  split; [|split].
  - intros l N. unfold check_slopes. cbn [slopes_of]. destruct l as [|a [|b [|c [|d [|e l]]]]]; try (split; reflexivity). contradiction N. reflexivity.
  - intros a b c d H. unfold check_slopes. cbn [slopes_of removelast tl].
    assert (K : all_le [a; b; c] [b; c; d] = false); [|rewrite K; reflexivity].
    destruct (all_le [a; b; c] [b; c; d]) eqn:E; [|reflexivity]. cbn in E. rewrite !Bool.andb_true_iff, !Qle_bool_iff in E. lra.
  - intros s H. unfold check_slopes. assert (K : mem (fst dims) names && mem (snd dims) names = false).
    { apply Bool.andb_false_iff. destruct H as [H|H]; [left|right]; destruct (mem _ names) eqn:E; try reflexivity; apply mem_dims in E; contradiction. }
    rewrite K. destruct (slopes_of s) as [|a [|b [|c [|d [|e l]]]]]; try reflexivity. destruct (negb _); reflexivity.
Qed.

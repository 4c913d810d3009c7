(** Lemmas about conversions between units. *)
From Coq Require Import QArith Qround Qfield List Strings.String Bool Lia Lqa.
From Verif Require Import Base BaseFacts FrameModel UnitsModel UnitsSpec.
Import ListNotations.
Local Open Scope Q_scope.

Lemma dim_eqb_eq a b : dim_eqb a b = true <-> a = b.
Proof. unfold dim_eqb. destruct (list_eq_dec Z.eq_dec a b); split; congruence. Qed.
Lemma dim_eqb_refl a : dim_eqb a a = true.
Proof. apply dim_eqb_eq. reflexivity. Qed.
Lemma dim_eqb_neq a b : a <> b -> dim_eqb a b = false.
Proof. intros H. destruct (dim_eqb a b) eqn:E; [|reflexivity]. apply dim_eqb_eq in E. contradiction. Qed.
Lemma Qeq_bool_false x y : ~ x == y -> Qeq_bool x y = false.
Proof. intros H. destruct (Qeq_bool x y) eqn:E; [|reflexivity]. apply Qeq_bool_iff in E. contradiction. Qed.
Lemma scale_nz u : proper_unit u -> ~ u_scale u == 0.
Proof. unfold proper_unit. intros H E. rewrite E in H. exact (Qlt_irrefl _ H). Qed.

(** The factors of two units of one dimensionality. *)
Lemma factors_ok f t : same_dim f t -> ~ q_mag t == 0 ->
  exists m1 a m2, conversion_factors f t = Ok (m1, a, m2) /\
    m1 == u_scale (q_unit f) / u_scale (q_unit t) * q_mag f /\
    a == (u_off (q_unit f) - u_off (q_unit t)) / u_scale (q_unit t) /\ m2 == 1 / q_mag t.
Proof.
  unfold same_dim. intros D N. unfold conversion_factors, to_unit. cbn [q_unit q_mag delta u_dim u_scale u_off].
  rewrite D, dim_eqb_refl. cbn [bind]. rewrite (Qeq_bool_false _ _ N).
  do 3 eexists. split; [reflexivity|]. split; [|split].
  - assert (E : 1 * u_scale (q_unit f) + 0 - 0 == u_scale (q_unit f)) by ring. rewrite E. reflexivity.
  - assert (E : 0 * u_scale (q_unit f) + u_off (q_unit f) - u_off (q_unit t) == u_off (q_unit f) - u_off (q_unit t)) by ring.
    rewrite E. reflexivity.
  - reflexivity.
Qed.
Lemma factors_err f t : ~ same_dim f t -> conversion_factors f t = Err UnitError.
Proof.
  unfold same_dim. intros D. unfold conversion_factors, to_unit. cbn [q_unit q_mag].
  rewrite (dim_eqb_neq _ _ D). reflexivity.
Qed.
Lemma factors_inv f t r : conversion_factors f t = Ok r -> same_dim f t /\ ~ q_mag t == 0.
Proof.
  intros H. destruct (list_eq_dec Z.eq_dec (u_dim (q_unit f)) (u_dim (q_unit t))) as [D|D].
  - split; [exact D|]. revert H. unfold conversion_factors, to_unit. cbn [q_unit q_mag delta u_dim].
    rewrite D, dim_eqb_refl. cbn [bind]. destruct (Qeq_bool (q_mag t) 0) eqn:E; [discriminate|].
    intros _ Z. apply Qeq_bool_iff in Z. congruence.
  - rewrite (factors_err f t) in H by exact D. discriminate.
Qed.

Lemma apply_stands f t m1 a m2 x : proper_unit (q_unit t) -> ~ q_mag t == 0 ->
  m1 == u_scale (q_unit f) / u_scale (q_unit t) * q_mag f ->
  a == (u_off (q_unit f) - u_off (q_unit t)) / u_scale (q_unit t) -> m2 == 1 / q_mag t ->
  stands_for (apply_factors (m1, a, m2) x) t == stands_for x f.
Proof.
  intros P N E1 E2 E3. pose proof (scale_nz _ P) as S. unfold stands_for, apply_factors. rewrite E1, E2, E3.
  field. split; assumption.
Qed.

Lemma stands_inj x y t : proper t -> stands_for x t == stands_for y t -> x == y.
Proof.
  intros [P N] H. pose proof (scale_nz _ P) as S. unfold stands_for in H.
  assert (K : ~ q_mag t * u_scale (q_unit t) == 0) by (intros Z; destruct (Qmult_integral _ _ Z); contradiction).
  apply (Qmult_inj_r x y _ K). setoid_replace (x * (q_mag t * u_scale (q_unit t))) with
    (x * q_mag t * u_scale (q_unit t) + u_off (q_unit t) - u_off (q_unit t)) by ring.
  rewrite H. ring.
Qed.

Lemma converter_ok f t : same_dim f t -> proper t ->
  exists g, converter (Some t) (Some f) = Ok g /\ (forall x, stands_for (g x) t == stands_for x f) /\
    exists m1 a m2, g = apply_factors (m1, a, m2).
Proof.
  intros D [P N]. destruct (factors_ok f t D N) as (m1 & a & m2 & E & E1 & E2 & E3).
  exists (apply_factors (m1, a, m2)). split; [unfold converter; rewrite E; reflexivity|]. split.
  - intros x. apply apply_stands; assumption.
  - eauto.
Qed.
Lemma convert_ok x f t : same_dim f t -> proper t ->
  exists y, convert x (Some t) (Some f) = Ok y /\ stands_for y t == stands_for x f /\
    forall z, stands_for z t == stands_for x f -> z == y.
Proof.
  intros D P. destruct (converter_ok f t D P) as (g & E & G & _).
  exists (g x). unfold convert. rewrite E. split; [reflexivity|]. split; [apply G|].
  intros z Z. apply (stands_inj _ _ t P). rewrite Z, G. reflexivity.
Qed.
Lemma convert_err x f t : ~ same_dim f t -> convert x (Some t) (Some f) = Err UnitError.
Proof. intros D. unfold convert, converter. rewrite (factors_err f t D). reflexivity. Qed.

Lemma convert_back x y f t : proper f -> proper t ->
  convert x (Some t) (Some f) = Ok y -> exists z, convert y (Some f) (Some t) = Ok z /\ z == x.
Proof.
  intros Pf Pt H. assert (D : same_dim f t).
  { unfold convert, converter in H. destruct (conversion_factors f t) eqn:E; [|discriminate]. exact (proj1 (factors_inv _ _ _ E)). }
  destruct (convert_ok x f t D Pt) as (y' & Hy & Sy & _). rewrite H in Hy. injection Hy as <-.
  destruct (convert_ok y t f (eq_sym D) Pf) as (z & Hz & Sz & _). exists z. split; [exact Hz|].
  apply (stands_inj _ _ f Pf). rewrite Sz. exact Sy.
Qed.
Lemma convert_via x y z w f t u : proper t -> proper u ->
  convert x (Some t) (Some f) = Ok y -> convert y (Some u) (Some t) = Ok z ->
  convert x (Some u) (Some f) = Ok w -> z == w.
Proof.
  intros Pt Pu H1 H2 H3.
  assert (D : forall a b p q, convert a (Some q) (Some p) = Ok b -> same_dim p q).
  { intros a b p q H. unfold convert, converter in H. destruct (conversion_factors p q) eqn:E; [|discriminate]. exact (proj1 (factors_inv _ _ _ E)). }
  destruct (convert_ok x f t (D _ _ _ _ H1) Pt) as (y' & E1 & S1 & _). rewrite H1 in E1. injection E1 as <-.
  destruct (convert_ok y t u (D _ _ _ _ H2) Pu) as (z' & E2 & S2 & _). rewrite H2 in E2. injection E2 as <-.
  destruct (convert_ok x f u (D _ _ _ _ H3) Pu) as (w' & E3 & S3 & _). rewrite H3 in E3. injection E3 as <-.
  apply (stands_inj _ _ u Pu). rewrite S2, S1, S3. reflexivity.
Qed.

(** ** The cache *)

Lemma quant_eqb_iff p q : quant_eqb p q = true <-> same_dim p q /\ in_base p == in_base q.
Proof.
  unfold quant_eqb, same_dim. rewrite andb_true_iff, dim_eqb_eq, Qeq_bool_iff. reflexivity.
Qed.

(** Every entry holds the factors of its key. *)
Definition entries_ok (c : cache) : Prop :=
  Forall (fun e => conversion_factors (fst (fst e)) (snd (fst e)) = Ok (snd e)) c.
Definition known (P : quant -> Prop) (c : cache) : Prop :=
  Forall (fun e => P (fst (fst e)) /\ P (snd (fst e))) c.

Lemma cache_get_in c f t r : cache_get c f t = Some r ->
  exists f' t', In (f', t', r) c /\ quant_eqb f' f = true /\ quant_eqb t' t = true.
Proof.
  induction c as [|[[f' t'] r'] rest IH]; cbn [cache_get]; [discriminate|].
  destruct (quant_eqb f' f && quant_eqb t' t) eqn:E.
  - intros H. injection H as <-. apply andb_true_iff in E. exists f', t'. split; [left; reflexivity|tauto].
  - intros H. destruct (IH H) as (a & b & I & K). exists a, b. split; [right; exact I|exact K].
Qed.

Lemma factors_agree f f' t t' r r' x : proper_unit (q_unit t) -> proper_unit (q_unit t') ->
  conversion_factors f t = Ok r -> conversion_factors f' t' = Ok r' ->
  quant_eqb f' f = true -> quant_eqb t' t = true ->
  u_off (q_unit f') == u_off (q_unit f) -> u_off (q_unit t') == u_off (q_unit t) ->
  apply_factors r' x == apply_factors r x.
Proof.
  intros P P' E E' Kf Kt Of Ot. apply quant_eqb_iff in Kf. apply quant_eqb_iff in Kt.
  destruct Kf as [Df Bf], Kt as [Dt Bt].
  destruct (factors_inv _ _ _ E) as [D N]. destruct (factors_inv _ _ _ E') as [D' N'].
  destruct (factors_ok f t D N) as (m1 & a & m2 & F & F1 & F2 & F3). rewrite E in F. injection F as ->.
  destruct (factors_ok f' t' D' N') as (m1' & a' & m2' & F' & F1' & F2' & F3'). rewrite E' in F'. injection F' as ->.
  assert (S1 : stands_for (apply_factors (m1', a', m2') x) t' == stands_for x f') by (apply apply_stands; assumption).
  assert (S2 : stands_for (apply_factors (m1, a, m2) x) t == stands_for x f) by (apply apply_stands; assumption).
  assert (PR : proper t) by (split; assumption).
  apply (stands_inj _ _ t PR). rewrite S2.
  unfold in_base in Bf, Bt. rewrite Of in Bf. rewrite Ot in Bt.
  assert (Gf : q_mag f' * u_scale (q_unit f') == q_mag f * u_scale (q_unit f)) by lra.
  assert (Gt : q_mag t' * u_scale (q_unit t') == q_mag t * u_scale (q_unit t)) by lra.
  unfold stands_for in S1 |- *. rewrite Ot in S1. rewrite Of in S1.
  set (y := apply_factors (m1', a', m2') x) in *. clearbody y.
  setoid_replace (y * q_mag t * u_scale (q_unit t)) with (y * (q_mag t * u_scale (q_unit t))) by ring. rewrite <- Gt.
  setoid_replace (x * q_mag f * u_scale (q_unit f)) with (x * (q_mag f * u_scale (q_unit f))) by ring. rewrite <- Gf.
  rewrite !Qmult_assoc. exact S1.
Qed.

Definition told_apart (P : quant -> Prop) : Prop :=
  (forall q, P q -> proper_unit (q_unit q)) /\
  forall p q, P p -> P q -> quant_eqb p q = true -> u_off (q_unit p) == u_off (q_unit q).

Lemma in_base_zero_mag p q : in_base p == in_base q -> u_off (q_unit p) == u_off (q_unit q) -> proper_unit (q_unit p) ->
  q_mag q == 0 -> q_mag p == 0.
Proof.
  unfold in_base. intros B O P Z. rewrite Z, O in B. pose proof (scale_nz _ P) as S.
  assert (E : q_mag p * u_scale (q_unit p) == 0) by lra.
  destruct (Qmult_integral _ _ E); [assumption|contradiction].
Qed.

Lemma convert_all_ok P c data to from : told_apart P -> entries_ok c -> known P c ->
  (forall q, mentions (data, to, from) q -> P q) ->
  same_answer (fst (convert_all c data to from)) (answer (data, to, from)) /\
  entries_ok (snd (convert_all c data to from)) /\ known P (snd (convert_all c data to from)).
Proof.
  intros [PU PT] E K M. unfold convert_all, answer.
  destruct from as [f|]; [|cbn; split; [|tauto]; rewrite map_id; clear; induction data; constructor; [reflexivity|assumption]].
  destruct to as [t|]; [|cbn; tauto].
  assert (Pf : P f) by (apply M; right; reflexivity). assert (Pt : P t) by (apply M; left; reflexivity).
  unfold cached_factors. destruct (cache_get c f t) as [r|] eqn:G.
  - cbn [fst snd]. split; [|tauto]. destruct (cache_get_in _ _ _ _ G) as (f' & t' & I & Kf & Kt).
    assert (E' : conversion_factors f' t' = Ok r) by (unfold entries_ok in E; rewrite Forall_forall in E; exact (E _ I)).
    assert (K' : P f' /\ P t') by (unfold known in K; rewrite Forall_forall in K; exact (K _ I)).
    destruct K' as [Pf' Pt'].
    destruct (factors_inv _ _ _ E') as [D' N'].
    pose proof (proj1 (quant_eqb_iff _ _) Kf) as [Df Bf]. pose proof (proj1 (quant_eqb_iff _ _) Kt) as [Dt Bt].
    pose proof (PT _ _ Pt' Pt Kt) as Ot. pose proof (PT _ _ Pf' Pf Kf) as Of.
    assert (N : ~ q_mag t == 0).
    { intros Z. apply N'. exact (in_base_zero_mag _ _ Bt Ot (PU _ Pt') Z). }
    assert (D : same_dim f t) by (unfold same_dim in *; congruence).
    destruct (factors_ok f t D N) as (m1 & a & m2 & F & _). unfold converter. rewrite F. cbn [bind same_answer].
    clear M K E G I. induction data as [|x l IH]; constructor; [|exact IH].
    exact (factors_agree f f' t t' _ _ x (PU _ Pt) (PU _ Pt') F E' Kf Kt Of Ot).
  - unfold converter. destruct (conversion_factors f t) as [r|e] eqn:F; cbn [fst snd bind same_answer].
    + split; [|split].
      * clear. induction data; constructor; [reflexivity|assumption].
      * constructor; [exact F|exact E].
      * constructor; [cbn; tauto|exact K].
    + split; [reflexivity|tauto].
Qed.

Lemma run_calls_ok P c calls : told_apart P -> entries_ok c -> known P c ->
  (forall k q, In k calls -> mentions k q -> P q) ->
  Forall2 same_answer (run_calls c calls) (map answer calls).
Proof.
  intros T. revert c. induction calls as [|[[data to] from] rest IH]; intros c E K M; cbn [run_calls map]; [constructor|].
  destruct (convert_all_ok P c data to from T E K (fun q => M _ q (or_introl eq_refl))) as (A & E' & K').
  destruct (convert_all c data to from) as [r c'] eqn:Q. cbn [fst snd] in A, E', K'.
  constructor; [exact A|]. apply IH; [exact E'|exact K'|].
  intros k q I. apply M. right. exact I.
Qed.
Lemma history_ok calls :
  (forall k q, In k calls -> mentions k q -> proper_unit (q_unit q)) ->
  (forall k k' p q, In k calls -> In k' calls -> mentions k p -> mentions k' q ->
     quant_eqb p q = true -> u_off (q_unit p) == u_off (q_unit q)) ->
  Forall2 same_answer (run_calls [] calls) (map answer calls).
Proof.
  intros H1 H2. apply (run_calls_ok (fun q => exists k, In k calls /\ mentions k q)).
  - split; [intros q (k & I & M); exact (H1 k q I M)|].
    intros p q (k & I & M) (k' & I' & M'). exact (H2 k k' p q I I' M M').
  - constructor.
  - constructor.
  - intros k q I M. exists k. tauto.
Qed.

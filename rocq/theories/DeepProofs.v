(** Proofs for deep equality (C99). *)
From Verif Require Import Base BaseFacts CmModel FrameModel CmProofs DeepModel DeepSpec.
From Coq Require Import Strings.String Lia Arith.
Local Open Scope list_scope.

Lemma all_of_false {K} (f : K -> option bool) l : all_of f l = Some false -> exists k, In k l /\ f k = Some false.
Proof.
  induction l as [|k t IH]; [discriminate|]. cbn. destruct (f k) as [[]|] eqn:E; [|intros _; exists k; auto|discriminate]. intros H. destruct (IH H) as (x & I & F). exists x. auto.
Qed.
Lemma all_of_true {K} (f : K -> option bool) l : all_of f l = Some true -> forall k, In k l -> f k = Some true.
Proof.
  induction l as [|k t IH]; [intros _ k []|]. cbn. destruct (f k) as [[]|] eqn:E; try discriminate. intros H x [<-|I]; auto.
Qed.
Lemma all_of_total {K} (f : K -> option bool) l : (forall k, In k l -> f k <> None) -> all_of f l <> None.
Proof.
  induction l as [|k t IH]; intros H; [discriminate|]. cbn. destruct (f k) as [[]|] eqn:E; [|discriminate|].
  - apply IH. intros x I. apply H. right. exact I.
  - exfalso. apply (H k); [left; reflexivity|exact E].
Qed.
Lemma all_of_ext {K} (f g : K -> option bool) l : (forall k, In k l -> f k = g k) -> all_of f l = all_of g l.
Proof.
  induction l as [|k t IH]; intros H; [reflexivity|]. cbn. rewrite (H k) by (left; reflexivity). rewrite IH; [reflexivity|]. intros x I. apply H. right. exact I.
Qed.
Lemma same_keys_iff e e' : same_keys e e' = true <-> forall k, In k (map fst e) <-> In k (map fst e').
Proof.
  unfold same_keys. rewrite andb_true_iff, !forallb_forall. split.
  - intros [A B] k. split; intros I; [apply A in I|apply B in I]; apply mem_In' in I; exact I.
  - intros H. split; intros k I; apply mem_In'; apply H; exact I.
Qed.
Lemma seen_iff vis a b : seen vis a b = true <-> In (a, b) vis \/ In (b, a) vis.
Proof.
  unfold seen. rewrite existsb_exists. split.
  - intros ([x y] & I & H). cbn in H. apply orb_true_iff in H as [H|H]; apply andb_true_iff in H as [H1 H2]; apply Nat.eqb_eq in H1, H2; subst; auto.
  - intros [I|I]; eexists; (split; [exact I|]); cbn; rewrite !Nat.eqb_refl; [reflexivity|apply orb_true_r].
Qed.

Section Deep.
  Variable robust equals : nat -> nat -> bool.
  Variable h : heap.
  Notation deep := (deep_equal robust equals h).
  Notation diff := (differ robust equals h).

  Lemma maps_dec a b : both_maps h a b \/ ~ both_maps h a b.
  Proof. unfold both_maps. destruct (map_of h a), (map_of h b); [left; split; discriminate|right|right|right]; intros [A B]; congruence. Qed.
  Lemma equals_dec a b : both_equals h a b \/ ~ both_equals h a b.
  Proof. unfold both_equals. destruct (has_equals h a), (has_equals h b); [left; auto|right|right|right]; intros [A B]; congruence. Qed.

  (** The cases of a comparison of values. *)
  Lemma values_cases rec x y : x <> y ->
    (exists x' y', leads h x y x' y' /\ compare_values robust equals h rec x y = rec x' y') \/
    (compare_values robust equals h rec x y = Some true /\ ~ told_apart robust equals h x y /\ forall x' y', ~ leads h x y x' y') \/
    (compare_values robust equals h rec x y = Some false /\ told_apart robust equals h x y).
  Proof.
    intros N. unfold compare_values. rewrite (proj2 (Nat.eqb_neq x y) N).
    destruct (maps_dec x y) as [M|M].
    { left. exists x, y. split; [constructor; exact M|]. destruct M as [A B]. destruct (map_of h x); [|contradiction]. destruct (map_of h y); [reflexivity|contradiction]. }
    assert (C : match map_of h x, map_of h y with
                | Some _, Some _ => rec x y
                | _, _ => if has_equals h x && has_equals h y then Some (equals x y) else match dict_of h x, dict_of h y with Some d, Some d' => rec d d' | _, _ => Some (robust x y) end
                end = if has_equals h x && has_equals h y then Some (equals x y) else match dict_of h x, dict_of h y with Some d, Some d' => rec d d' | _, _ => Some (robust x y) end).
    { unfold both_maps in M. destruct (map_of h x), (map_of h y); try reflexivity. exfalso. apply M. split; discriminate. }
    rewrite C. clear C. destruct (equals_dec x y) as [Q|Q].
    - destruct Q as [Q1 Q2]. rewrite Q1, Q2. cbn [andb]. destruct (equals x y) eqn:E; [right; left|right; right].
      + split; [reflexivity|]. split; [intros [_ _ T|_ T _ _]; [congruence|apply T; split; assumption]|]. intros x' y' [T|d d' _ T _ _]; [contradiction|apply T; split; assumption].
      + split; [reflexivity|]. apply apart_equals; [exact M|split; assumption|exact E].
    - assert (C : (has_equals h x && has_equals h y)%bool = false). { unfold both_equals in Q. destruct (has_equals h x), (has_equals h y); try reflexivity. exfalso. apply Q. auto. }
      rewrite C. destruct (dict_of h x) as [d|] eqn:D; [destruct (dict_of h y) as [d'|] eqn:D'|].
      + left. exists d, d'. split; [apply lead_dicts; assumption|reflexivity].
      + assert (ND : ~ both_dicts h x y) by (intros [_ T]; congruence). destruct (robust x y) eqn:E; [right; left|right; right]; (split; [reflexivity|]).
        * split; [intros [_ T _|_ _ _ T]; [contradiction|congruence]|]. intros x' y' [T|? ? _ _ T1 T2]; [contradiction|congruence].
        * apply apart_plain; assumption.
      + assert (ND : ~ both_dicts h x y) by (intros [T _]; congruence). destruct (robust x y) eqn:E; [right; left|right; right]; (split; [reflexivity|]).
        * split; [intros [_ T _|_ _ _ T]; [contradiction|congruence]|]. intros x' y' [T|? ? _ _ T1 T2]; [contradiction|congruence].
        * apply apart_plain; assumption.
  Qed.
  Lemma leads_fun x y a b a' b' : leads h x y a b -> leads h x y a' b' -> a = a' /\ b = b'.
  Proof. intros [M|d d' M _ D D'] [N|c c' N _ C C']; try contradiction; [auto|]. split; congruence. Qed.
  Lemma apart_leads x y a b : told_apart robust equals h x y -> ~ leads h x y a b.
  Proof. intros [M E _|M E D _] [N|d d' N NE C C']; try contradiction. apply D. split; congruence. Qed.

  (** Differences that are reached in so many steps. *)
  Inductive diffn : nat -> nat -> nat -> Prop :=
    | dn_plain n a b : ~ both_maps h a b -> robust a b = false -> diffn n a b
    | dn_keys n a b e e' : map_of h a = Some e -> map_of h b = Some e' -> ~ (forall k, In k (map fst e) <-> In k (map fst e')) -> diffn n a b
    | dn_value n a b e e' k x y : map_of h a = Some e -> map_of h b = Some e' -> assoc k e = Some x -> assoc k e' = Some y -> x <> y -> told_apart robust equals h x y -> diffn n a b
    | dn_below n a b e e' k x y x' y' : map_of h a = Some e -> map_of h b = Some e' -> assoc k e = Some x -> assoc k e' = Some y -> x <> y -> leads h x y x' y' -> diffn n x' y' -> diffn (S n) a b.
  Lemma diffn_of a b : diff a b -> exists n, diffn n a b.
  Proof.
    induction 1 as [a b M R|a b e e' E E' K|a b e e' k x y E E' A A' N T|a b e e' k x y x' y' E E' A A' N L _ [n IH]].
    - exists 0%nat. apply dn_plain; assumption.
    - exists 0%nat. eapply dn_keys; eassumption.
    - exists 0%nat. eapply dn_value; eassumption.
    - exists (S n). eapply dn_below; eassumption.
  Qed.
  Hypothesis RS : symmetric robust.
  Hypothesis ES : symmetric equals.
  Lemma maps_sym a b : both_maps h a b -> both_maps h b a. Proof. intros [A B]. split; assumption. Qed.
  Lemma equals_sym a b : both_equals h a b -> both_equals h b a. Proof. intros [A B]. split; assumption. Qed.
  Lemma dicts_sym a b : both_dicts h a b -> both_dicts h b a. Proof. intros [A B]. split; assumption. Qed.
  Lemma apart_sym x y : told_apart robust equals h x y -> told_apart robust equals h y x.
  Proof.
    intros [M E Q|M E D Q].
    - apply apart_equals; [intros T; apply M, maps_sym, T|apply equals_sym, E|rewrite ES; exact Q].
    - apply apart_plain; [intros T; apply M, maps_sym, T|intros T; apply E, equals_sym, T|intros T; apply D, dicts_sym, T|rewrite RS; exact Q].
  Qed.
  Lemma leads_sym x y a b : leads h x y a b -> leads h y x b a.
  Proof. intros [M|d d' M E D D']; [constructor; apply maps_sym, M|]. apply lead_dicts; [intros T; apply M, maps_sym, T|intros T; apply E, equals_sym, T|assumption|assumption]. Qed.
  Lemma diffn_sym n a b : diffn n a b -> diffn n b a.
  Proof.
    induction 1 as [n a b M R|n a b e e' E E' K|n a b e e' k x y E E' A A' N T|n a b e e' k x y x' y' E E' A A' N L _ IH].
    - apply dn_plain; [intros T; apply M, maps_sym, T|rewrite RS; exact R].
    - eapply dn_keys; [exact E'|exact E|]. intros Q. apply K. intros k. symmetry. apply Q.
    - eapply dn_value; [exact E'|exact E|exact A'|exact A|congruence|apply apart_sym, T].
    - eapply dn_below; [exact E'|exact E|exact A'|exact A|congruence|apply leads_sym, L|exact IH].
  Qed.
  Lemma diffn_mono n m a b : diffn n a b -> (n <= m)%nat -> diffn m a b.
  Proof.
    intros D. revert m. induction D as [n a b M R|n a b e e' E E' K|n a b e e' k x y E E' A A' N T|n a b e e' k x y x' y' E E' A A' N L _ IH]; intros m LE.
    - apply dn_plain; assumption.
    - eapply dn_keys; eassumption.
    - eapply dn_value; eassumption.
    - destruct m as [|m]; [lia|]. eapply dn_below; try eassumption. apply IH. lia.
  Qed.

  (** Differences are found: no fuel makes the answer True. *)
  Lemma found n : forall a b vis fuel, diffn n a b -> (forall x y, In (x, y) vis -> ~ diffn n x y) -> deep fuel vis a b <> Some true.
  Proof.
    induction n as [n IH] using lt_wf_ind. intros a b vis fuel D V H0. pose proof H0 as H. destruct fuel as [|f]; [discriminate|]. cbn [deep_equal] in H.
    destruct (seen vis a b) eqn:SE. { apply seen_iff in SE as [I|I]; [exact (V _ _ I D)|exact (V _ _ I (diffn_sym _ _ _ D))]. }
    inversion D as [n' a' b' M R|n' a' b' e e' E E' K|n' a' b' e e' k x y E E' A A' N T|m a' b' e e' k x y x' y' E E' A A' N L D']; subst.
    - unfold both_maps in M. destruct (map_of h a), (map_of h b); try congruence. apply M. split; discriminate.
    - rewrite E, E' in H. destruct (same_keys e e') eqn:Q; [apply K, same_keys_iff, Q|discriminate].
    - rewrite E, E' in H. destruct (same_keys e e'); [|discriminate]. pose proof (all_of_true _ _ H k) as H'. cbn beta in H'. rewrite A, A' in H'.
      assert (I : In k (map fst e)) by (apply assoc_In; eauto). specialize (H' I). destruct (values_cases (deep f ((a, b) :: vis)) x y N) as [(p & q & L & _)|[(_ & NT & _)|(Q & _)]]; [exact (apart_leads _ _ _ _ T L)|contradiction|congruence].
    - rewrite E, E' in H. destruct (same_keys e e'); [|discriminate]. pose proof (all_of_true _ _ H k) as H'. cbn beta in H'. rewrite A, A' in H'.
      assert (I : In k (map fst e)) by (apply assoc_In; eauto). specialize (H' I). destruct (values_cases (deep f ((a, b) :: vis)) x y N) as [(p & q & L2 & Q)|[(_ & _ & NL)|(Q & T)]].
      + destruct (leads_fun _ _ _ _ _ _ L L2) as [<- <-]. rewrite Q in H'.
        assert (V' : forall u v, In (u, v) vis -> ~ diffn m u v) by (intros u v Iv Dv; apply (V _ _ Iv); apply (diffn_mono m); [exact Dv|lia]).
        assert (J : ~ diffn m a b) by (intros J; exact (IH m ltac:(lia) a b vis (S f) J V' H0)).
        revert H'. apply (IH m ltac:(lia) _ _ _ _ D'). intros u v [[= <- <-]|Iv]; [exact J|exact (V' _ _ Iv)].
      + exact (NL _ _ L).
      + exact (apart_leads _ _ _ _ T L).
  Qed.
  (** Differences that are said to exist do. *)
  Lemma only fuel : forall vis a b, deep fuel vis a b = Some false -> diff a b.
  Proof.
    induction fuel as [|f IH]; intros vis a b H; [discriminate|]. cbn [deep_equal] in H. destruct (seen vis a b); [discriminate|].
    destruct (maps_dec a b) as [[M1 M2]|M].
    - destruct (map_of h a) as [e|] eqn:E; [|contradiction]. destruct (map_of h b) as [e'|] eqn:E'; [|contradiction]. destruct (same_keys e e') eqn:SK.
      + apply all_of_false in H as (k & I & H). destruct (assoc k e) as [x|] eqn:A; [|discriminate]. destruct (assoc k e') as [y|] eqn:A'; [|discriminate].
        destruct (Nat.eq_dec x y) as [->|N]; [unfold compare_values in H; rewrite Nat.eqb_refl in H; discriminate|].
        destruct (values_cases (deep f ((a, b) :: vis)) x y N) as [(p & q & L & Q)|[(Q & _)|(_ & T)]]; [|congruence|eapply differ_value; eassumption].
        eapply differ_below; try eassumption. eapply IH. rewrite <- Q. exact H.
      + eapply differ_keys; [exact E|exact E'|]. intros Q. apply same_keys_iff in Q. congruence.
    - apply differ_plain; [exact M|]. unfold both_maps in M. destruct (map_of h a), (map_of h b); try congruence. exfalso. apply M. split; discriminate.
  Qed.
  (** It ends. *)
  Lemma map_range a e : map_of h a = Some e -> (a < List.length h)%nat.
  Proof. unfold map_of. intros H. apply nth_error_Some. destruct (nth_error h a); discriminate. Qed.
  Lemma pigeon (vis : list (nat * nat)) : NoDup vis -> (forall a b, In (a, b) vis -> (a < List.length h)%nat /\ (b < List.length h)%nat) -> (List.length vis <= List.length h * List.length h)%nat.
  Proof.
    intros N H. assert (Q : (List.length h * List.length h)%nat = List.length (list_prod (seq 0 (List.length h)) (seq 0 (List.length h)))) by (rewrite prod_length, !seq_length; reflexivity).
    rewrite Q. apply NoDup_incl_length; [exact N|]. intros [a b] I. apply in_prod; apply in_seq; destruct (H a b I); lia.
  Qed.
  Lemma ends fuel : forall vis a b, NoDup vis -> (forall a b, In (a, b) vis -> (a < List.length h)%nat /\ (b < List.length h)%nat) ->
    (List.length h * List.length h < fuel + List.length vis)%nat -> deep fuel vis a b <> None.
  Proof.
    induction fuel as [|f IH]; intros vis a b N R L; [pose proof (pigeon vis N R); cbn in L; lia|]. cbn [deep_equal]. destruct (seen vis a b) eqn:SE; [discriminate|].
    destruct (map_of h a) as [e|] eqn:E; [|discriminate]. destruct (map_of h b) as [e'|] eqn:E'; [|discriminate]. destruct (same_keys e e'); [|discriminate].
    apply all_of_total. intros k _. destruct (assoc k e) as [x|]; [|discriminate]. destruct (assoc k e') as [y|]; [|discriminate].
    assert (REC : forall x y, deep f ((a, b) :: vis) x y <> None).
    { intros u v. apply IH.
      - constructor; [|exact N]. intros I. assert (T : seen vis a b = true) by (apply seen_iff; auto). congruence.
      - intros p q [[= <- <-]|I]; [split; eapply map_range; eassumption|apply R, I].
      - cbn [List.length]. lia. }
    unfold compare_values. destruct (Nat.eqb x y); [discriminate|]. destruct (map_of h x), (map_of h y); try apply REC; destruct (has_equals h x && has_equals h y); try discriminate; destruct (dict_of h x), (dict_of h y); try discriminate; apply REC.
  Qed.
  Theorem decides a b fuel : (List.length h * List.length h < fuel)%nat -> exists r, deep fuel [] a b = Some r /\ (r = false <-> diff a b).
  Proof.
    intros L. destruct (deep fuel [] a b) as [r|] eqn:E; [|exfalso; revert E; apply ends; [constructor|intros ? ? []|cbn; lia]]. exists r. split; [reflexivity|]. split.
    - intros ->. eapply only, E.
    - intros D. destruct r; [|reflexivity]. exfalso. apply diffn_of in D as [n D]. apply (found n a b [] fuel D); [intros ? ? []|exact E].
  Qed.
  Theorem deep_sym a b fuel : (List.length h * List.length h < fuel)%nat -> deep fuel [] a b = deep fuel [] b a.
  Proof.
    intros L. destruct (decides a b fuel L) as (r & E & R). destruct (decides b a fuel L) as (r' & E' & R'). rewrite E, E'. f_equal.
    assert (S : diff a b <-> diff b a). { assert (H : forall u v, diff u v -> diff v u); [|split; apply H]. intros u v D. apply diffn_of in D as [n D]. apply diffn_sym in D. clear -D. induction D; [eapply differ_plain|eapply differ_keys|eapply differ_value|eapply differ_below]; eassumption. }
    destruct r, r'; try reflexivity; [apply R, S, R'; reflexivity|symmetry; apply R', S, R; reflexivity].
  Qed.
End Deep.
Theorem deep_self robust equals h a fuel : map_of h a <> None -> deep_equal robust equals h (S fuel) [] a a = Some true.
Proof.
  intros M. cbn [deep_equal seen existsb]. destruct (map_of h a) as [e|]; [|contradiction]. rewrite (proj2 (same_keys_iff e e)) by (intros; reflexivity).
  rewrite (all_of_ext _ (fun _ => Some true)); [induction (map fst e); auto|]. intros k _. destruct (assoc k e); [|reflexivity]. unfold compare_values. rewrite Nat.eqb_refl. reflexivity.
Qed.
Lemma reads h a : (forall e, map_of h a = Some e <-> nth_error h a = Some (NMap e)) /\
  (has_equals h a = true <-> exists d, nth_error h a = Some (NThing true d)) /\ (forall d, dict_of h a = Some d <-> exists b, nth_error h a = Some (NThing b (Some d))).
Proof.
  unfold map_of, has_equals, dict_of. destruct (nth_error h a) as [[e0|b d0]|]; (split; [|split]).
  1,4,7: intros e; split; congruence.
  1,3,5: split; [intros E; try discriminate; subst; eauto|intros [d E]; try discriminate; congruence].
  all: intros d; split; [intros E; try discriminate; subst; eauto|intros [x E]; try discriminate; congruence].
Qed.

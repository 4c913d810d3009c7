(** Lemmas behind TrendProps.v: slant stacks. *)
From Verif Require Import Base BaseFacts CoordModel CoordSpec CoordProofs CoordProofs3 CoordProofs5 NdModel NdSpec NdProofs NdProofs2 FrameModel ChunkModel ChunkProofs2
  CmModel CmSpec CmProofs CmProofs3 CmProofs13 TaperProofs2 TaperProofs4 ReadProofs MuteModel MuteProofs2 CalcModel CalcSpec CalcProofs CalcProofs3
  MoveModel MoveSpec MoveProofs MoveProofs5 TrendModel TrendSpec TrendProofs TrendProofs2 TrendProofs3.
From Coq Require Import Strings.String ZifyBool QArith Qpower Qabs Lqa.
Local Open Scope Z_scope.
Local Open Scope list_scope.

Lemma trunc_floor s : (0 <= s)%Q -> 0 <= q_trunc s /\ (inject_Z (q_trunc s) <= s)%Q /\ (s < inject_Z (q_trunc s) + 1)%Q.
Proof.
  intros P. destruct s as [a b]. unfold q_trunc. cbn [Qnum Qden]. assert (A : 0 <= a) by (unfold Qle in P; cbn in P; lia).
  rewrite Z.quot_div_nonneg by lia. set (q := a / Z.pos b). assert (E := Z.div_mod a (Z.pos b) ltac:(lia)). assert (R := Z.mod_pos_bound a (Z.pos b) ltac:(lia)). fold q in E.
  split; [apply Z.div_pos; lia|]. change (inject_Z q + 1)%Q with (inject_Z q + inject_Z 1)%Q. rewrite <- inject_Z_plus. unfold inject_Z, Qle, Qlt. cbn [Qnum Qden]. nia.
Qed.
Lemma between_reads f s : (0 <= s)%Q -> exists v, interpolated f s (q_trunc s) = Some v /\ reads_at f s v.
Proof.
  intros P. destruct (trunc_floor s P) as (I & L & U). set (i := q_trunc s) in *. clearbody i. unfold interpolated, py_get.
  destruct (i + 1 <? zlen f) eqn:E.
  - destruct (i <? 0) eqn:E1; [lia|]. destruct (i + 1 <? 0) eqn:E2; [lia|].
    rewrite !znth_at by lia. eexists. split; [reflexivity|]. exists i. split; [exact L|]. split; [exact U|]. split; [|lia].
    intros _. exists (at_ f i), (at_ f (i + 1)). rewrite !znth_at by lia. split; [reflexivity|]. split; [reflexivity|]. ring.
  - eexists. split; [reflexivity|]. exists i. split; [exact L|]. split; [exact U|]. split; [lia|]. intros _. reflexivity.
Qed.
Lemma stacked_ok rows (sh : Z -> Q) : (forall k, 0 <= k < zlen rows -> (0 <= sh k)%Q) ->
  exists v vs, stacked (fun f k => interpolated f (sh k) (q_trunc (sh k))) rows = Some v /\ zlen vs = zlen rows /\ v = qsum vs /\
    forall k f, znth rows k = Some f -> exists x, znth vs k = Some x /\ reads_at f (sh k) x.
Proof.
  intros P. unfold stacked. destruct (traverse_total (fun e => interpolated (snd e) (sh (fst e)) (q_trunc (sh (fst e)))) (combine (zrange (zlen rows)) rows)) as [vs T].
  - intros [k f] I. apply in_combine_l in I. apply in_zrange in I. destruct (between_reads f (sh k) (P k I)) as (v & E & _). eauto.
  - exists (qsum vs), vs. rewrite T. cbn [option_map]. split; [reflexivity|]. destruct (traverse_spec _ _ _ T) as [L S].
    rewrite zlen_combine, zlen_zrange, Z.max_r, Z.min_id in L by apply zlen_nonneg. split; [exact L|]. split; [reflexivity|].
    intros k f E. assert (K : 0 <= k < zlen rows) by (apply znth_range; eauto).
    destruct (S k (k, f)) as (y & Ey & Z). { rewrite znth_combine, znth_zrange_in, E by exact K. reflexivity. }
    exists y. split; [exact Z|]. cbn [fst snd] in Ey. destruct (between_reads f (sh k) (P k K)) as (v & E' & R). rewrite E' in Ey. apply some_inj in Ey. subst y. exact R.
Qed.
Lemma qsum_rev l : (qsum (rev l) == qsum l)%Q.
Proof. induction l as [|x t IH]; cbn [rev]; [reflexivity|]. rewrite qsum_snoc, IH. unfold qsum. cbn [fold_right]. ring. Qed.
Lemma reads_eq f s s' v : (s == s')%Q -> reads_at f s v -> reads_at f s' v.
Proof.
  intros E (i & L & U & A & B). exists i. split; [rewrite <- E; exact L|]. split; [rewrite <- E; exact U|]. split; [|exact B].
  intros H. destruct (A H) as (x & y & X & Y & V). exists x, y. split; [exact X|]. split; [exact Y|]. rewrite V, E. reflexivity.
Qed.
(** From the first place on. *)
Lemma stack_near rows sh off dt p tau : (forall k, 0 <= k < zlen rows -> (0 <= sh k)%Q /\ (sh k == inject_Z tau + p * off k / dt)%Q) ->
  exists v, stacked (fun f k => interpolated f (sh k) (q_trunc (sh k))) rows = Some v /\ slant_stack rows off dt p tau v.
Proof.
  intros H. destruct (stacked_ok rows sh) as (v & vs & E & L & -> & R); [intros k K; apply H, K|].
  exists (qsum vs). split; [exact E|]. exists vs. split; [exact L|]. split; [reflexivity|].
  intros k f F. destruct (R k f F) as (x & X & Y). exists x. split; [exact X|]. eapply reads_eq; [|exact Y]. apply H. apply znth_range. eauto.
Qed.
(** From the last. *)
Lemma stack_far rows sh off dt p tau : (forall k, 0 <= k < zlen rows -> (0 <= sh k)%Q /\ (sh k == inject_Z tau + p * off (zlen rows - 1 - k)%Z / dt)%Q) ->
  exists v, stacked (fun f k => interpolated f (sh k) (q_trunc (sh k))) (rev rows) = Some v /\ slant_stack rows off dt p tau v.
Proof.
  intros H. destruct (stacked_ok (rev rows) sh) as (v & vs & E & L & -> & R); [intros k K; rewrite zlen_rev in K; apply H, K|].
  rewrite zlen_rev in L. exists (qsum vs). split; [exact E|]. exists (rev vs). split; [rewrite zlen_rev; exact L|]. split; [symmetry; apply qsum_rev|].
  intros k f F. assert (K : 0 <= k < zlen rows) by (apply znth_range; eauto).
  assert (F' : znth (rev rows) (zlen rows - 1 - k) = Some f) by (rewrite znth_rev by lia; rewrite <- F; f_equal; lia).
  destruct (R _ f F') as (x & X & Y). exists x. split; [rewrite znth_rev by lia; rewrite L; exact X|]. eapply reads_eq; [|exact Y].
  rewrite (proj2 (H (zlen rows - 1 - k) ltac:(lia))). replace (zlen rows - 1 - (zlen rows - 1 - k)) with k by lia. reflexivity.
Qed.
(** Rows of what is there for every sample. *)
Lemma row_ok (F : Z -> option Q) (P : Z -> Q -> Prop) nt : 0 <= nt -> (forall tau, 0 <= tau < nt -> exists v, F tau = Some v /\ P tau v) ->
  exists row, traverse F (zrange nt) = Some row /\ zlen row = nt /\ forall tau, 0 <= tau < nt -> exists x, znth row tau = Some x /\ P tau x.
Proof.
  intros N H. destruct (traverse_total F (zrange nt)) as [row T]; [intros t I; apply in_zrange in I; destruct (H t I) as (v & E & _); eauto|].
  exists row. split; [exact T|]. destruct (traverse_spec _ _ _ T) as [L S]. rewrite zlen_zrange, Z.max_r in L by exact N. split; [exact L|].
  intros t I. destruct (S t t) as (y & Y & Z); [apply znth_zrange_in, I|]. exists y. split; [exact Z|]. destruct (H t I) as (v & E & Q). rewrite E in Y. apply some_inj in Y. subst y. exact Q.
Qed.
Lemma rows_ok {A} (F : A -> option (list Q)) (P : A -> list Q -> Prop) l : (forall x, In x l -> exists r, F x = Some r /\ P x r) ->
  exists rs, traverse F l = Some rs /\ zlen rs = zlen l /\ forall k x, znth l k = Some x -> exists r, znth rs k = Some r /\ P x r.
Proof.
  intros H. destruct (traverse_total F l) as [rs T]; [intros x I; destruct (H x I) as (v & E & _); eauto|].
  exists rs. split; [exact T|]. destruct (traverse_spec _ _ _ T) as [L S]. split; [exact L|].
  intros k x E. destruct (S k x E) as (y & Y & Z). exists y. split; [exact Z|]. destruct (H x) as (v & V & Q); [apply (znth_in l k), E|]. rewrite V in Y. apply some_inj in Y. subst y. exact Q.
Qed.
Lemma shift_nonneg dx dt p tau k : (0 <= dx)%Q -> (0 < dt)%Q -> (0 <= p)%Q -> 0 <= tau -> 0 <= k -> (0 <= inject_Z tau + p * dx * inject_Z k / dt)%Q.
Proof.
  intros X T P U K. assert (0 <= inject_Z tau)%Q by (change 0%Q with (inject_Z 0); rewrite <- Zle_Qle; exact U). assert (0 <= inject_Z k)%Q by (change 0%Q with (inject_Z 0); rewrite <- Zle_Qle; exact K).
  assert (0 <= p * dx * inject_Z k / dt)%Q; [|lra]. apply Qle_shift_div_l; [exact T|]. rewrite Qmult_0_l. repeat apply Qmult_le_0_compat; assumption.
Qed.
Lemma uniform_ok rows dx dt ps nt : (0 <= dx)%Q -> (0 < dt)%Q -> (forall p, In p ps -> (0 <= p)%Q) -> 0 <= nt ->
  exists out, taup_uniform dx dt ps nt rows = Some out /\
    slant_rows rows (fun k => inject_Z k * dx)%Q (fun k => inject_Z (zlen rows - 1 - k) * dx)%Q dt nt ps out.
Proof.
  intros X T P N.
  destruct (rows_ok (fun p => uniform_row dx dt p nt (rev rows))
    (fun p row => zlen row = nt /\ forall tau, 0 <= tau < nt -> exists x, znth row tau = Some x /\ slant_stack rows (fun k => inject_Z (zlen rows - 1 - k) * dx)%Q dt p tau x) (rev ps)) as (neg & En & Ln & Hn).
  { intros p I. apply in_rev in I. unfold uniform_row. apply row_ok; [exact N|]. intros tau U. apply stack_far. intros k K. split.
    - apply shift_nonneg; auto; lia.
    - unfold shift_uniform. replace (zlen rows - 1 - (zlen rows - 1 - k)) with k by lia. field. lra. }
  destruct (rows_ok (fun p => uniform_row dx dt p nt rows)
    (fun p row => zlen row = nt /\ forall tau, 0 <= tau < nt -> exists x, znth row tau = Some x /\ slant_stack rows (fun k => inject_Z k * dx)%Q dt p tau x) ps) as (pos & Ep & Lp & Hp).
  { intros p I. unfold uniform_row. apply row_ok; [exact N|]. intros tau U. apply stack_near. intros k K. split.
    - apply shift_nonneg; auto; lia.
    - unfold shift_uniform. field. lra. }
  exists (neg ++ pos). unfold taup_uniform. rewrite En, Ep. split; [reflexivity|]. rewrite zlen_rev in Ln. split; [rewrite zlen_app; lia|].
  intros k p E. assert (K : 0 <= k < zlen ps) by (apply znth_range; eauto).
  destruct (Hp k p E) as (r1 & E1 & L1 & H1).
  destruct (Hn (zlen ps - 1 - k) p) as (r2 & E2 & L2 & H2). { rewrite znth_rev by lia. rewrite <- E. f_equal. lia. }
  exists r1, r2. rewrite !znth_app. rewrite Ln. destruct (zlen ps + k <? zlen ps) eqn:Q1; [lia|]. destruct (zlen ps - 1 - k <? zlen ps) eqn:Q2; [|lia].
  replace (zlen ps + k - zlen ps) with k by lia. do 4 (split; [assumption|]). intros tau U. destruct (H1 tau U) as (x & X1 & S1). destruct (H2 tau U) as (y & Y2 & S2). eauto 10.
Qed.
Lemma line_eq f s0 s0' s s' v : (s0 == s0')%Q -> (s == s')%Q -> line_read f s0 s v -> line_read f s0' s' v.
Proof.
  intros E0 E (i & L & U & A & B). exists i. split; [rewrite <- E0; exact L|]. split; [rewrite <- E0; exact U|]. split; [|exact B].
  intros H. destruct (A H) as (x & y & X & Y & V). exists x, y. split; [exact X|]. split; [exact Y|]. rewrite V, E. reflexivity.
Qed.
Lemma beside_reads f s0 s : (0 <= s0)%Q -> exists v, interpolated f s (q_trunc s0) = Some v /\ line_read f s0 s v.
Proof.
  intros P. destruct (trunc_floor s0 P) as (I & L & U). set (i := q_trunc s0) in *. clearbody i. unfold interpolated, py_get.
  destruct (i + 1 <? zlen f) eqn:E.
  - destruct (i <? 0) eqn:E1; [lia|]. destruct (i + 1 <? 0) eqn:E2; [lia|].
    rewrite !znth_at by lia. eexists. split; [reflexivity|]. exists i. split; [exact L|]. split; [exact U|]. split; [|lia].
    intros _. exists (at_ f i), (at_ f (i + 1)). rewrite !znth_at by lia. split; [reflexivity|]. split; [reflexivity|]. ring.
  - eexists. split; [reflexivity|]. exists i. split; [exact L|]. split; [exact U|]. split; [lia|]. intros _. reflexivity.
Qed.
Lemma stack_mixed rows s0 s near far dt p tau :
  (forall k, 0 <= k < zlen rows -> (0 <= s0 k)%Q /\ (s0 k == inject_Z tau + p * near k / dt)%Q /\ (s k == inject_Z tau + p * far (zlen rows - 1 - k)%Z / dt)%Q) ->
  exists v, stacked (fun f k => interpolated f (s k) (q_trunc (s0 k))) (rev rows) = Some v /\ mixed_stack rows near far dt p tau v.
Proof.
  intros H. unfold stacked. rewrite zlen_rev. destruct (traverse_total (fun e => interpolated (snd e) (s (fst e)) (q_trunc (s0 (fst e)))) (combine (zrange (zlen rows)) (rev rows))) as [vs T].
  - intros [k f] I. apply in_combine_l in I. apply in_zrange in I. destruct (beside_reads f (s0 k) (s k) (proj1 (H k I))) as (v & E & _). eauto.
  - exists (qsum vs). rewrite T. cbn [option_map]. split; [reflexivity|]. destruct (traverse_spec _ _ _ T) as [L S].
    rewrite zlen_combine, zlen_zrange, zlen_rev, Z.max_r, Z.min_id in L by apply zlen_nonneg.
    exists (rev vs). split; [rewrite zlen_rev; exact L|]. split; [symmetry; apply qsum_rev|].
    intros k f F. assert (K : 0 <= k < zlen rows) by (apply znth_range; eauto).
    assert (F' : znth (rev rows) (zlen rows - 1 - k) = Some f) by (rewrite znth_rev by lia; rewrite <- F; f_equal; lia).
    destruct (S (zlen rows - 1 - k) (zlen rows - 1 - k, f)) as (y & Ey & Z). { rewrite znth_combine, znth_zrange_in, F' by lia. reflexivity. }
    cbn [fst snd] in Ey. destruct (H (zlen rows - 1 - k) ltac:(lia)) as (P & E0 & E1).
    destruct (beside_reads f (s0 (zlen rows - 1 - k)) (s (zlen rows - 1 - k)) P) as (v & E' & R). rewrite E' in Ey. apply some_inj in Ey. subst y.
    exists v. split; [rewrite znth_rev by lia; rewrite L; exact Z|]. eapply line_eq; [exact E0| |exact R]. rewrite E1. replace (zlen rows - 1 - (zlen rows - 1 - k)) with k by lia. reflexivity.
Qed.
Lemma general_ok rows ds dt ps nt : zlen ds = zlen rows -> (forall k, 0 <= k < zlen ds -> (at_ ds 0 <= at_ ds k)%Q) -> (0 < dt)%Q -> (forall p, In p ps -> (0 <= p)%Q) -> 0 <= nt ->
  exists out, taup_general ds dt ps nt rows = Some out /\
    slant_rows_mixed rows (fun k => at_ ds k - at_ ds 0)%Q (fun k => at_ ds (zlen ds - 1) - at_ ds k)%Q dt nt ps out.
Proof.
  intros LD X T P N.
  assert (SN : forall p tau k, In p ps -> 0 <= tau -> 0 <= k < zlen rows -> (0 <= shift_general ds dt p tau k)%Q).
  { intros p tau k I U K. unfold shift_general. assert (0 <= inject_Z tau)%Q by (change 0%Q with (inject_Z 0); rewrite <- Zle_Qle; exact U).
    assert (0 <= p * (at_ ds k - at_ ds 0) / dt)%Q; [|lra]. apply Qle_shift_div_l; [exact T|]. rewrite Qmult_0_l. apply Qmult_le_0_compat; [apply P, I|]. specialize (X k ltac:(lia)). lra. }
  destruct (rows_ok (fun p => general_neg ds dt p nt rows)
    (fun p row => zlen row = nt /\ forall tau, 0 <= tau < nt -> exists x, znth row tau = Some x /\
       mixed_stack rows (fun k => at_ ds k - at_ ds 0)%Q (fun k => at_ ds (zlen ds - 1) - at_ ds k)%Q dt p tau x) (rev ps)) as (neg & En & Ln & Hn).
  { intros p I. apply in_rev in I. unfold general_neg. apply row_ok; [exact N|]. intros tau U.
    apply (stack_mixed rows (shift_general ds dt p tau) (shift_negative ds dt p tau)). intros k K. split; [apply SN; auto; lia|]. split; [unfold shift_general; reflexivity|].
    unfold shift_negative. cbv zeta. rewrite <- LD. field. lra. }
  destruct (rows_ok (fun p => general_pos ds dt p nt rows)
    (fun p row => zlen row = nt /\ forall tau, 0 <= tau < nt -> exists x, znth row tau = Some x /\ slant_stack rows (fun k => at_ ds k - at_ ds 0)%Q dt p tau x) ps) as (pos & Ep & Lp & Hp).
  { intros p I. unfold general_pos. apply row_ok; [exact N|]. intros tau U. apply stack_near. intros k K. split; [apply SN; auto; lia|]. unfold shift_general. reflexivity. }
  exists (neg ++ pos). unfold taup_general. rewrite En, Ep. split; [reflexivity|]. rewrite zlen_rev in Ln. split; [rewrite zlen_app; lia|].
  intros k p E. assert (K : 0 <= k < zlen ps) by (apply znth_range; eauto).
  destruct (Hp k p E) as (r1 & E1 & L1 & H1).
  destruct (Hn (zlen ps - 1 - k) p) as (r2 & E2 & L2 & H2). { rewrite znth_rev by lia. rewrite <- E. f_equal. lia. }
  exists r1, r2. rewrite !znth_app. rewrite Ln. destruct (zlen ps + k <? zlen ps) eqn:Q1; [lia|]. destruct (zlen ps - 1 - k <? zlen ps) eqn:Q2; [|lia].
  replace (zlen ps + k - zlen ps) with k by lia. do 4 (split; [assumption|]). intros tau U. destruct (H1 tau U) as (x & X1 & S1). destruct (H2 tau U) as (y & Y2 & S2). eauto 10.
Qed.
Lemma mixed_rows rows near far dt nt ps out : (forall k, 0 <= k < zlen rows -> (near (zlen rows - 1 - k)%Z == far k)%Q) ->
  slant_rows_mixed rows near far dt nt ps out -> slant_rows rows near far dt nt ps out.
Proof.
  intros S [L H]. split; [exact L|]. intros k p E. destruct (H k p E) as (pos & neg & A & B & C & D & F). exists pos, neg. do 4 (split; [assumption|]).
  intros tau U. destruct (F tau U) as (x & y & X & Y & Sx & vs & Lv & Tv & G). exists x, y. do 3 (split; [assumption|]). exists vs. split; [exact Lv|]. split; [exact Tv|].
  intros j f J. destruct (G j f J) as (v & V & R). exists v. split; [exact V|]. assert (K : 0 <= j < zlen rows) by (apply znth_range; eauto).
  eapply line_eq in R; [exact R| |reflexivity]. rewrite (S j K). reflexivity.
Qed.

Lemma traverse_is {A B} (f : A -> option B) l r : zlen r = zlen l -> (forall i x, znth l i = Some x -> f x = znth r i) -> traverse f l = Some r.
Proof.
  intros L H. destruct (traverse_total f l) as [s S].
  - intros x I. apply in_znth in I. destruct I as [i E]. rewrite (H i x E). apply znth_range. rewrite L. apply znth_range. eauto.
  - rewrite S. f_equal. destruct (traverse_spec _ _ _ S) as [L' G]. apply znth_ext_len; [congruence|]. intros i I.
    destruct (proj2 (znth_range l i)) as [x E]; [lia|]. destruct (G i x E) as (y & Y & Z). rewrite (H i x E) in Y. congruence.
Qed.
Lemma rows_of_traces a rows : traces a rows -> rows_of a = Some rows.
Proof.
  intros (nt & S & H). unfold rows_of. rewrite S. apply traverse_is; [rewrite zlen_zrange, Z.max_r by apply zlen_nonneg; reflexivity|].
  intros i x E. rewrite znth_zrange in E. destruct ((0 <=? i) && (i <? zlen rows)) eqn:B; [|discriminate]. apply some_inj in E. subst x.
  destruct (proj2 (znth_range rows i)) as [f F]; [lia|]. rewrite F. destruct (H i f F) as [L G]. apply traverse_is; [rewrite zlen_zrange, <- L, Z.max_r by apply zlen_nonneg; reflexivity|].
  intros t y E. rewrite znth_zrange in E. destruct ((0 <=? t) && (t <? nt)) eqn:B'; [|discriminate]. apply some_inj in E. subst y. apply G. lia.
Qed.
Lemma rising_ok l : increasing l = true <-> rising l.
Proof.
  induction l as [|x [|y t] IH].
  - split; [intros _ i j a b _ A; rewrite znth_nil in A; discriminate|reflexivity].
  - split; [|reflexivity]. intros _ i j a b IJ A B. exfalso.
    assert (0 <= i < 1) by (apply (znth_range [x]); eauto). assert (0 <= j < 1) by (apply (znth_range [x]); eauto). lia.
  - change (increasing (x :: y :: t)) with (negb (qle y x) && increasing (y :: t))%bool. rewrite andb_true_iff, IH, negb_true_iff, qle_false. split.
    + intros [XY H] i j a b IJ A B. rewrite znth_cons in A, B. assert (0 <= i < zlen (x :: y :: t)) by (apply znth_range; exists a; rewrite znth_cons; exact A).
      destruct (i =? 0) eqn:E; destruct (j =? 0) eqn:E'; try lia.
      * apply some_inj in A. subst a. destruct (j =? 1) eqn:E1; [assert (j = 1) by lia; subst j; cbn in B; apply some_inj in B; subst b; exact XY|].
        apply Qlt_trans with y; [exact XY|]. apply (H 0 (j - 1)); [lia|reflexivity|exact B].
      * apply (H (i - 1) (j - 1)); [lia|exact A|exact B].
    + intros H. split; [apply (H 0 1); [lia|reflexivity|reflexivity]|]. intros i j a b IJ A B. assert (0 <= i < zlen (y :: t)) by (apply znth_range; eauto). apply (H (i + 1) (j + 1)); [lia| |].
      * rewrite znth_cons. destruct (i + 1 =? 0) eqn:E; [lia|]. replace (i + 1 - 1) with i by lia. exact A.
      * rewrite znth_cons. destruct (j + 1 =? 0) eqn:E; [lia|]. replace (j + 1 - 1) with j by lia. exact B.
Qed.
Lemma positive_ok l : existsb (fun v => qle v 0) l = false <-> all_positive l.
Proof.
  split.
  - intros H x I. destruct (qle x 0) eqn:E; [|apply qle_false, E]. assert (existsb (fun v => qle v 0) l = true) by (apply existsb_exists; eauto). congruence.
  - intros H. destruct (existsb (fun v => qle v 0) l) eqn:E; [|reflexivity]. apply existsb_exists in E. destruct E as (x & I & E). apply qle_iff in E. specialize (H x I). lra.
Qed.
Lemma slow_nonneg vels : all_positive vels -> forall p, In p (map (fun v => 1 / v)%Q vels) -> (0 <= p)%Q.
Proof. intros H p I. apply in_map_iff in I. destruct I as (v & <- & I). apply Qle_shift_div_l; [apply H, I|]. lra. Qed.
Lemma fl_seconds c z : to_fl c z = seconds (c_kind c) z.
Proof. reflexivity. Qed.
Lemma seconds_pos k z : 0 < z -> (0 < seconds k z)%Q.
Proof. intros H. destruct k; unfold seconds, Qlt; cbn; lia. Qed.

Section Taup.
Context (p : patch Q) (W : wf_patch p) (D : cm_dims (p_cm p) = ["distance"; "time"]%string) (r : crange)
  (T : assoc "time"%string (cm_coords (p_cm p)) = Some (M1 (CRange r))) (RT : 0 < r_step r)
  (vels : list Q) (P : all_positive vels) (R : rising vels) (rows : list (list Q)) (TR : traces (p_data p) rows).
Let dt := seconds (r_kind r) (r_step r).
Let ps := map (fun v => 1 / v)%Q vels.
Lemma taup_shape c : assoc "distance"%string (cm_coords (p_cm p)) = Some (M1 c) -> nd_shape (p_data p) = [c_len c; r_len r].
Proof.
  intros C. assert (A := shape_at p 0 "distance"%string c W ltac:(rewrite D; reflexivity) C). assert (B := shape_at p 1 "time"%string (CRange r) W ltac:(rewrite D; reflexivity) T).
  destruct TR as (nt & S & _). rewrite S in *. cbn in A, B. injection A as ->. injection B as ->. reflexivity.
Qed.
Lemma taup_even x : assoc "distance"%string (cm_coords (p_cm p)) = Some (M1 (CRange x)) -> 0 < r_step x ->
  exists out, pt_taup vels p = Ok (rev (map Qopp ps) ++ ps, r, out) /\
    let dx := seconds (r_kind x) (r_step x) in
    slant_rows rows (fun k => inject_Z k * dx)%Q (fun k => inject_Z (zlen rows - 1 - k) * dx)%Q dt (r_len r) ps out.
Proof.
  intros C X. assert (S := taup_shape _ C). assert (Wr : wf_range r) by exact (wf_vals _ (wp_cm _ W) _ _ T).
  destruct (uniform_ok rows (seconds (r_kind x) (r_step x)) dt ps (r_len r)) as (out & E & H).
  - apply Qlt_le_weak, seconds_pos, X.
  - apply seconds_pos, RT.
  - apply slow_nonneg, P.
  - destruct Wr as (_ & Wr & _). lia.
  - exists out. split; [|exact H]. unfold pt_taup. cbv zeta. rewrite D.
    change (negb (mem "time"%string ["distance"; "time"]%string && mem "distance"%string ["distance"; "time"]%string)) with false. change (negb (zlen ["distance"; "time"]%string =? 2)%Z) with false. cbv iota.
    rewrite T, C, (proj2 (positive_ok vels) P), (proj2 (rising_ok vels) R). cbn [negb]. rewrite (rows_of_traces _ _ TR), S. rewrite !fl_seconds. cbn [c_kind]. fold dt ps. rewrite E. cbn [opt_result bind].
    rewrite Z.eqb_refl. reflexivity.
Qed.
Lemma taup_uneven c k v : (c = CMono k v \/ c = CArr k v) -> assoc "distance"%string (cm_coords (p_cm p)) = Some (M1 c) ->
  (forall i z z0, znth v i = Some z -> znth v 0 = Some z0 -> z0 <= z) ->
  exists out, pt_taup vels p = Ok (rev (map Qopp ps) ++ ps, r, out) /\
    let ds := map (seconds k) v in
    slant_rows_mixed rows (fun i => at_ ds i - at_ ds 0)%Q (fun i => at_ ds (zlen ds - 1) - at_ ds i)%Q dt (r_len r) ps out.
Proof.
  intros CC C X. assert (S := taup_shape _ C). assert (Wr : wf_range r) by exact (wf_vals _ (wp_cm _ W) _ _ T).
  assert (LC : c_len c = zlen v) by (destruct CC; subst c; reflexivity).
  assert (LR : zlen rows = zlen v) by (destruct TR as (nt & S' & _); rewrite S in S'; injection S' as E _; congruence).
  destruct (general_ok rows (map (seconds k) v) dt ps (r_len r)) as (out & E & H).
  - rewrite zlen_map. congruence.
  - intros i K. rewrite zlen_map in K. destruct (proj2 (znth_range v i) K) as [z Z]. destruct (proj2 (znth_range v 0)) as [z0 Z0]; [lia|]. specialize (X _ _ _ Z Z0).
    rewrite (at_znth (map (seconds k) v) i (seconds k z)) by (rewrite znth_map, Z; reflexivity). rewrite (at_znth (map (seconds k) v) 0 (seconds k z0)) by (rewrite znth_map, Z0; reflexivity).
    destruct k; unfold seconds, Qle; cbn; lia.
  - apply seconds_pos, RT.
  - apply slow_nonneg, P.
  - destruct Wr as (_ & Wr & _). lia.
  - exists out. split; [|exact H]. unfold pt_taup. cbv zeta. rewrite D.
    change (negb (mem "time"%string ["distance"; "time"]%string && mem "distance"%string ["distance"; "time"]%string)) with false. change (negb (zlen ["distance"; "time"]%string =? 2)%Z) with false. cbv iota.
    rewrite T, C, (proj2 (positive_ok vels) P), (proj2 (rising_ok vels) R). cbn [negb]. rewrite (rows_of_traces _ _ TR), S.
    replace (to_fl (CRange r) (r_step r)) with dt by reflexivity. fold ps.
    assert (F : map (to_fl c) (c_ints c) = map (seconds k) v) by (destruct CC; subst c; reflexivity).
    assert (G : match c with CRange x => opt_result (taup_uniform (to_fl c (r_step x)) dt ps (r_len r) rows) | CPart _ => Err Unmodelled
                | _ => if c_len c =? c_len c then opt_result (taup_general (map (to_fl c) (c_ints c)) dt ps (r_len r) rows) else Err Unmodelled end = Ok out).
    { rewrite F, Z.eqb_refl, E. destruct CC; subst c; reflexivity. }
    rewrite G. cbn [bind]. rewrite Z.eqb_refl. reflexivity.
Qed.
Lemma taup_mirrored c k v : (c = CMono k v \/ c = CArr k v) -> assoc "distance"%string (cm_coords (p_cm p)) = Some (M1 c) ->
  (forall i z z0, znth v i = Some z -> znth v 0 = Some z0 -> z0 <= z) ->
  (forall i z0 z z' z1, znth v 0 = Some z0 -> znth v (zlen v - 1) = Some z1 -> znth v i = Some z -> znth v (zlen v - 1 - i) = Some z' -> z' - z0 = z1 - z) ->
  exists out, pt_taup vels p = Ok (rev (map Qopp ps) ++ ps, r, out) /\
    let ds := map (seconds k) v in
    slant_rows rows (fun i => at_ ds i - at_ ds 0)%Q (fun i => at_ ds (zlen ds - 1) - at_ ds i)%Q dt (r_len r) ps out.
Proof.
  intros CC C X M. destruct (taup_uneven c k v CC C X) as (out & E & H). exists out. split; [exact E|]. cbv zeta in *. apply mixed_rows; [|exact H].
  assert (S := taup_shape _ C). assert (LC : c_len c = zlen v) by (destruct CC; subst c; reflexivity).
  assert (LR : zlen rows = zlen v) by (destruct TR as (nt & S' & _); rewrite S in S'; injection S' as E' _; congruence).
  intros i I. rewrite zlen_map, LR in *. destruct (proj2 (znth_range v i)) as [z Z]; [lia|]. destruct (proj2 (znth_range v 0)) as [z0 Z0]; [lia|].
  destruct (proj2 (znth_range v (zlen v - 1))) as [z1 Z1]; [lia|]. destruct (proj2 (znth_range v (zlen v - 1 - i))) as [z' Z']; [lia|].
  specialize (M i z0 z z' z1 Z0 Z1 Z Z').
  assert (At : forall j y, znth v j = Some y -> at_ (map (seconds k) v) j = seconds k y) by (intros j y J; apply at_znth; rewrite znth_map, J; reflexivity).
  rewrite (At _ _ Z), (At _ _ Z0), (At _ _ Z1), (At _ _ Z'). destruct k; unfold seconds, Qeq; cbn; lia.
Qed.
End Taup.
Lemma taup_refused (p : patch Q) vels :
  (forall d, In d ["time"; "distance"]%string -> ~ In d (cm_dims (p_cm p)) -> pt_taup vels p = Err PatchCoordinateError) /\
  (forall d d', cm_dims (p_cm p) = [d; d'] -> In "time"%string [d; d'] -> In "distance"%string [d; d'] -> forall c, assoc "distance"%string (cm_coords (p_cm p)) = Some (M1 c) ->
     ((forall r, assoc "time"%string (cm_coords (p_cm p)) <> Some (M1 (CRange r))) -> pt_taup vels p = Err CoordError) /\
     (forall r, assoc "time"%string (cm_coords (p_cm p)) = Some (M1 (CRange r)) -> ~ (all_positive vels /\ rising vels) -> pt_taup vels p = Err ParameterError)).
Proof.
  split.
  - intros d I N. unfold pt_taup. cbv zeta. destruct I as [<-|[<-|[]]].
    + destruct (mem "time"%string (cm_dims (p_cm p))) eqn:M; [apply mem_dims in M; contradiction|]. reflexivity.
    + destruct (mem "distance"%string (cm_dims (p_cm p))) eqn:M; [apply mem_dims in M; contradiction|]. rewrite andb_false_r. reflexivity.
  - intros d d' D It Id c C. unfold pt_taup. cbv zeta. rewrite D. rewrite (proj2 (mem_dims _ _) It), (proj2 (mem_dims _ _) Id). cbn [andb negb]. change (zlen [d; d'] =? 2)%Z with true. cbn [negb]. split.
    + intros N. destruct (assoc "time"%string (cm_coords (p_cm p))) as [[[r| | |]| |]|] eqn:Q; try reflexivity. destruct (N r eq_refl).
    + intros r T N. rewrite T, C. destruct (existsb (fun v => qle v 0) vels) eqn:E; [reflexivity|]. destruct (increasing vels) eqn:E'; [|reflexivity].
      exfalso. apply N. split; [apply positive_ok, E|apply rising_ok, E'].
Qed.

(** There is one value to be read. *)
Lemma reads_unique f s x y : reads_at f s x -> reads_at f s y -> (x == y)%Q.
Proof.
  intros (i & L & U & A & B) (j & L' & U' & A' & B').
  assert (i = j).
  { assert (inject_Z i < inject_Z j + 1)%Q by lra. assert (inject_Z j < inject_Z i + 1)%Q by lra.
    change 1%Q with (inject_Z 1) in H, H0. rewrite <- inject_Z_plus, <- Zlt_Qlt in H, H0. lia. }
  subst j. destruct (Z_lt_le_dec (i + 1) (zlen f)) as [K|K].
  - destruct (A K) as (a & b & Ea & Eb & V). destruct (A' K) as (a' & b' & Ea' & Eb' & V'). rewrite Ea in Ea'. rewrite Eb in Eb'. apply some_inj in Ea', Eb'. subst a' b'. rewrite V, V'. reflexivity.
  - rewrite (B K), (B' K). reflexivity.
Qed.
Lemma slant_unique rows off dt p tau x y : slant_stack rows off dt p tau x -> slant_stack rows off dt p tau y -> (x == y)%Q.
Proof.
  intros (vs & L & E & H) (ws & L' & E' & H'). rewrite E, E'. clear E E'.
  assert (F : Forall2 Qeq vs ws).
  { apply same_at; [congruence|]. intros k K. destruct (proj2 (znth_range rows k)) as [f F]; [lia|]. destruct (H k f F) as (a & A & R). destruct (H' k f F) as (b & B & R').
    rewrite (at_znth _ _ _ A), (at_znth _ _ _ B). eapply reads_unique; eauto. }
  clear - F. induction F as [|a b l m E F IH]; cbn; [reflexivity|]. change (fold_right Qplus 0%Q l) with (total_of l). change (fold_right Qplus 0%Q m) with (total_of m). rewrite E, IH. reflexivity.
Qed.

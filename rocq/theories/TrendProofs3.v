(** Lemmas behind TrendProps.v: kurtosis. *)
From Verif Require Import Base BaseFacts CoordModel CoordSpec CoordProofs CoordProofs3 CoordProofs5 NdModel NdSpec NdProofs FrameModel ChunkModel ChunkProofs2
  CmModel CmSpec CmProofs CmProofs3 CmProofs13 TaperProofs2 ReadProofs MuteModel MuteProofs2 CalcModel CalcProofs CalcProofs3
  MoveModel MoveSpec MoveProofs MoveProofs5 TrendModel TrendSpec TrendProofs TrendProofs2.
From Coq Require Import Strings.String ZifyBool QArith Qpower Qabs Lqa.
Local Open Scope Z_scope.
Local Open Scope list_scope.

Lemma zlen_pos {A} (l : list A) : l <> [] -> 0 < zlen l.
Proof. destruct l; [congruence|unfold zlen; cbn [List.length]; lia]. Qed.
Lemma inject_lt a b : a < b -> (inject_Z a < inject_Z b)%Q.
Proof. intros H. rewrite <- Zlt_Qlt. exact H. Qed.
Lemma qle_iff a b : qle a b = true <-> (a <= b)%Q.
Proof. apply Qle_bool_iff. Qed.
Lemma qle_false a b : qle a b = false <-> (b < a)%Q.
Proof.
  split; intros H.
  - destruct (Qlt_le_dec b a) as [K|K]; [exact K|]. apply qle_iff in K. congruence.
  - destruct (qle a b) eqn:E; [|reflexivity]. apply qle_iff in E. lra.
Qed.

Lemma sq_zero (d : Q) : (d * d == 0)%Q -> (d == 0)%Q.
Proof. intros H. destruct (Qmult_integral _ _ H); assumption. Qed.

(** ** Moments *)
Section Moments.
Context (l : list Q) (NE : l <> []).
Let c := inject_Z (zlen l).
Let m := qmean l.
Lemma c_pos : (0 < c)%Q.
Proof. apply (inject_lt 0), zlen_pos, NE. Qed.
Let s k := (power_sum k l / c)%Q.
Lemma sum1 : (power_sum 1 l == c * m)%Q.
Proof.
  assert (H := qmean_ok l NE). unfold mean_of in H. fold c m in H. change (total_of l) with (qsum l) in H.
  unfold power_sum. rewrite (qsum_ext _ (fun x => x)) by (intros; cbn; reflexivity). rewrite map_id, <- H. ring.
Qed.
Lemma central2 : (qsum (map (fun x => Qpower (x - m) 2) l) == c * (s 2 - m * m))%Q.
Proof.
  rewrite (qsum_ext _ (fun x => Qpower x 2 + ((- (2) * m) * Qpower x 1 + m * m))%Q) by (intros; cbn; ring).
  rewrite !qsum_plus, qsum_scale, qsum_const. fold c. change (qsum (map (fun x => Qpower x 2) l)) with (power_sum 2 l). change (qsum (map (fun x => Qpower x 1) l)) with (power_sum 1 l).
  rewrite sum1. unfold s. field. pose proof c_pos. lra.
Qed.
Lemma central4 : (qsum (map (fun x => Qpower (x - m) 4) l) == c * (s 4 - 4 * m * s 3 + 6 * (m * m) * s 2 - 3 * (m * m * (m * m))))%Q.
Proof.
  rewrite (qsum_ext _ (fun x => Qpower x 4 + ((- (4) * m) * Qpower x 3 + ((6 * (m * m)) * Qpower x 2 + ((- (4) * (m * m * m)) * Qpower x 1 + m * m * (m * m)))))%Q) by (intros; cbn; ring).
  rewrite !qsum_plus, !qsum_scale, qsum_const. fold c. change (qsum (map (fun x => Qpower x 4) l)) with (power_sum 4 l). change (qsum (map (fun x => Qpower x 3) l)) with (power_sum 3 l).
  change (qsum (map (fun x => Qpower x 2) l)) with (power_sum 2 l). change (qsum (map (fun x => Qpower x 1) l)) with (power_sum 1 l).
  rewrite sum1. unfold s. field. pose proof c_pos. lra.
Qed.
Lemma m1_mean : (power_sum 1 l / c == m)%Q.
Proof. rewrite sum1. field. pose proof c_pos. lra. Qed.
Lemma equal_iff : all_equal l <-> (s 2 - m * m <= 0)%Q.
Proof.
  assert (C := c_pos). assert (P : (0 <= qsum (map (fun x => Qpower (x - m) 2) l))%Q) by (apply qsum_nonneg; intros; apply sq_nonneg).
  split.
  - intros A. assert (Z : (qsum (map (fun x => Qpower (x - m) 2) l) == 0)%Q).
    { assert (Y : exists y, In y l) by (destruct (exists_last NE) as (t & y & ->); exists y; apply in_or_app; right; left; reflexivity). destruct Y as [y Y].
      assert (M : (m == y)%Q).
      { assert (H := m1_mean). unfold power_sum in H. rewrite (qsum_ext _ (fun _ => y)) in H by (intros x X; cbn; apply A; assumption).
        rewrite qsum_const in H. fold c in H. rewrite <- H. field. lra. }
      rewrite (qsum_ext _ (fun _ => 0%Q)) by (intros x X; rewrite (A x y X Y), M; cbn; ring). rewrite qsum_const. ring. }
    rewrite central2 in Z. nra.
  - intros H x y X Y. assert (Z : (qsum (map (fun x => Qpower (x - m) 2) l) == 0)%Q) by (rewrite central2 in P |- *; assert (E : (0 <= s 2 - m * m)%Q) by (apply (Qmult_lt_0_le_reg_r _ _ c C); lra); assert (E' : (s 2 - m * m == 0)%Q) by lra; rewrite E'; ring).
    assert (K := qsum_zero _ _ (fun x _ => sq_nonneg (x - m)) Z). assert (Kx := K x X). assert (Ky := K y Y). apply sq_zero in Kx. apply sq_zero in Ky. lra.
Qed.
Lemma moments_ok : kurtosis_of l (moments l).
Proof.
  unfold moments. fold c. fold (s 2) (s 3) (s 4). set (m1 := (power_sum 1 l / c)%Q).
  assert (E1 : (m1 == m)%Q) by apply m1_mean.
  destruct (qle (s 2 - m1 * m1) 0) eqn:B.
  - left. split; [|reflexivity]. apply equal_iff. apply qle_iff in B. rewrite E1 in B. exact B.
  - right. apply qle_false in B. rewrite E1 in B. split; [intros A; apply equal_iff in A; lra|].
    exists (s 2 - m1 * m1)%Q. eexists. eexists. split; [|split; [|split; [rewrite E1; exact B|split; [reflexivity|]]]].
    + exists m. split; [apply qmean_ok, NE|]. unfold mean_of. rewrite zlen_map. fold c.
      change (total_of (map (fun x => Qpower (x - m) (Z.of_nat 2)) l)) with (qsum (map (fun x => Qpower (x - m) 2) l)). rewrite central2, E1. ring.
    + exists m. split; [apply qmean_ok, NE|]. unfold mean_of. rewrite zlen_map. fold c.
      change (total_of (map (fun x => Qpower (x - m) (Z.of_nat 4)) l)) with (qsum (map (fun x => Qpower (x - m) 4) l)). rewrite central4.
      instantiate (1 := (s 4 - 4 * m * s 3 + 6 * (m * m) * s 2 - 3 * (m * m * (m * m)))%Q). ring.
    + rewrite E1. field. lra.
Qed.
Lemma var_nonneg : (0 <= qvar l)%Q.
Proof.
  unfold qvar, qmean. apply Qle_shift_div_l; [rewrite zlen_map; apply c_pos|]. rewrite Qmult_0_l. apply qsum_nonneg. intros; apply sq_nonneg.
Qed.
Lemma var_central : central 2 l (qvar l).
Proof.
  exists (qmean l). split; [apply qmean_ok, NE|]. unfold qvar. apply (qmean_ok (map (fun x => (x - qmean l) * (x - qmean l))%Q l)). destruct l; [congruence|discriminate].
Qed.
Lemma var_zero : (qvar l == 0)%Q -> all_equal l.
Proof.
  intros H x y X Y. assert (Z : (qsum (map (fun x => (x - m) * (x - m)) l) == 0)%Q).
  { assert (C := c_pos). unfold qvar, qmean in H. rewrite zlen_map in H. fold c m in H.
    fold m in H. change (qsum l / c)%Q with m in H. rewrite <- (Qmult_div_r (qsum (map (fun x => (x - m) * (x - m))%Q l)) c) by lra. rewrite H. ring. }
  assert (K := qsum_zero _ _ (fun x _ => sq_nonneg (x - m)) Z). assert (Kx := K x X). assert (Ky := K y Y). apply sq_zero in Kx. apply sq_zero in Ky. lra.
Qed.
End Moments.

(** Kurtosis is at least one. *)
Lemma kurtosis_least l k : l <> [] -> kurtosis_of l (Some k) -> (1 <= k)%Q.
Proof.
  intros NE [[_ K]|[_ (s & q & k' & (m & M & S) & (m' & M' & Q') & P & K & E)]]; [discriminate|]. injection K as <-.
  set (c := inject_Z (zlen l)). assert (C : (0 < c)%Q) by (apply (inject_lt 0), zlen_pos, NE).
  unfold mean_of in *. rewrite zlen_map in S, Q'. fold c in M, M', S, Q'.
  assert (EM : (m' == m)%Q) by (rewrite <- M in M'; assert ((m' - m) * c == 0)%Q by lra; nra).
  assert (H : (0 <= qsum (map (fun x => (Qpower (x - m) 2 - s) * (Qpower (x - m) 2 - s)) l))%Q) by (apply qsum_nonneg; intros; apply sq_nonneg).
  rewrite (qsum_ext _ (fun x => Qpower (x - m) 4 + ((- (2) * s) * Qpower (x - m) 2 + s * s))%Q) in H by (intros; cbn; ring).
  rewrite !qsum_plus, qsum_scale, qsum_const in H. fold c in H.
  change (total_of (map (fun x => Qpower (x - m) (Z.of_nat 2)) l)) with (qsum (map (fun x => Qpower (x - m) 2) l)) in S.
  change (total_of (map (fun x => Qpower (x - m') (Z.of_nat 4)) l)) with (qsum (map (fun x => Qpower (x - m') 4) l)) in Q'.
  rewrite (qsum_ext (fun x => Qpower (x - m') 4) (fun x => Qpower (x - m) 4)) in Q' by (intros; rewrite EM; reflexivity).
  rewrite <- S, <- Q' in H. assert (0 <= c * (q - s * s))%Q by nra. assert (s * s <= q)%Q by nra.
  assert (0 < s * s)%Q by nra. rewrite <- E in *. nra.
Qed.

(** ** Windows *)
Lemma windowed_ok w f : 2 <= w -> windowed_kurtosis w f (windowed_line w f).
Proof.
  intros W. unfold windowed_line. split; [apply zlen_mapr, zlen_nonneg|]. intros i I.
  exists (clipped w i f), (moments (clipped w i f)). assert (Z := zlen_nonneg f).
  assert (H2 : 0 < w / 2 < w) by (split; [apply Z.div_str_pos; lia|apply Z.div_lt; lia]).
  set (h := w / 2) in *. 
  assert (L : zlen (clipped w i f) = Z.min (i - h + w) (zlen f) - Z.max (i - h) 0).
  { unfold clipped. fold h. rewrite zlen_firstn, zlen_skipn by lia. lia. }
  split; [|split; [apply (znth_mapr (fun i => moments (clipped w i f))), I|apply moments_ok]].
  - split; [exact L|]. intros k K. unfold clipped. fold h. rewrite znth_firstn, znth_skipn by lia. rewrite L in K.
    destruct (_ <? _) eqn:E; [reflexivity|lia].
  - intros E. rewrite E in L. unfold zlen in L at 1. cbn in L. lia.
Qed.

(** ** The recursion *)
Lemma qsum_snoc l x : (qsum (l ++ [x]) == qsum l + x)%Q.
Proof. induction l as [|z l' IH]; cbn; [ring|]. fold (qsum (l' ++ [x])). rewrite IH. unfold qsum. ring. Qed.
Lemma combine_snoc {A B} (l : list A) (m : list B) x y : List.length l = List.length m -> combine (l ++ [x]) (m ++ [y]) = combine l m ++ [(x, y)].
Proof. revert m. induction l as [|a l IH]; intros [|b m] H; try discriminate; cbn; [reflexivity|]. rewrite IH by (cbn in H; lia). reflexivity. Qed.
Lemma fading_snoc c l x : ~ (c == 0)%Q -> (fading c (l ++ [x]) == c * fading c l + (1 - c) * x)%Q.
Proof.
  intros C. unfold fading. rewrite zlen_app. change (zlen [x]) with 1. rewrite zrange_snoc by apply zlen_nonneg.
  rewrite combine_snoc; [|pose proof (zlen_zrange (zlen l)) as Z; unfold zlen in *; lia].
  rewrite map_app. change total_of with qsum. cbn [map fst snd]. rewrite qsum_snoc, <- qsum_scale.
  replace (zlen l + 1 - 1 - zlen l) with 0 by lia.
  rewrite (qsum_ext _ (fun e => c * ((1 - c) * Qpower c (zlen l - 1 - fst e) * snd e))%Q).
  - cbn [Qpower]. ring.
  - intros e _. replace (zlen l + 1 - 1 - fst e) with (1 + (zlen l - 1 - fst e)) by lia. rewrite Qpower_plus by exact C. change (Qpower c 1) with c. ring.
Qed.
Lemma upto_mapr (F : Z -> Q) n j : 0 <= j < n -> upto j (map F (zrange n)) = map F (zrange (j + 1)).
Proof.
  intros J. apply znth_ext_len; unfold upto; [rewrite zlen_firstn, !zlen_mapr by lia; lia|].
  intros i I. rewrite zlen_firstn, zlen_mapr in I by lia. rewrite znth_firstn. destruct (i <? j + 1) eqn:E; [|lia]. rewrite !znth_mapr by lia. reflexivity.
Qed.
Lemma fading_next c (F : Z -> Q) j : ~ (c == 0)%Q -> 0 <= j -> (fading c (map F (zrange (j + 1))) == c * fading c (map F (zrange j)) + (1 - c) * F j)%Q.
Proof. intros C J. rewrite zrange_snoc by exact J. rewrite map_app. cbn [map]. apply fading_snoc, C. Qed.
Lemma run_nth c v l : forall s k x, nth_error l k = Some x ->
  nth_error (rec_run c v s l) k = Some (rs_kurt (fold_left (rec_step c v) (firstn (S k) l) s)).
Proof.
  induction l as [|y t IH]; intros s [|k] x H; try discriminate; cbn [rec_run nth_error].
  - reflexivity.
  - rewrite (IH _ k x H). reflexivity.
Qed.
Lemma run_len c v l : forall s, zlen (rec_run c v s l) = zlen l.
Proof. unfold zlen. induction l as [|y t IH]; intros s; cbn [rec_run List.length]; [reflexivity|]. specialize (IH (rec_step c v s y)). lia. Qed.

Section Recursion.
Context (c v : Q) (C : (0 < c)%Q) (C1 : (c < 1)%Q) (V : (0 <= v)%Q) (f : list Q).
Let s0 := mkRs 0 0 (Some 0%Q).
Let n := zlen f.
(** The state before the sample [j]. *)
Let st (j : Z) := fold_left (rec_step c v) (firstn (Z.to_nat j) f) s0.
Lemma c_not : ~ (c == 0)%Q. Proof. lra. Qed.
Lemma st_next j : 0 <= j < n -> st (j + 1) = rec_step c v (st j) (at_ f j).
Proof.
  intros J. unfold st. replace (Z.to_nat (j + 1)) with (S (Z.to_nat j)) by lia.
  assert (H : nth_error f (Z.to_nat j) = Some (at_ f j)) by (pose proof (znth_at f j J) as K; unfold znth in K; destruct (j <? 0) eqn:E; [lia|exact K]).
  assert (G : firstn (S (Z.to_nat j)) f = firstn (Z.to_nat j) f ++ [at_ f j]).
  { revert H. generalize (at_ f j). generalize (Z.to_nat j). clear. induction f as [|y t IH]; intros [|k] x H; try discriminate; cbn in *; [congruence|]. rewrite <- (IH k x H). reflexivity. }
  rewrite G, fold_left_app. reflexivity.
Qed.
Let mean j := rs_mean (st (j + 1)).
Let var j := rs_var (st (j + 1)).
Let dev j := (at_ f j - mean j)%Q.
Let top j := if qle (var j) v then v else var j.
Let e j := (Qpower (dev j) 4 / (top j * top j))%Q.
Lemma mean_step j : 0 <= j < n -> mean j = (c * rs_mean (st j) + (1 - c) * at_ f j)%Q.
Proof. intros J. unfold mean. rewrite st_next by exact J. reflexivity. Qed.
Lemma var_step j : 0 <= j < n -> var j = (c * rs_var (st j) + (1 - c) * (dev j * dev j))%Q.
Proof. intros J. unfold var, dev, mean. rewrite st_next by exact J. reflexivity. Qed.
Lemma mean_fading j : 0 <= j <= n -> (rs_mean (st j) == fading c (map (at_ f) (zrange j)))%Q.
Proof.
  intros J. rewrite <- (Z2Nat.id j) by lia. assert (K : (Z.to_nat j <= Z.to_nat n)%nat) by lia. revert K. induction (Z.to_nat j) as [|k IH]; intros K; [reflexivity|].
  replace (Z.of_nat (S k)) with (Z.of_nat k + 1) by lia. rewrite fading_next by (lia || apply c_not). rewrite <- IH by lia.
  fold (mean (Z.of_nat k)). rewrite mean_step by lia. reflexivity.
Qed.
Lemma var_fading j : 0 <= j <= n -> (rs_var (st j) == fading c (map (fun j => dev j * dev j)%Q (zrange j)))%Q.
Proof.
  intros J. rewrite <- (Z2Nat.id j) by lia. assert (K : (Z.to_nat j <= Z.to_nat n)%nat) by lia. revert K. induction (Z.to_nat j) as [|k IH]; intros K; [reflexivity|].
  replace (Z.of_nat (S k)) with (Z.of_nat k + 1) by lia. rewrite fading_next by (lia || apply c_not). rewrite <- IH by lia.
  fold (var (Z.of_nat k)). rewrite var_step by lia. reflexivity.
Qed.
Lemma var_ge j : 0 <= j <= n -> (0 <= rs_var (st j))%Q.
Proof.
  intros J. rewrite <- (Z2Nat.id j) by lia. assert (K : (Z.to_nat j <= Z.to_nat n)%nat) by lia. revert K. induction (Z.to_nat j) as [|k IH]; intros K; [cbn; lra|].
  replace (Z.of_nat (S k)) with (Z.of_nat k + 1) by lia. fold (var (Z.of_nat k)). rewrite var_step by lia. specialize (IH ltac:(lia)). pose proof (sq_nonneg (dev (Z.of_nat k))). nra.
Qed.
Lemma kurt_step j : 0 <= j < n -> (0 < top j)%Q -> forall k, rs_kurt (st j) = Some k -> exists k', rs_kurt (st (j + 1)) = Some k' /\ (k' == c * k + (1 - c) * e j)%Q.
Proof.
  intros J T k H. unfold top in T. unfold e, top. rewrite st_next by exact J. unfold rec_step. cbn [rs_kurt]. 
  rewrite <- mean_step by exact J. fold (dev j). rewrite <- var_step by exact J. rewrite H. cbn [option_map].
  destruct (qle (var j) v).
  - destruct (qle (v * v) 0) eqn:E; [apply qle_iff in E; nra|]. eexists. split; [reflexivity|]. cbn [Qpower Qpower_positive]. unfold Qpower_positive. cbn. field. lra.
  - destruct (qle (var j * var j) 0) eqn:E; [apply qle_iff in E; nra|]. eexists. split; [reflexivity|]. unfold Qpower, Qpower_positive. cbn. field. lra.
Qed.
Lemma kurt_fading : (forall j, 0 <= j < n -> (0 < top j)%Q) -> forall j, 0 <= j <= n ->
  exists k, rs_kurt (st j) = Some k /\ (k == fading c (map e (zrange j)))%Q.
Proof.
  intros T j J. rewrite <- (Z2Nat.id j) by lia. assert (K : (Z.to_nat j <= Z.to_nat n)%nat) by lia. revert K. induction (Z.to_nat j) as [|k IH]; intros K; [exists 0%Q; split; reflexivity|].
  replace (Z.of_nat (S k)) with (Z.of_nat k + 1) by lia. destruct (IH ltac:(lia)) as (x & X & F).
  destruct (kurt_step (Z.of_nat k) ltac:(lia) (T (Z.of_nat k) ltac:(lia)) x X) as (x' & X' & F'). exists x'. split; [exact X'|].
  rewrite fading_next by (lia || apply c_not). rewrite <- F. exact F'.
Qed.
Lemma run_at j : 0 <= j < n -> znth (rec_run c v s0 f) j = Some (rs_kurt (st (j + 1))).
Proof.
  intros J. assert (H : nth_error f (Z.to_nat j) = Some (at_ f j)) by (pose proof (znth_at f j J) as K; unfold znth in K; destruct (j <? 0) eqn:E; [lia|exact K]).
  unfold znth. destruct (j <? 0) eqn:E; [lia|]. rewrite (run_nth _ _ _ _ _ _ H). unfold st. do 4 f_equal. lia.
Qed.
(** Nothing is defined of a line of zeros. *)
Lemma run_zero : (v == 0)%Q -> (forall j, 0 <= j < n -> (at_ f j == 0)%Q) -> forall j, 0 <= j < n -> rs_kurt (st (j + 1)) = None.
Proof.
  intros Z F j J. assert (I : forall k, 0 <= k <= n -> (rs_mean (st k) == 0)%Q /\ (rs_var (st k) == 0)%Q).
  { intros k K. rewrite <- (Z2Nat.id k) by lia. assert (L : (Z.to_nat k <= Z.to_nat n)%nat) by lia. revert L. induction (Z.to_nat k) as [|i IH]; intros L; [split; reflexivity|].
    replace (Z.of_nat (S i)) with (Z.of_nat i + 1) by lia. destruct (IH ltac:(lia)) as [A B]. fold (mean (Z.of_nat i)) (var (Z.of_nat i)). rewrite var_step by lia. unfold dev. rewrite !mean_step by lia.
    rewrite A, B, (F (Z.of_nat i)) by lia. split; ring. }
  assert (T : (var j == 0)%Q) by (apply (I (j + 1)); lia).
  rewrite st_next by exact J. unfold rec_step. cbn [rs_kurt]. rewrite <- mean_step by exact J. fold (dev j). rewrite <- var_step by exact J.
  destruct (qle (var j) v).
  - assert (E : qle (v * v) 0 = true) by (apply qle_iff; rewrite Z; lra). rewrite E. reflexivity.
  - assert (E : qle (var j * var j) 0 = true) by (apply qle_iff; rewrite T; lra). rewrite E. reflexivity.
Qed.
Lemma top_pos : (0 < v)%Q \/ ~ (at_ f 0 == 0)%Q -> forall j, 0 <= j < n -> (0 < top j)%Q.
Proof.
  intros [P|P] j J; unfold top; destruct (qle (var j) v) eqn:E; try exact P.
  - apply qle_false in E. lra.
  - apply qle_iff in E. assert (0 < var j)%Q; [|lra]. clear E.
    destruct J as [J0 J]. rewrite <- (Z2Nat.id j J0) in J |- *. induction (Z.to_nat j) as [|k IH].
    + rewrite var_step by lia. unfold dev. rewrite mean_step by lia. change (rs_var (st (Z.of_nat 0))) with 0%Q. change (rs_mean (st (Z.of_nat 0))) with 0%Q. change (Z.of_nat 0) with 0.
      assert (E : (c * 0 + (1 - c) * ((at_ f 0 - (c * 0 + (1 - c) * at_ f 0)) * (at_ f 0 - (c * 0 + (1 - c) * at_ f 0))) == (1 - c) * (c * c) * (at_ f 0 * at_ f 0))%Q) by ring.
      rewrite E. assert (0 < at_ f 0 * at_ f 0)%Q by (destruct (Qlt_le_dec 0 (at_ f 0 * at_ f 0)) as [H|H]; [exact H|]; pose proof (sq_nonneg (at_ f 0)); exfalso; apply P, sq_zero; lra).
      apply Qmult_lt_0_compat; [apply Qmult_lt_0_compat; [lra|apply Qmult_lt_0_compat; exact C]|assumption].
    + replace (Z.of_nat (S k)) with (Z.of_nat k + 1) in * by lia. rewrite var_step by lia. fold (var (Z.of_nat k)). specialize (IH ltac:(lia)). pose proof (sq_nonneg (dev (Z.of_nat k + 1))). nra.
  - apply qle_false in E. lra.
Qed.
End Recursion.

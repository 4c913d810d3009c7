(** Proofs for color limits (C91). *)
From Verif Require Import Base BaseFacts CalcModel CalcProofs MoveModel MoveSpec MoveProofs MuteModel MuteProofs EdgeModel EdgeProofs FrameModel CmModel WaterModel WaterSpec.
From Coq Require Import Strings.String QArith Qabs Lqa Lia Sorted.
Local Open Scope Z_scope.
Local Open Scope list_scope.

Lemma qmax_ok a b : (a <= qmax a b)%Q /\ (b <= qmax a b)%Q /\ (qmax a b = a \/ qmax a b = b).
Proof. unfold qmax. destruct (Qle_bool a b) eqn:E; [apply Qle_bool_iff in E|assert (~ (a <= b)%Q) by (intro H; apply Qle_bool_iff in H; congruence)]; repeat split; auto; lra. Qed.
Lemma qmin_ok a b : (qmin a b <= a)%Q /\ (qmin a b <= b)%Q /\ (qmin a b = a \/ qmin a b = b).
Proof. unfold qmin. destruct (Qle_bool a b) eqn:E; [apply Qle_bool_iff in E|assert (~ (a <= b)%Q) by (intro H; apply Qle_bool_iff in H; congruence)]; repeat split; auto; lra. Qed.
Lemma len_pos {A} (l : list A) : l <> [] -> 0 < zlen l.
Proof. destruct l; [congruence|]. intros _. unfold zlen. cbn [List.length]. lia. Qed.
Lemma rank_bounds (l : list Q) num : l <> [] -> 0 <= num <= 3 -> 0 <= (zlen l - 1) * num / 4 < zlen l /\ 0 <= Z.min ((zlen l - 1) * num / 4 + 1) (zlen l - 1) < zlen l.
Proof.
  intros N H. pose proof (len_pos l N). assert (0 <= (zlen l - 1) * num / 4) by (apply Z.div_pos; nia).
  assert ((zlen l - 1) * num / 4 < zlen l) by (apply Z.div_lt_upper_bound; nia). lia.
Qed.
Lemma over4 k : (k # 4 == inject_Z k / 4)%Q.
Proof. unfold Qdiv, Qinv, Qmult, Qeq, inject_Z. cbn. lia. Qed.
Lemma quartile_ok l num : l <> [] -> 0 <= num <= 3 -> quarter l num (quartile l num).
Proof.
  intros N H. destruct (rank_bounds l num N H) as [B1 B2]. exists (at_ (qsort l) ((zlen l - 1) * num / 4)), (at_ (qsort l) (Z.min ((zlen l - 1) * num / 4 + 1) (zlen l - 1))).
  split; [apply ranked_sort, B1|]. split; [apply ranked_sort, B2|]. unfold quartile. cbv zeta. rewrite over4. reflexivity.
Qed.
Lemma sort_at l i j : 0 <= i <= j -> j < zlen l -> (at_ (qsort l) i <= at_ (qsort l) j)%Q.
Proof. intros H L. apply (sorted_le (qsort l) i j); [apply qsort_sorted|lia| |]; apply znth_at; rewrite qsort_len; lia. Qed.
Lemma frac_bounds k : 0 <= k mod 4 <= 3.
Proof. pose proof (Z.mod_pos_bound k 4). lia. Qed.
Lemma quartile_between l num : l <> [] -> 0 <= num <= 3 ->
  (at_ (qsort l) ((zlen l - 1) * num / 4) <= quartile l num)%Q /\ (quartile l num <= at_ (qsort l) (Z.min ((zlen l - 1) * num / 4 + 1) (zlen l - 1)))%Q.
Proof.
  intros N H. destruct (rank_bounds l num N H) as [B1 B2]. pose proof (len_pos l N).
  assert (S : (at_ (qsort l) ((zlen l - 1) * num / 4) <= at_ (qsort l) (Z.min ((zlen l - 1) * num / 4 + 1) (zlen l - 1)))%Q).
  { apply sort_at; [|lia]. split; [lia|]. assert ((zlen l - 1) * num / 4 <= zlen l - 1) by (apply Z.div_le_upper_bound; nia). lia. }
  unfold quartile. cbv zeta. set (x := at_ (qsort l) ((zlen l - 1) * num / 4)) in *. set (y := at_ (qsort l) (Z.min _ _)) in *. clearbody x y.
  pose proof (frac_bounds ((zlen l - 1) * num)) as F. set (k := (zlen l - 1) * num mod 4) in *. clearbody k.
  assert (P0 : (0 <= k # 4)%Q) by (unfold Qle; cbn; lia). assert (P2 : (k # 4 <= 1)%Q) by (unfold Qle; cbn; lia). assert (P1 : (0 <= 1 - (k # 4))%Q) by lra.
  assert (0 <= (k # 4) * (y - x))%Q by (apply Qmult_le_0_compat; lra). assert (0 <= (1 - (k # 4)) * (y - x))%Q by (apply Qmult_le_0_compat; lra). split; lra.
Qed.
Lemma quartiles_order l : l <> [] -> (qleast l <= quartile l 1)%Q /\ (quartile l 1 <= quartile l 3)%Q /\ (quartile l 3 <= qgreatest l)%Q.
Proof.
  intros N. pose proof (len_pos l N) as L. destruct (rank_bounds l 1 N ltac:(lia)) as [B1 B1']. destruct (rank_bounds l 3 N ltac:(lia)) as [B3 B3'].
  destruct (quartile_between l 1 N ltac:(lia)) as [Q1 Q1']. destruct (quartile_between l 3 N ltac:(lia)) as [Q3 Q3']. split; [|split].
  - eapply Qle_trans; [|exact Q1]. apply qleast_ok; [exact N|]. destruct (ranked_sort l _ B1) as (s & Pm & _ & Zn). eapply Permutation.Permutation_in; [apply Permutation.Permutation_sym, Pm|]. eapply znth_in, Zn.
  - destruct (Z.eq_dec ((zlen l - 1) * 1 / 4) ((zlen l - 1) * 3 / 4)) as [E|E].
    + unfold quartile. cbv zeta. rewrite E. set (x := at_ (qsort l) ((zlen l - 1) * 3 / 4)). set (y := at_ (qsort l) (Z.min _ _)).
      assert (S : (x <= y)%Q). { apply sort_at; [|lia]. split; [lia|]. assert ((zlen l - 1) * 3 / 4 <= zlen l - 1) by (apply Z.div_le_upper_bound; lia). lia. }
      assert (K : ((zlen l - 1) * 1) mod 4 <= ((zlen l - 1) * 3) mod 4). { pose proof (Z.div_mod ((zlen l - 1) * 1) 4 ltac:(lia)). pose proof (Z.div_mod ((zlen l - 1) * 3) 4 ltac:(lia)). lia. }
      clearbody x y. apply Qplus_le_r. apply Qmult_le_compat_r; [unfold Qle; cbn; lia|lra].
    + assert (E' : (zlen l - 1) * 1 / 4 <= (zlen l - 1) * 3 / 4) by (apply Z.div_le_mono; lia).
      eapply Qle_trans; [exact Q1'|]. eapply Qle_trans; [|exact Q3]. apply sort_at; lia.
  - eapply Qle_trans; [exact Q3'|]. apply qgreatest_ok; [exact N|]. destruct (ranked_sort l _ B3') as (s & Pm & _ & Zn). eapply Permutation.Permutation_in; [apply Permutation.Permutation_sym, Pm|]. eapply znth_in, Zn.
Qed.
Lemma scale_fence l : l <> [] -> exists a b q1 q3 lo hi, get_scale [] "relative"%string l = Ok [a; b] /\ quarter l 1 q1 /\ quarter l 3 q3 /\ least l lo /\ greatest l hi /\
  (lo <= a)%Q /\ (a <= q1)%Q /\ (q1 <= q3)%Q /\ (q3 <= b)%Q /\ (b <= hi)%Q /\
  (a == q1 - (3 # 2) * (q3 - q1) \/ a == lo)%Q /\ (b == q3 + (3 # 2) * (q3 - q1) \/ b == hi)%Q /\
  (q1 - (3 # 2) * (q3 - q1) <= a)%Q /\ (b <= q3 + (3 # 2) * (q3 - q1))%Q.
Proof.
  intro N. destruct (quartiles_order l N) as (O1 & O2 & O3). unfold get_scale. cbn [mem existsb String.eqb negb orb]. unfold tukey_fence. cbv zeta.
  set (q1 := quartile l 1) in *. set (q3 := quartile l 3) in *.
  destruct (qmax_ok (q1 - (q3 - q1) * (3 # 2)) (qleast l)) as (A1 & A2 & A3). destruct (qmin_ok (q3 + (q3 - q1) * (3 # 2)) (qgreatest l)) as (B1 & B2 & B3).
  eexists. eexists. exists q1, q3, (qleast l), (qgreatest l). split; [reflexivity|]. split; [apply quartile_ok; [exact N|lia]|]. split; [apply quartile_ok; [exact N|lia]|].
  split; [apply qleast_ok, N|]. split; [apply qgreatest_ok, N|]. clearbody q1 q3.
  split; [exact A2|]. split; [destruct A3 as [-> | ->]; lra|]. split; [exact O2|]. split; [destruct B3 as [-> | ->]; lra|]. split; [exact B2|].
  split; [destruct A3 as [-> | ->]; [left; ring|right; reflexivity]|]. split; [destruct B3 as [-> | ->]; [left; ring|right; reflexivity]|]. split; lra.
Qed.
Lemma scale_mean l s : l <> [] -> ~ (s == 0)%Q -> exists a b m lo hi h, get_scale [s] "relative"%string l = Ok [a; b] /\ mean_of l m /\ least l lo /\ greatest l hi /\
  (a == m - s * h)%Q /\ (b == m + s * h)%Q /\ ((lo < hi)%Q -> (h == (hi - lo) / 2)%Q) /\ ((lo == hi)%Q -> (h == 1 # 10000000000)%Q).
Proof.
  intros N S. unfold get_scale. cbn [mem existsb String.eqb negb orb]. destruct (Qeq_bool s 0) eqn:E; [apply Qeq_bool_iff in E; contradiction|].
  cbv zeta. eexists. eexists. exists (qmean l), (qleast l), (qgreatest l). eexists. split; [reflexivity|]. split; [apply qmean_ok, N|]. split; [apply qleast_ok, N|]. split; [apply qgreatest_ok, N|].
  split; [reflexivity|]. split; [reflexivity|]. clear E. destruct (Qeq_bool ((1 # 2) * (qgreatest l - qleast l)) 0) eqn:F; [apply Qeq_bool_iff in F|apply Qeq_bool_neq in F]; split; intro H.
  - exfalso. lra.
  - reflexivity.
  - field.
  - exfalso. apply F. rewrite H. ring.
Qed.
Lemma scale_range l s0 s1 : l <> [] -> (0 <= s0)%Q -> (s0 <= s1)%Q -> exists a b lo hi, get_scale [s0; s1] "relative"%string l = Ok [a; b] /\ least l lo /\ greatest l hi /\
  (a == lo + s0 * (hi - lo))%Q /\ (b == lo + s1 * (hi - lo))%Q /\ (a <= b)%Q.
Proof.
  intros N S0 S1. unfold get_scale. cbn [mem existsb String.eqb negb orb].
  assert (E : Qltb s0 0 || Qltb s1 0 || Qltb s1 s0 = false).
  { rewrite (proj2 (Qltb_ge s0 0) S0), (proj2 (Qltb_ge s1 s0) S1). rewrite (proj2 (Qltb_ge s1 0)) by lra. reflexivity. }
  rewrite E. cbv zeta. eexists. eexists. exists (qleast l), (qgreatest l). split; [reflexivity|]. split; [apply qleast_ok, N|]. split; [apply qgreatest_ok, N|]. split; [reflexivity|]. split; [reflexivity|].
  apply Qplus_le_r. apply Qmult_le_compat_r; [exact S1|]. destruct (qleast_ok l N) as [I _]. destruct (qgreatest_ok l N) as [_ G]. specialize (G _ I). lra.
Qed.
Lemma scale_absolute l : (forall s, get_scale [s] "absolute"%string l = Ok [- Qabs s; Qabs s]%Q) /\ (forall a b, get_scale [a; b] "absolute"%string l = Ok [a; b]) /\ get_scale [] "absolute"%string l = Ok [].
Proof. repeat split. Qed.
Lemma scale_refused l s ty :
  (ty <> "absolute"%string -> ty <> "relative"%string -> get_scale s ty l = Err ParameterError) /\
  (forall x, (x == 0)%Q -> get_scale [x] "relative"%string l = Err ParameterError) /\
  (forall x y, (x < 0 \/ y < 0 \/ y < x)%Q -> get_scale [x; y] "relative"%string l = Err ParameterError) /\
  (3 <= zlen s -> get_scale s "relative"%string l = Err ParameterError).
Proof.
  split; [|split; [|split]].
  - intros N1 N2. unfold get_scale. cbn [mem existsb]. apply String.eqb_neq in N1, N2. rewrite N1, N2. reflexivity.
  - intros x X. unfold get_scale. cbn [mem existsb String.eqb negb orb]. apply Qeq_bool_iff in X. rewrite X. reflexivity.
  - intros x y H. unfold get_scale. cbn [mem existsb String.eqb negb orb].
    assert (E : Qltb x 0 || Qltb y 0 || Qltb y x = true); [|rewrite E; reflexivity].
    destruct H as [H|[H|H]]; apply Qltb_lt in H; rewrite H; cbn; rewrite ?Bool.orb_true_r; reflexivity.
  - intro L. destruct s as [|a [|b [|c t]]]; try (unfold zlen in L; cbn in L; lia). reflexivity.
Qed.

(** Lemmas behind CalcProps.v: derivatives and integrals of lines. *)
From Verif Require Import Base BaseFacts CoordModel CoordSpec NdModel NdSpec NdProofs FrameModel ChunkModel CmModel CmSpec
  MergeModel AggModel MuteModel CalcModel CalcSpec.
From Coq Require Import Strings.String ZifyBool QArith Lqa.
Local Open Scope Z_scope.
Local Open Scope list_scope.

Lemma at_znth l i y : znth l i = Some y -> at_ l i = y.
Proof. intros E. unfold at_. rewrite E. reflexivity. Qed.
Lemma znth_at l i : 0 <= i < zlen l -> znth l i = Some (at_ l i).
Proof. intros B. destruct (proj2 (znth_range l i) B) as [y E]. rewrite E. f_equal. symmetry. apply at_znth, E. Qed.
Lemma znth_mapr {B} (g : Z -> B) n i : 0 <= i < n -> znth (map g (zrange n)) i = Some (g i).
Proof. intros B0. rewrite znth_map, znth_zrange. destruct ((0 <=? i) && (i <? n)) eqn:Q; [reflexivity|lia]. Qed.
Lemma zlen_mapr {B} (g : Z -> B) n : 0 <= n -> zlen (map g (zrange n)) = n.
Proof. intros H. rewrite zlen_map, zlen_zrange. lia. Qed.
Lemma at_mapr (g : Z -> Q) n i : 0 <= i < n -> at_ (map g (zrange n)) i = g i.
Proof. intros B. apply at_znth, znth_mapr, B. Qed.

(** ** Parabolas *)
Lemma fit x0 y0 x1 y1 x2 y2 x m :
  (~ x1 - x0 == 0 -> ~ x2 - x1 == 0 -> ~ x2 - x0 == 0 ->
   m == (y1 - y0) / (x1 - x0) + ((y2 - y1) / (x2 - x1) - (y1 - y0) / (x1 - x0)) / (x2 - x0) * (2 * x - x0 - x1) ->
   slope_of_fit x0 y0 x1 y1 x2 y2 x m)%Q.
Proof.
  intros A B C E.
  exists (y0 - ((y1 - y0) / (x1 - x0) - ((y2 - y1) / (x2 - x1) - (y1 - y0) / (x1 - x0)) / (x2 - x0) * (x0 + x1)) * x0
          - ((y2 - y1) / (x2 - x1) - (y1 - y0) / (x1 - x0)) / (x2 - x0) * (x0 * x0))%Q,
    ((y1 - y0) / (x1 - x0) - ((y2 - y1) / (x2 - x1) - (y1 - y0) / (x1 - x0)) / (x2 - x0) * (x0 + x1))%Q,
    (((y2 - y1) / (x2 - x1) - (y1 - y0) / (x1 - x0)) / (x2 - x0))%Q.
  unfold parabola. repeat split.
  - ring.
  - field. auto.
  - field. auto.
  - rewrite E. ring.
Qed.
(** A parabola through three points with different abscissae is the only one. *)
Lemma fit_unique x0 y0 x1 y1 x2 y2 x m a b c :
  (~ x1 - x0 == 0 -> ~ x2 - x1 == 0 -> ~ x2 - x0 == 0)%Q -> 
  (~ x1 - x0 == 0)%Q -> (~ x2 - x1 == 0)%Q ->
  slope_of_fit x0 y0 x1 y1 x2 y2 x m -> parabola a b c x0 y0 -> parabola a b c x1 y1 -> parabola a b c x2 y2 ->
  (m == b + 2 * c * x)%Q.
Proof.
  intros H A B (a' & b' & c' & E0 & E1 & E2 & ->) F0 F1 F2. specialize (H A B). unfold parabola in *.
  assert (X1 : ((x1 - x0) * ((b' - b) + (c' - c) * (x1 + x0)) == 0)%Q) by (setoid_replace ((x1 - x0) * (b' - b + (c' - c) * (x1 + x0)))%Q with ((a' + b' * x1 + c' * (x1 * x1)) - (a + b * x1 + c * (x1 * x1)) - ((a' + b' * x0 + c' * (x0 * x0)) - (a + b * x0 + c * (x0 * x0))))%Q by ring; rewrite E0, E1, F0, F1; ring).
  assert (X2 : ((x2 - x1) * ((b' - b) + (c' - c) * (x2 + x1)) == 0)%Q) by (setoid_replace ((x2 - x1) * (b' - b + (c' - c) * (x2 + x1)))%Q with ((a' + b' * x2 + c' * (x2 * x2)) - (a + b * x2 + c * (x2 * x2)) - ((a' + b' * x1 + c' * (x1 * x1)) - (a + b * x1 + c * (x1 * x1))))%Q by ring; rewrite E1, E2, F1, F2; ring).
  apply Qmult_integral in X1. apply Qmult_integral in X2.
  destruct X1 as [X1|X1]; [contradiction|]. destruct X2 as [X2|X2]; [contradiction|].
  assert (X3 : ((x2 - x0) * (c' - c) == 0)%Q) by (setoid_replace ((x2 - x0) * (c' - c))%Q with ((b' - b + (c' - c) * (x2 + x1)) - (b' - b + (c' - c) * (x1 + x0)))%Q by ring; rewrite X1, X2; ring).
  apply Qmult_integral in X3. destruct X3 as [X3|X3]; [contradiction|].
  assert (C : (c' == c)%Q) by lra. assert (B' : (b' == b)%Q) by (rewrite X3 in X1; lra). rewrite C, B'. reflexivity.
Qed.

(** ** Spacing of a line *)
Definition spaced (sp : spacing) (xs : list Q) : Prop :=
  match sp with
  | Even h => forall i, 0 <= i -> i + 1 < zlen xs -> (at_ xs (i + 1)%Z - at_ xs i == h)%Q
  | Labels l => l = xs
  end.
Definition mono (xs : list Q) : Prop :=
  (forall i j, 0 <= i < j -> j < zlen xs -> (at_ xs i < at_ xs j)%Q) \/
  (forall i j, 0 <= i < j -> j < zlen xs -> (at_ xs j < at_ xs i)%Q).
Lemma mono_ne xs i j : mono xs -> 0 <= i < j -> j < zlen xs -> ~ (at_ xs j - at_ xs i == 0)%Q.
Proof. intros [M|M] A B E; specialize (M i j A B); lra. Qed.

Lemma qdiffs_at xs i : 0 <= i -> i + 1 < zlen xs -> at_ (qdiffs xs) i = (at_ xs (i + 1)%Z - at_ xs i)%Q.
Proof. intros A B. unfold qdiffs. apply at_mapr. lia. Qed.
Lemma qdiffs_len xs : 1 <= zlen xs -> zlen (qdiffs xs) = zlen xs - 1.
Proof. intros A. unfold qdiffs. apply zlen_mapr. lia. Qed.

(** The step of an evenly spaced line. *)
Lemma grad_even_fit h xs f n i : zlen xs = n -> zlen f = n -> 3 <= n -> 0 <= i < n -> mono xs ->
  (forall j, 0 <= j -> j + 1 < n -> (at_ xs (j + 1)%Z - at_ xs j == h)%Q) ->
  let k := middle 1 n i in
  exists m, znth (grad_even h f) i = Some m /\
    slope_of_fit (at_ xs (k - 1)) (at_ f (k - 1)) (at_ xs k) (at_ f k) (at_ xs (k + 1)) (at_ f (k + 1)) (at_ xs i) m.
Proof.
  intros Lx Lf N3 B M E k. unfold grad_even. rewrite Lf, znth_mapr by lia. eexists. split; [reflexivity|].
  assert (K : 1 <= k < n - 1) by (unfold k, middle; destruct (i <? 1) eqn:Q1; [lia|destruct (n - 1 <=? i) eqn:Q2; lia]).
  assert (NZ : (~ h == 0)%Q) by (rewrite <- (E 0) by lia; apply mono_ne; auto; lia).
  pose proof (E (k - 1) ltac:(lia) ltac:(lia)) as E1. pose proof (E k ltac:(lia) ltac:(lia)) as E2. replace (k - 1 + 1)%Z with k in E1 by lia.
  assert (Z1 : (~ at_ xs k - at_ xs (k - 1)%Z == 0)%Q) by (apply mono_ne; auto; lia).
  assert (Z2 : (~ at_ xs (k + 1)%Z - at_ xs k == 0)%Q) by (apply mono_ne; auto; lia).
  assert (Z3 : (~ at_ xs (k + 1)%Z - at_ xs (k - 1)%Z == 0)%Q) by (apply mono_ne; auto; lia).
  apply fit; auto.
  assert (D3 : (at_ xs (k + 1)%Z - at_ xs (k - 1)%Z == 2 * h)%Q) by lra.
  rewrite E1, E2, D3. unfold middle in k.
  destruct (i =? 0) eqn:I0; [|destruct (i =? n - 1) eqn:I1].
  - assert (k = 1) as -> by (unfold k; destruct (i <? 1) eqn:Q; lia). assert (i = 0) as -> by lia. cbn [Z.sub Z.add Z.opp Z.pos_sub Pos.add] in *.
    setoid_replace (2 * at_ xs 0%Z - at_ xs 0%Z - at_ xs 1%Z)%Q with (- h)%Q by lra. change (1 + 1)%Z with 2. field. exact NZ.
  - assert (k = n - 2) as -> by (unfold k; destruct (i <? 1) eqn:Q; [lia|destruct (n - 1 <=? i) eqn:Q2; lia]). assert (i = n - 1) as -> by lia.
    replace (n - 2 + 1)%Z with (n - 1)%Z in * by lia. replace (n - 2 - 1)%Z with (n - 3)%Z in * by lia.
    setoid_replace (2 * at_ xs (n - 1)%Z - at_ xs (n - 3)%Z - at_ xs (n - 2)%Z)%Q with (3 * h)%Q by lra. field. exact NZ.
  - assert (k = i) as -> by (unfold k; destruct (i <? 1) eqn:Q; [lia|destruct (n - 1 <=? i) eqn:Q2; lia]).
    setoid_replace (2 * at_ xs i - at_ xs (i - 1)%Z - at_ xs i)%Q with h by lra. field. exact NZ.
Qed.
Lemma grad_labels_fit xs f n i : zlen xs = n -> zlen f = n -> 3 <= n -> 0 <= i < n -> mono xs ->
  let k := middle 1 n i in
  exists m, znth (grad_labels (qdiffs xs) f) i = Some m /\
    slope_of_fit (at_ xs (k - 1)) (at_ f (k - 1)) (at_ xs k) (at_ f k) (at_ xs (k + 1)) (at_ f (k + 1)) (at_ xs i) m.
Proof.
  intros Lx Lf N3 B M k. unfold grad_labels. rewrite Lf, znth_mapr by lia. eexists. split; [reflexivity|].
  assert (K : 1 <= k < n - 1) by (unfold k, middle; destruct (i <? 1) eqn:Q1; [lia|destruct (n - 1 <=? i) eqn:Q2; lia]).
  assert (Z1 : (~ at_ xs k - at_ xs (k - 1)%Z == 0)%Q) by (apply mono_ne; auto; lia).
  assert (Z2 : (~ at_ xs (k + 1)%Z - at_ xs k == 0)%Q) by (apply mono_ne; auto; lia).
  assert (Z3 : (~ at_ xs (k + 1)%Z - at_ xs (k - 1)%Z == 0)%Q) by (apply mono_ne; auto; lia).
  apply fit; auto. cbv zeta.
  assert (G : forall a b c : Q, (~ b - a == 0 -> ~ c - b == 0 -> ~ c - a == 0 -> ~ b - a + (c - b) == 0)%Q) by (intros a b c _ _ H Q; apply H; lra).
  pose proof (G _ _ _ Z1 Z2 Z3) as Z4. clear G. unfold middle in k.
  destruct (i =? 0) eqn:I0; [|destruct (i =? n - 1) eqn:I1].
  - assert (k = 1) as K1 by (unfold k; destruct (i <? 1) eqn:Q; lia). clearbody k. subst k. assert (i = 0) as -> by lia. rewrite !qdiffs_at by lia.
    change (1 - 1)%Z with 0 in *. change (1 + 1)%Z with 2 in *. change (0 + 1)%Z with 1. field. auto.
  - assert (k = n - 2) as K1 by (unfold k; destruct (i <? 1) eqn:Q; [lia|destruct (n - 1 <=? i) eqn:Q2; lia]). clearbody k. subst k. assert (i = n - 1) as -> by lia.
    rewrite !qdiffs_at by lia.
    replace (n - 2 + 1)%Z with (n - 1)%Z in * by lia. replace (n - 2 - 1)%Z with (n - 3)%Z in * by lia. replace (n - 3 + 1)%Z with (n - 2)%Z in * by lia.
    field. auto.
  - assert (k = i) as K1 by (unfold k; destruct (i <? 1) eqn:Q; [lia|destruct (n - 1 <=? i) eqn:Q2; lia]). clearbody k. subst k.
    rewrite !qdiffs_at by lia. replace (i - 1 + 1)%Z with i by lia. field. auto.
Qed.
Lemma gradient_fit sp xs f n i : spaced sp xs -> zlen xs = n -> zlen f = n -> 3 <= n -> 0 <= i < n -> mono xs ->
  let k := middle 1 n i in
  exists m, znth (gradient sp f) i = Some m /\
    slope_of_fit (at_ xs (k - 1)) (at_ f (k - 1)) (at_ xs k) (at_ f k) (at_ xs (k + 1)) (at_ f (k + 1)) (at_ xs i) m.
Proof.
  intros S Lx Lf N3 B M. destruct sp as [h|l]; cbn [spaced gradient] in *.
  - apply grad_even_fit; auto. intros j J1 J2. apply S; lia.
  - subst l. destruct (forallb _ _) eqn:A; [|apply grad_labels_fit; auto].
    apply grad_even_fit; auto. intros j J1 J2. rewrite <- qdiffs_at by lia. rewrite forallb_forall in A.
    symmetry. apply Qeq_bool_iff, A. apply (znth_in _ j). apply znth_at. rewrite qdiffs_len by lia. lia.
Qed.
Lemma gradient_len sp f : zlen (gradient sp f) = zlen f.
Proof.
  assert (G : forall g : Z -> Q, zlen (map g (zrange (zlen f))) = zlen f) by (intros; apply zlen_mapr, zlen_nonneg).
  unfold gradient, grad_even, grad_labels. destruct sp as [h|xs]; [apply G|]. destruct (forallb _ _); apply G.
Qed.

(** ** Every s-th element *)
Definition count (n r s : Z) : Z := (n - r + s - 1) / s.
Lemma count_step n r s : 0 < s -> 0 <= r < s -> 0 <= n ->
  count (n + 1) r s = count n r s + (if n mod s =? r then 1 else 0) /\ (n mod s = r -> n = r + count n r s * s).
Proof.
  intros S R N. unfold count. pose proof (Z.div_mod n s ltac:(lia)) as D. pose proof (Z.mod_pos_bound n s S) as Bm.
  set (q := n / s) in *. set (m := n mod s) in *.
  assert (X : forall u t, 0 <= t < s -> (s * u + t) / s = u) by (intros u t T; symmetry; apply (Z.div_unique_pos _ _ _ t); lia).
  destruct (m =? r) eqn:E.
  - assert (m = r) by lia. replace (n + 1 - r + s - 1) with (s * (q + 1) + 0) by nia. replace (n - r + s - 1) with (s * q + (s - 1)) by nia.
    rewrite !X by lia. split; [lia|intros _; nia].
  - split; [|lia]. destruct (Z_lt_dec m r).
    + replace (n + 1 - r + s - 1) with (s * q + (m - r + s)) by nia. replace (n - r + s - 1) with (s * q + (m - r + s - 1)) by nia. rewrite !X by lia. lia.
    + replace (n + 1 - r + s - 1) with (s * (q + 1) + (m - r)) by nia. replace (n - r + s - 1) with (s * (q + 1) + (m - r - 1)) by nia. rewrite !X by lia. lia.
Qed.
Lemma count_nonneg n r s : 0 < s -> 0 <= r < s -> 0 <= n -> 0 <= count n r s.
Proof. intros S R N. unfold count. apply Z.div_pos; lia. Qed.
Lemma zrange_snoc n : 0 <= n -> zrange (n + 1) = zrange n ++ [n].
Proof.
  intros N. unfold zrange. replace (Z.to_nat (n + 1)) with (S (Z.to_nat n)) by lia. rewrite seq_S, map_app. cbn [map Nat.add]. rewrite Z2Nat.id by lia. reflexivity.
Qed.
Lemma filter_mod n r s : 0 < s -> 0 <= r < s -> 0 <= n ->
  filter (fun i => i mod s =? r) (zrange n) = map (fun j => r + j * s) (zrange (count n r s)).
Proof.
  intros S R. revert n. apply natlike_ind.
  - assert (count 0 r s = 0) as -> by (unfold count; apply Z.div_small; lia). reflexivity.
  - intros n N IH. unfold Z.succ. rewrite zrange_snoc, filter_app, IH by lia. destruct (count_step n r s S R N) as [C D].
    rewrite C. cbn [filter]. destruct (n mod s =? r) eqn:E.
    + rewrite zrange_snoc, map_app by (apply count_nonneg; auto). cbn [map]. rewrite <- D by lia. reflexivity.
    + rewrite app_nil_r, Z.add_0_r. reflexivity.
Qed.
Lemma count_bound n r s j : 0 < s -> 0 <= r < s -> 0 <= n -> 0 <= j -> (j < count n r s <-> r + j * s < n).
Proof.
  intros S R N J. unfold count. pose proof (Z.div_mod (n - r + s - 1) s ltac:(lia)). pose proof (Z.mod_pos_bound (n - r + s - 1) s S).
  set (q := (n - r + s - 1) / s) in *. split; intros H1; nia.
Qed.
Lemma every_len r s l : 0 < s -> 0 <= r < s -> zlen (every r s l) = count (zlen l) r s.
Proof. intros S R. pose proof (zlen_nonneg l). unfold every. rewrite filter_mod, map_map by auto. apply zlen_mapr, count_nonneg; auto. Qed.
Lemma every_at r s l j : 0 < s -> 0 <= r < s -> 0 <= j < count (zlen l) r s -> at_ (every r s l) j = at_ l (r + j * s).
Proof. intros S R J. pose proof (zlen_nonneg l). unfold every. rewrite filter_mod, map_map by auto. rewrite at_mapr by lia. reflexivity. Qed.

Lemma strided_fit ints s sp xs f n i : spaced sp xs -> zlen xs = n -> zlen f = n -> 1 <= s -> 3 * s <= n -> 0 <= i < n -> mono xs ->
  let k := middle s n i in
  exists m, znth (strided ints s sp f) i = Some (store ints m) /\
    slope_of_fit (at_ xs (k - s)) (at_ f (k - s)) (at_ xs k) (at_ f k) (at_ xs (k + s)) (at_ f (k + s)) (at_ xs i) m.
Proof.
  intros S Lx Lf S1 N3 B M k. unfold strided. rewrite Lf, znth_mapr by lia.
  set (r := i mod s). assert (R : 0 <= r < s) by (apply Z.mod_pos_bound; lia).
  set (j := i / s). assert (I : i = r + j * s) by (unfold r, j; pose proof (Z.div_mod i s ltac:(lia)); lia).
  assert (J0 : 0 <= j) by (unfold j; apply Z.div_pos; lia).
  set (c := count n r s). assert (CB : forall u, 0 <= u -> (u < c <-> r + u * s < n)) by (intros u U; apply count_bound; lia).
  assert (C3 : 3 <= c) by (enough (2 < c) by lia; apply CB; nia).
  assert (Jc : j < c) by (apply CB; lia).
  assert (S' : spaced (every_spacing r s sp) (every r s xs)).
  { destruct sp as [h|l]; cbn [spaced every_spacing] in *; [|congruence]. intros u U1 U2. rewrite every_len, Lx in U2 by lia. fold c in U2.
    rewrite !every_at by (rewrite ?Lx; fold c; lia). assert (UB : r + (u + 1) * s < n) by (apply CB; lia).
    assert (W : forall v, 0 <= v -> r + u * s + v < n -> (at_ xs (r + u * s + v)%Z - at_ xs (r + u * s)%Z == h * inject_Z v)%Q).
    { apply (natlike_ind (fun v => r + u * s + v < n -> (at_ xs (r + u * s + v)%Z - at_ xs (r + u * s)%Z == h * inject_Z v)%Q)).
      - intros _. rewrite Z.add_0_r. change (inject_Z 0) with 0%Q. ring.
      - intros v V IH H. pose proof (S (r + u * s + v) ltac:(nia) ltac:(lia)) as E. specialize (IH ltac:(lia)).
        unfold Z.succ. rewrite inject_Z_plus. change (inject_Z 1) with 1%Q. replace (r + u * s + (v + 1)) with (r + u * s + v + 1) by lia. lra. }
    replace (r + (u + 1) * s) with (r + u * s + s) by lia. apply W; lia. }
  assert (M' : mono (every r s xs)).
  { destruct M as [M|M]; [left|right]; intros u v U V; rewrite every_len, Lx in V by lia; fold c in V;
      rewrite !every_at by (rewrite ?Lx; fold c; lia); (apply M; [nia|rewrite Lx; apply CB; lia]). }
  destruct (gradient_fit (every_spacing r s sp) (every r s xs) (every r s f) c j S') as (m & Em & F).
  - rewrite every_len, Lx by lia. reflexivity.
  - rewrite every_len, Lf by lia. reflexivity.
  - exact C3.
  - lia.
  - exact M'.
  - exists m. rewrite (at_znth _ _ _ Em). split; [reflexivity|].
    set (k' := middle 1 c j) in *. assert (K1 : 1 <= k' < c - 1) by (unfold k', middle; destruct (j <? 1) eqn:Q1; [lia|destruct (c - 1 <=? j) eqn:Q2; lia]).
    assert (KK : k = r + k' * s).
    { unfold k, k', middle. assert (X1 : (i <? s) = (j <? 1)) by (destruct (i <? s) eqn:Q1, (j <? 1) eqn:Q2; nia).
      assert (X2 : (n - s <=? i) = (c - 1 <=? j)).
      { pose proof (CB (j + 1) ltac:(lia)) as X. destruct (n - s <=? i) eqn:Q1, (c - 1 <=? j) eqn:Q2; try reflexivity; [|].
        - assert (j + 1 < c) by lia. nia.
        - assert (~ (j + 1 < c)) by lia. nia. }
      rewrite X1, X2. destruct (j <? 1); [nia|]. destruct (c - 1 <=? j); nia. }
    rewrite !every_at in F by (rewrite ?Lx, ?Lf; fold c; lia).
    replace (r + (k' - 1) * s) with (k - s) in F by nia. replace (r + (k' + 1) * s) with (k + s) in F by nia.
    rewrite <- KK, <- I in F. exact F.
Qed.
Lemma strided_len ints s sp f : zlen (strided ints s sp f) = zlen f.
Proof. unfold strided. apply zlen_mapr, zlen_nonneg. Qed.
Lemma short_slices n s : 1 <= s -> 0 <= n -> existsb (fun r => zlen (filter (fun i => i mod s =? r) (zrange n)) <? 3) (zrange s) = (n <? 3 * s).
Proof.
  intros S N. assert (E : forall r, 0 <= r < s -> zlen (filter (fun i => i mod s =? r) (zrange n)) = count n r s).
  { intros r R. rewrite filter_mod by lia. apply zlen_mapr, count_nonneg; lia. }
  destruct (n <? 3 * s) eqn:Q.
  - apply existsb_exists. exists (s - 1). split; [apply in_zrange; lia|]. rewrite E by lia.
    pose proof (count_bound n (s - 1) s 2 ltac:(lia) ltac:(lia) N ltac:(lia)). lia.
  - apply Bool.not_true_is_false. intros H. apply existsb_exists in H. destruct H as (r & R & H). apply in_zrange in R. rewrite E in H by lia.
    pose proof (count_bound n r s 2 ltac:(lia) ltac:(lia) N ltac:(lia)). lia.
Qed.

(** ** Sums *)
Lemma cumsum_len from l : zlen (cumsum from l) = zlen l.
Proof. revert from. induction l as [|x t IH]; intros from; [reflexivity|]. cbn [cumsum]. rewrite !zlen_cons, IH. reflexivity. Qed.
Fixpoint psum (from : Q) (l : list Q) (n : nat) : Q :=
  match n, l with S m, x :: t => psum (from + x)%Q t m | _, _ => from end.
Lemma cumsum_psum from l i : 0 <= i < zlen l -> znth (cumsum from l) i = Some (psum from l (Z.to_nat (i + 1))).
Proof.
  revert from i. induction l as [|x t IH]; intros from i B; [unfold zlen in B; cbn in B; lia|]. rewrite zlen_cons in B. cbn [cumsum].
  replace (Z.to_nat (i + 1)) with (S (Z.to_nat i)) by lia. cbn [psum]. destruct (Z.eq_dec i 0) as [->|N].
  - change (Z.to_nat 0) with O. destruct t; reflexivity.
  - rewrite znth_cons. destruct (i =? 0) eqn:Q; [lia|]. rewrite IH by lia. do 3 f_equal. lia.
Qed.
Lemma psum_step from l n x : nth_error l n = Some x -> (psum from l (S n) == psum from l n + x)%Q.
Proof.
  revert from n. induction l as [|y t IH]; intros from [|n] E; cbn in E; try discriminate.
  - injection E as ->. cbn. destruct t; reflexivity.
  - cbn [psum]. rewrite <- (IH _ _ E). reflexivity.
Qed.
Lemma psum_all from l : (psum from l (List.length l) == from + fold_right Qplus 0 l)%Q.
Proof. revert from. induction l as [|x t IH]; intros from; cbn; [ring|]. rewrite IH. ring. Qed.

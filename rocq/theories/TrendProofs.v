(** Lemmas behind TrendProps.v: sums and least squares. *)
From Verif Require Import Base BaseFacts CoordModel NdModel NdSpec NdProofs FrameModel ChunkModel ChunkProofs2
  CmModel TaperProofs2 ReadProofs MuteModel CalcModel CalcProofs MoveModel MoveSpec MoveProofs TrendModel TrendSpec.
From Coq Require Import Strings.String ZifyBool QArith Qabs Lqa.
Local Open Scope Z_scope.
Local Open Scope list_scope.

(** ** Sums *)
Definition sum_to (n : Z) (F : Z -> Q) : Q := qsum (map F (zrange n)).
Lemma qsum_ext {A} (F G : A -> Q) l : (forall x, In x l -> (F x == G x)%Q) -> (qsum (map F l) == qsum (map G l))%Q.
Proof.
  induction l as [|x t IH]; intros H; cbn; [reflexivity|]. rewrite (H x) by (left; reflexivity). rewrite IH by (intros; apply H; right; assumption). reflexivity.
Qed.
Lemma qsum_plus {A} (F G : A -> Q) l : (qsum (map (fun x => F x + G x) l) == qsum (map F l) + qsum (map G l))%Q.
Proof. induction l as [|x t IH]; cbn; [reflexivity|]. fold (qsum (map (fun x => F x + G x)%Q t)). rewrite IH. unfold qsum. ring. Qed.
Lemma qsum_scale {A} c (F : A -> Q) l : (qsum (map (fun x => c * F x) l) == c * qsum (map F l))%Q.
Proof. induction l as [|x t IH]; cbn; [ring|]. fold (qsum (map (fun x => c * F x)%Q t)). rewrite IH. unfold qsum. ring. Qed.
Lemma qsum_const {A} c (l : list A) : (qsum (map (fun _ => c) l) == c * inject_Z (zlen l))%Q.
Proof.
  induction l as [|x t IH]; [unfold zlen; cbn; ring|]. cbn [map qsum fold_right]. fold (qsum (map (fun _ : A => c) t)). rewrite IH.
  replace (zlen (x :: t)) with (1 + zlen t) by (unfold zlen; cbn [List.length]; lia). rewrite inject_Z_plus. ring.
Qed.
Lemma qsum_nonneg {A} (F : A -> Q) l : (forall x, In x l -> (0 <= F x)%Q) -> (0 <= qsum (map F l))%Q.
Proof.
  induction l as [|x t IH]; intros H; cbn; [lra|]. fold (qsum (map F t)). specialize (H x (or_introl eq_refl)) as Hx. assert (0 <= qsum (map F t))%Q by (apply IH; intros; apply H; right; assumption). lra.
Qed.
Lemma qsum_zero {A} (F : A -> Q) l : (forall x, In x l -> (0 <= F x)%Q) -> (qsum (map F l) == 0)%Q -> forall x, In x l -> (F x == 0)%Q.
Proof.
  induction l as [|x t IH]; intros H Z y Hy; [destruct Hy|]. cbn in Z. fold (qsum (map F t)) in Z.
  assert (0 <= F x)%Q by (apply H; left; reflexivity).
  assert (0 <= qsum (map F t))%Q by (apply qsum_nonneg; intros; apply H; right; assumption).
  destruct Hy as [<-|Hy]; [lra|]. apply IH; [intros; apply H; right; assumption|lra|exact Hy].
Qed.
Lemma sq_nonneg (x : Q) : (0 <= x * x)%Q.
Proof. nra. Qed.

Lemma list_mapr (f : list Q) : f = map (at_ f) (zrange (zlen f)).
Proof.
  apply znth_ext_len; [rewrite zlen_mapr; [reflexivity|unfold zlen; lia]|].
  intros i I. rewrite znth_mapr by exact I. apply znth_at, I.
Qed.
Lemma combine_mapr {A B} (F : Z -> A) (G : Z -> B) l : combine (map F l) (map G l) = map (fun k => (F k, G k)) l.
Proof. induction l as [|x t IH]; cbn; [reflexivity|]. rewrite IH. reflexivity. Qed.
Lemma zlen_nonneg {A} (l : list A) : 0 <= zlen l. Proof. unfold zlen. lia. Qed.

(** ** Least squares *)
Section Fit.
Context (f : list Q).
Let n := zlen f.
Let t k := (inject_Z k - middle n)%Q.
Let x := at_ f.
Let res k := (x k - (qmean f + slope f * t k))%Q.

Lemma places_map : places n = map t (zrange n).
Proof. reflexivity. Qed.
Lemma line_map : detrend_line Linear f = map res (zrange n).
Proof.
  change (detrend_line Linear f) with (map (fun e => snd e - (qmean f + slope f * fst e))%Q (combine (places n) f)).
  rewrite places_map. replace (combine (map t (zrange n)) f) with (combine (map t (zrange n)) (map x (zrange n))) by (unfold x, n; rewrite <- list_mapr; reflexivity).
  rewrite combine_mapr, map_map. reflexivity.
Qed.
Lemma sum_k m : 0 <= m -> (2 * sum_to m inject_Z == inject_Z m * inject_Z (m - 1))%Q.
Proof.
  intros M. rewrite <- (Z2Nat.id m M). induction (Z.to_nat m) as [|k IH]; [vm_compute; reflexivity|].
  replace (Z.of_nat (S k)) with (Z.of_nat k + 1) by lia. unfold sum_to in *. rewrite zrange_snoc by lia. rewrite map_app.
  assert (A : forall l y, (qsum (l ++ [y]) == qsum l + y)%Q).
  { induction l as [|z l' IHl]; intros y; cbn; [ring|]. fold (qsum (l' ++ [y])). rewrite IHl. unfold qsum. ring. }
  cbn [map]. rewrite A. replace (Z.of_nat k + 1 - 1) with (Z.of_nat k) by lia. rewrite inject_Z_plus.
  replace (Z.of_nat k - 1) with (Z.of_nat k + - (1)) in IH by lia. rewrite inject_Z_plus in IH. change (inject_Z 1) with 1%Q. change (inject_Z (-(1))) with (-(1))%Q in IH.
  lra.
Qed.
Lemma sum_t : (sum_to n t == 0)%Q.
Proof.
  unfold sum_to, t. rewrite (qsum_ext _ (fun k => inject_Z k + (- middle n))%Q) by (intros; ring). rewrite qsum_plus, qsum_const, zlen_zrange.
  fold (sum_to n inject_Z). rewrite Z.max_r by apply zlen_nonneg. unfold middle. assert (H := sum_k n (zlen_nonneg f)). 
  replace (n - 1) with (n + - (1)) in * by lia. rewrite inject_Z_plus in *. change (inject_Z (-(1))) with (-(1))%Q in *.
  assert (E : (- ((inject_Z n + - (1)) / 2) * inject_Z n == - ((inject_Z n * (inject_Z n + -(1))) / 2))%Q) by field.
  rewrite E, <- H. field.
Qed.
Lemma dot_map F G : (dot (map F (zrange n)) (map G (zrange n)) == sum_to n (fun k => F k * G k))%Q.
Proof. unfold dot, sum_to. rewrite combine_mapr, map_map. reflexivity. Qed.
Let tt := sum_to n (fun k => t k * t k)%Q.
Let tx := sum_to n (fun k => t k * x k)%Q.
Lemma slope_tt : (slope f * tt == tx)%Q.
Proof.
  unfold slope. fold n. rewrite places_map, dot_map. rewrite (list_mapr f). fold n. fold x. rewrite dot_map. fold tt. fold tx.
  destruct (Qeq_dec tt 0) as [E|E]; [|field; exact E].
  rewrite E. assert (Z : (tx == 0)%Q).
  { unfold tx, sum_to. rewrite (qsum_ext _ (fun _ => 0%Q)); [rewrite qsum_const; ring|].
    intros k K. assert (Q : (t k * t k == 0)%Q) by (revert k K; unfold tt, sum_to in E; apply (qsum_zero (fun k => t k * t k)%Q); [intros; apply sq_nonneg|exact E]).
    assert (t k == 0)%Q by nra. rewrite H. ring. }
  rewrite Z. ring.
Qed.
Lemma sum_mean : 0 < n -> (sum_to n x == qmean f * inject_Z n)%Q.
Proof.
  intros N. assert (M := qmean_ok f). unfold mean_of in M. fold n in M. rewrite M by (intros ->; unfold n, zlen in N; cbn in N; lia).
  unfold sum_to, x. unfold n. rewrite <- list_mapr. reflexivity.
Qed.
Lemma res_sum : (sum_to n res == 0)%Q.
Proof.
  destruct (Z.eq_dec n 0) as [E|E].
  - rewrite E. vm_compute. reflexivity.
  - assert (N : 0 < n) by (pose proof (zlen_nonneg f); unfold n in *; lia).
    unfold sum_to, res. rewrite (qsum_ext _ (fun k => x k + ((- qmean f) + (- slope f) * t k))%Q) by (intros; ring).
    rewrite !qsum_plus, qsum_const, qsum_scale, zlen_zrange, Z.max_r by lia. fold (sum_to n x) (sum_to n t). rewrite sum_t, sum_mean by exact N. ring.
Qed.
Lemma res_t : (sum_to n (fun k => res k * t k) == 0)%Q.
Proof.
  unfold sum_to, res. rewrite (qsum_ext _ (fun k => t k * x k + ((- qmean f) * t k + (- slope f) * (t k * t k)))%Q) by (intros; ring).
  rewrite !qsum_plus, !qsum_scale. fold (sum_to n t) (sum_to n (fun k => t k * t k)%Q) (sum_to n (fun k => t k * x k)%Q). fold tt. fold tx.
  rewrite sum_t, <- slope_tt. ring.
Qed.
(** Any other line leaves more. *)
Lemma res_least a c : (sum_to n (fun k => res k * res k) <= sum_to n (fun k => (x k - (a + c * inject_Z k)) * (x k - (a + c * inject_Z k))))%Q.
Proof.
  set (u k := (qmean f + slope f * t k - (a + c * inject_Z k))%Q).
  assert (E : (sum_to n (fun k => (x k - (a + c * inject_Z k)) * (x k - (a + c * inject_Z k)))
     == sum_to n (fun k => res k * res k) + (2 * sum_to n (fun k => res k * u k) + sum_to n (fun k => u k * u k)))%Q).
  { unfold sum_to. rewrite <- qsum_scale, <- !qsum_plus. apply qsum_ext. intros k _. unfold res, u. ring. }
  rewrite E. clear E.
  assert (E : (sum_to n (fun k => res k * u k) == 0)%Q).
  { unfold sum_to. rewrite (qsum_ext _ (fun k => (qmean f - a - c * middle n) * res k + (slope f - c) * (res k * t k))%Q).
    - rewrite qsum_plus, !qsum_scale. fold (sum_to n res) (sum_to n (fun k => res k * t k)%Q). rewrite res_sum, res_t. ring.
    - intros k _. unfold u, t. ring. }
  rewrite E. assert (0 <= sum_to n (fun k => u k * u k))%Q by (apply qsum_nonneg; intros; apply sq_nonneg). lra.
Qed.
Lemma mean_least a : (sum_to n (fun k => (x k - qmean f) * (x k - qmean f)) <= sum_to n (fun k => (x k - a) * (x k - a)))%Q.
Proof.
  destruct (Z.eq_dec n 0) as [E0|E0]; [rewrite E0; vm_compute; discriminate|].
  assert (N : 0 < n) by (pose proof (zlen_nonneg f); unfold n in *; lia).
  set (u := (qmean f - a)%Q).
  assert (E : (sum_to n (fun k => (x k - a) * (x k - a)) == sum_to n (fun k => (x k - qmean f) * (x k - qmean f))
     + (2 * u * (sum_to n x + (- qmean f) * inject_Z n) + u * u * inject_Z n))%Q).
  { assert (C : forall c, (c * inject_Z n == sum_to n (fun _ => c))%Q) by (intros c; unfold sum_to; rewrite qsum_const, zlen_zrange, Z.max_r by lia; reflexivity).
    rewrite !C. unfold sum_to. rewrite <- !qsum_plus, <- qsum_scale, <- !qsum_plus. apply qsum_ext. intros k _. unfold u. ring. }
  rewrite E, sum_mean by exact N. assert (0 < inject_Z n)%Q by (change 0%Q with (inject_Z 0); rewrite <- Zlt_Qlt; exact N). pose proof (sq_nonneg u). nra.
Qed.
End Fit.

Lemma detrend_len t f : zlen (detrend_line t f) = zlen f.
Proof.
  destruct t; cbn [detrend_line]; rewrite zlen_map; [reflexivity|].
  rewrite zlen_combine. unfold places. rewrite zlen_mapr by apply zlen_nonneg. lia.
Qed.
Lemma squares_map (F : Z -> Q) n : squares (map F (zrange n)) = sum_to n (fun k => F k * F k)%Q.
Proof. unfold squares, sum_to. rewrite map_map. reflexivity. Qed.
Lemma squares_ext l m : Forall2 Qeq l m -> (squares l == squares m)%Q.
Proof.
  unfold squares. induction 1 as [|a b l m H HH IH]; cbn; [reflexivity|]. change (total_of (map (fun x : Q => (x * x)%Q) l)) with (fold_right Qplus 0%Q (map (fun x : Q => (x * x)%Q) l)) in IH.
  change (total_of (map (fun x : Q => (x * x)%Q) m)) with (fold_right Qplus 0%Q (map (fun x : Q => (x * x)%Q) m)) in IH. rewrite IH, H. reflexivity.
Qed.
Lemma same_at l m : zlen l = zlen m -> (forall k, 0 <= k < zlen l -> (at_ l k == at_ m k)%Q) -> Forall2 Qeq l m.
Proof.
  intros L H. rewrite (list_mapr l), (list_mapr m), <- L. assert (G : forall k, In k (zrange (zlen l)) -> (at_ l k == at_ m k)%Q) by (intros k K; apply H, in_zrange, K).
  induction (zrange (zlen l)) as [|k t IH]; cbn; constructor; [apply G; left; reflexivity|apply IH; intros; apply G; right; assumption].
Qed.
Lemma linear_best f : best less_line f (detrend_line Linear f).
Proof.
  split.
  - split; [apply detrend_len|]. exists (qmean f - slope f * middle (zlen f))%Q, (slope f). intros k a b A B.
    assert (R := znth_range f k). destruct R as [R _]. assert (K : 0 <= k < zlen f) by (apply R; eauto).
    rewrite line_map, znth_mapr in B by exact K. apply some_inj in B. subst b. rewrite (at_znth _ _ _ A). ring.
  - intros h [L (a & c & H)]. rewrite line_map, squares_map. eapply Qle_trans; [apply (res_least f a c)|]. rewrite <- squares_map.
    rewrite (squares_ext _ h); [apply Qle_refl|]. apply same_at; [rewrite zlen_mapr by apply zlen_nonneg; symmetry; exact L|].
    intros k K. rewrite zlen_mapr in K by apply zlen_nonneg. rewrite at_mapr by exact K.
    rewrite (H k (at_ f k) (at_ h k)); [reflexivity|apply znth_at, K|apply znth_at; lia].
Qed.
Lemma constant_best f : best less_constant f (detrend_line Constant f).
Proof.
  assert (M : detrend_line Constant f = map (fun k => at_ f k - qmean f)%Q (zrange (zlen f))).
  { rewrite <- (map_map (at_ f) (fun y => y - qmean f)%Q), <- list_mapr. reflexivity. }
  split.
  - split; [apply detrend_len|]. exists (qmean f). intros k a b A B.
    assert (R := znth_range f k). destruct R as [R _]. assert (K : 0 <= k < zlen f) by (apply R; eauto).
    rewrite M, znth_mapr in B by exact K. apply some_inj in B. subst b. rewrite (at_znth _ _ _ A). reflexivity.
  - intros h [L (a & H)]. rewrite M, squares_map. eapply Qle_trans; [apply (mean_least f a)|]. rewrite <- squares_map.
    rewrite (squares_ext _ h); [apply Qle_refl|]. apply same_at; [rewrite zlen_mapr by apply zlen_nonneg; symmetry; exact L|].
    intros k K. rewrite zlen_mapr in K by apply zlen_nonneg. rewrite at_mapr by exact K.
    rewrite (H k (at_ f k) (at_ h k)); [reflexivity|apply znth_at, K|apply znth_at; lia].
Qed.

(** What is left adds up to nothing, and removing the trend again changes nothing. *)
Lemma detrend_sum t f : (total_of (detrend_line t f) == 0)%Q.
Proof.
  destruct t.
  - destruct f as [|y f']; [reflexivity|]. set (f := y :: f'). assert (N : f <> []) by discriminate. clearbody f.
    cbn [detrend_line]. change (total_of (map (fun x => x - qmean f)%Q f)) with (qsum (map (fun x => x - qmean f)%Q f)).
    rewrite (qsum_ext _ (fun x => x + (- qmean f))%Q) by (intros; ring). rewrite qsum_plus, qsum_const, map_id.
    assert (M := qmean_ok f N). unfold mean_of in M. change (total_of f) with (qsum f) in M. rewrite <- M. ring.
  - rewrite line_map. apply res_sum.
Qed.
(** The best is unique: two of them leave the same. *)
Lemma best_unique (off : list Q -> list Q -> Prop) f g h :
  (forall g h, off f g -> off f h -> off f (map (fun e => (fst e + snd e) / 2)%Q (combine g h))) ->
  (forall g, off f g -> zlen g = zlen f) -> best off f g -> best off f h -> Forall2 Qeq g h.
Proof.
  intros M L [Og Bg] [Oh Bh]. specialize (M g h Og Oh). assert (Lg := L _ Og). assert (Lh := L _ Oh).
  assert (B := Bg _ M). assert (E := Bh _ Og). assert (E' := Bg _ Oh).
  set (n := zlen f) in *. assert (Gm : g = map (at_ g) (zrange n)) by (rewrite <- Lg; apply list_mapr). assert (Hm : h = map (at_ h) (zrange n)) by (rewrite <- Lh; apply list_mapr).
  assert (Z : (sum_to n (fun k => (at_ g k - at_ h k) * (at_ g k - at_ h k)) == 0)%Q).
  { assert (P : (0 <= sum_to n (fun k => (at_ g k - at_ h k) * (at_ g k - at_ h k)))%Q) by (apply qsum_nonneg; intros; apply sq_nonneg).
    assert (SG : squares g = sum_to n (fun k => at_ g k * at_ g k)%Q) by (rewrite <- squares_map, <- Gm; reflexivity).
    assert (SH : squares h = sum_to n (fun k => at_ h k * at_ h k)%Q) by (rewrite <- squares_map, <- Hm; reflexivity).
    assert (SM : squares (map (fun e => (fst e + snd e) / 2)%Q (combine g h)) = sum_to n (fun k => (at_ g k + at_ h k) / 2 * ((at_ g k + at_ h k) / 2))%Q).
    { rewrite <- squares_map. rewrite <- (map_map (fun k => (at_ g k, at_ h k)) (fun e => (fst e + snd e) / 2)%Q), <- combine_mapr, <- Gm, <- Hm. reflexivity. }
    rewrite SM, SG in B. rewrite SG, SH in E, E'.
    assert (I : (sum_to n (fun k => (at_ g k - at_ h k) * (at_ g k - at_ h k)) ==
       2 * sum_to n (fun k => at_ g k * at_ g k) + 2 * sum_to n (fun k => at_ h k * at_ h k) + (-4) * sum_to n (fun k => (at_ g k + at_ h k) / 2 * ((at_ g k + at_ h k) / 2)))%Q).
    { unfold sum_to. rewrite <- !qsum_scale, <- !qsum_plus. apply qsum_ext. intros k _. field. }
    lra. }
  apply same_at; [congruence|]. intros k K. rewrite Lg in K.
  assert (Q := qsum_zero _ _ (fun k _ => sq_nonneg (at_ g k - at_ h k)) Z k (proj2 (in_zrange n k) K)). cbn beta in Q. nra.
Qed.
Lemma pair_at g h k y : znth (map (fun e => (fst e + snd e) / 2)%Q (combine g h)) k = Some y ->
  exists a b, znth g k = Some a /\ znth h k = Some b /\ y = ((a + b) / 2)%Q.
Proof.
  rewrite znth_map, znth_combine. intros H. destruct (znth g k) as [a|]; [|discriminate]. destruct (znth h k) as [b|]; [|discriminate].
  exists a, b. split; [reflexivity|]. split; [reflexivity|]. apply some_inj in H. subst y. reflexivity.
Qed.
Lemma line_unique f g h : best less_line f g -> best less_line f h -> Forall2 Qeq g h.
Proof.
  apply best_unique; [|intros k [L _]; exact L].
  intros g' h' [L (a & c & H)] [L' (a' & c' & H')]. split; [rewrite zlen_map, zlen_combine; lia|].
  exists ((a + a') / 2)%Q, ((c + c') / 2)%Q. intros k x y Kx Ky. destruct (pair_at _ _ _ _ Ky) as (u & v & U & V & ->).
  rewrite (H _ _ _ Kx U), (H' _ _ _ Kx V). field.
Qed.
Lemma constant_unique f g h : best less_constant f g -> best less_constant f h -> Forall2 Qeq g h.
Proof.
  apply best_unique; [|intros k [L _]; exact L].
  intros g' h' [L (a & H)] [L' (a' & H')]. split; [rewrite zlen_map, zlen_combine; lia|].
  exists ((a + a') / 2)%Q. intros k x y Kx Ky. destruct (pair_at _ _ _ _ Ky) as (u & v & U & V & ->).
  rewrite (H _ _ _ Kx U), (H' _ _ _ Kx V). field.
Qed.
(** Adding a line first changes nothing. *)
Lemma line_shift f f' g : less_line f f' -> best less_line f g -> best less_line f' g.
Proof.
  intros [L (a & c & H)] [[Lg (a1 & c1 & G)] B]. split.
  - split; [congruence|]. exists (a1 - a)%Q, (c1 - c)%Q. intros k x y X Y.
    destruct (proj2 (znth_range f k)) as [z Zk]; [rewrite <- L; apply znth_range; eauto|].
    rewrite (G _ _ _ Zk Y). rewrite (H _ _ _ Zk X). ring.
  - intros h [Lh (a2 & c2 & G2)]. apply B. split; [congruence|]. exists (a + a2)%Q, (c + c2)%Q. intros k x y X Y.
    destruct (proj2 (znth_range f' k)) as [z Zk]; [rewrite L; apply znth_range; eauto|].
    rewrite (G2 _ _ _ Zk Y). rewrite (H _ _ _ X Zk). ring.
Qed.
Lemma constant_shift f f' g : less_constant f f' -> best less_constant f g -> best less_constant f' g.
Proof.
  intros [L (a & H)] [[Lg (a1 & G)] B]. split.
  - split; [congruence|]. exists (a1 - a)%Q. intros k x y X Y.
    destruct (proj2 (znth_range f k)) as [z Zk]; [rewrite <- L; apply znth_range; eauto|].
    rewrite (G _ _ _ Zk Y). rewrite (H _ _ _ Zk X). ring.
  - intros h [Lh (a2 & G2)]. apply B. split; [congruence|]. exists (a + a2)%Q. intros k x y X Y.
    destruct (proj2 (znth_range f' k)) as [z Zk]; [rewrite L; apply znth_range; eauto|].
    rewrite (G2 _ _ _ Zk Y). rewrite (H _ _ _ X Zk). ring.
Qed.

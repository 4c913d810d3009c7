(** More proofs for cell edges (C87). *)
From Verif Require Import Base BaseFacts CoordModel NdModel CalcModel CalcProofs MoveModel MoveSpec MoveProofs MuteModel MuteProofs EdgeModel EdgeSpec EdgeProofs.
From Coq Require Import QArith Qabs Lqa Lia.
Local Open Scope Z_scope.
Local Open Scope list_scope.

Lemma cells_count es gs cs : cells es gs cs -> zlen es = zlen cs + 1 + gaps gs.
Proof. induction 1; cbn [gaps]; [reflexivity| |]; rewrite !zlen_c in *; lia. Qed.

Lemma edges_all dt l f sg : 2 <= zlen l -> heads sg l ->
  exists m es gs cs, middle_interval l m /\ gap_edges dt l f = Ok (es, gs) /\ cells es gs cs /\ zlen cs = zlen l /\ zlen gs = zlen l - 1 /\
    (forall i u v, znth l i = Some u -> znth l (i + 1) = Some v -> exists g a b, znth gs i = Some g /\ option_map snd (znth cs i) = Some a /\ option_map fst (znth cs (i + 1)) = Some b /\
       (g = true <-> exists k, f = Some k /\ (k * m < Qabs (v - u))%Q) /\
       if g then (a == u + sg * m / 2)%Q /\ (b == v - sg * m / 2)%Q else (a == (u + v) / 2)%Q /\ (b == (u + v) / 2)%Q) /\
    (forall u a b, znth l 0 = Some u -> znth cs 0 = Some (a, b) -> (u - a == b - u)%Q) /\
    (forall u a b, znth l (zlen l - 1) = Some u -> znth cs (zlen l - 1) = Some (a, b) -> (u - a == b - u)%Q).
Proof.
  intros N H. pose proof (med_ok l N) as M. destruct (edges_ok dt l f sg (med l) N H M (Qeq_refl _)) as (es & gs & cs & K).
  exists (med l), es, gs, cs. split; [exact M|exact K].
Qed.

Lemma edges_inside dt l f sg es gs : 2 <= zlen l -> heads sg l -> gap_edges dt l f = Ok (es, gs) ->
  exists cs, cells es gs cs /\ zlen cs = zlen l /\
    (forall i u a b, znth l i = Some u -> znth cs i = Some (a, b) -> (0 < sg * (u - a) /\ 0 < sg * (b - u))%Q) /\
    (match f with Some k => (1 <= k)%Q | None => True end ->
     forall i a b c d g, znth cs i = Some (a, b) -> znth cs (i + 1) = Some (c, d) -> znth gs i = Some g ->
       if g then (0 < sg * (c - b))%Q else (c == b)%Q).
Proof.
  intros N H E. destruct (edges_all dt l f sg N H) as (m & es' & gs' & cs & M & E' & C & Nc & Ng & B & F & L). rewrite E in E'.
  assert (es' = es) by congruence. assert (gs' = gs) by congruence. subst es' gs'. exists cs. split; [exact C|]. split; [exact Nc|].
  pose proof (middle_pos sg l m H M) as Mp. destruct H as [S H].
  assert (Sq : (sg * sg == 1)%Q) by (destruct S as [->| ->]; reflexivity).
  assert (R : forall i u b', znth l i = Some u -> i + 1 < zlen l -> option_map snd (znth cs i) = Some b' -> (0 < sg * (b' - u))%Q).
  { intros i u b' U Li Z. destruct (znth_ok l (i + 1)) as (v & V); [pose proof (znth_lt _ _ _ U); lia|].
    destruct (B i u v U V) as (g & p & q & G & P1 & P2 & _ & P3). rewrite P1 in Z. apply some_inj in Z. subst b'. specialize (H i u v U V).
    destruct g; destruct P3 as [P3 _]; rewrite P3.
    - setoid_replace (sg * (u + sg * m / 2 - u))%Q with ((sg * sg) * (m * (1 # 2)))%Q by field. rewrite Sq. lra.
    - setoid_replace (sg * ((u + v) / 2 - u))%Q with ((sg * (v - u)) * (1 # 2))%Q by field. lra. }
  assert (Lf : forall i u a', znth l i = Some u -> 0 < i -> option_map fst (znth cs i) = Some a' -> (0 < sg * (u - a'))%Q).
  { intros i u a' U Li Z. destruct (znth_ok l (i - 1)) as (w & W); [pose proof (znth_lt _ _ _ U); lia|].
    replace i with (i - 1 + 1) in U, Z by lia.
    destruct (B _ w u W U) as (g & p & q & G & P1 & P2 & _ & P3). rewrite P2 in Z. apply some_inj in Z. subst a'. specialize (H _ w u W U).
    destruct g; destruct P3 as [_ P3]; rewrite P3.
    - setoid_replace (sg * (u - (u - sg * m / 2)))%Q with ((sg * sg) * (m * (1 # 2)))%Q by field. rewrite Sq. lra.
    - setoid_replace (sg * (u - (w + u) / 2))%Q with ((sg * (u - w)) * (1 # 2))%Q by field. lra. }
  split.
  - intros i u a b U Z. pose proof (znth_lt _ _ _ U) as Bi.
    assert (Zf : option_map fst (znth cs i) = Some a) by (rewrite Z; reflexivity). assert (Zs : option_map snd (znth cs i) = Some b) by (rewrite Z; reflexivity).
    destruct (Z.eq_dec i 0) as [->|N0].
    + specialize (R 0 u b U ltac:(lia) Zs). specialize (F u a b U Z). split; [rewrite F|]; exact R.
    + specialize (Lf i u a U ltac:(lia) Zf). split; [exact Lf|]. destruct (Z.eq_dec i (zlen l - 1)) as [->|N1].
      * specialize (L u a b U Z). rewrite <- L. exact Lf.
      * apply (R i u b U ltac:(lia) Zs).
  - intros K i a b c d g Z1 Z2 G. pose proof (znth_lt _ _ _ Z1) as B1. pose proof (znth_lt _ _ _ Z2) as B2.
    destruct (znth_ok l i) as (u & U); [lia|]. destruct (znth_ok l (i + 1)) as (v & V); [lia|].
    destruct (B i u v U V) as (g' & p & q & G' & P1 & P2 & Gi & P3). rewrite Z1 in P1. rewrite Z2 in P2. cbn in P1, P2. apply some_inj in P1. apply some_inj in P2. subst p q.
    assert (g' = g) by congruence. subst g'. specialize (H i u v U V). destruct g; destruct P3 as [P3 P4].
    + rewrite P3, P4. destruct Gi as [Gi _]. destruct (Gi eq_refl) as (k & -> & Kk). cbn in K.
      setoid_replace (sg * (v - sg * m / 2 - (u + sg * m / 2)))%Q with (sg * (v - u) - (sg * sg) * m)%Q by field. rewrite Sq.
      assert (Ab : (Qabs (v - u) == sg * (v - u))%Q).
      { destruct S as [->| ->]; [rewrite Qabs_pos by lra; ring|rewrite Qabs_neg by lra; ring]. }
      rewrite Ab in Kk. assert ((m <= k * m)%Q); [|lra]. assert ((1 * m <= k * m)%Q) by (apply Qmult_le_compat_r; lra). lra.
    + rewrite P3, P4. reflexivity.
Qed.

Lemma all_diffs (P : Q -> bool) l : forallb P (diffs l) = true <-> forall i x y, znth l i = Some x -> znth l (i + 1) = Some y -> P (y - x)%Q = true.
Proof.
  split.
  - intros F i x y X Y. pose proof (diffs_nth l i x y X Y) as D. rewrite forallb_forall in F. apply F. unfold znth in D. destruct (i <? 0); [discriminate|]. eapply nth_error_In, D.
  - intros H. apply forallb_forall. intros d I. apply In_nth_error in I as (n & I). assert (Zn : znth (diffs l) (Z.of_nat n) = Some d).
    { unfold znth. destruct (Z.of_nat n <? 0) eqn:E; [apply Z.ltb_lt in E; lia|]. rewrite Nat2Z.id. exact I. }
    destruct l as [|x0 t]; [destruct n; discriminate|]. pose proof (znth_lt _ _ _ Zn) as B. rewrite diffs_len in B by discriminate.
    destruct (znth_ok (x0 :: t) (Z.of_nat n)) as (x & X); [lia|]. destruct (znth_ok (x0 :: t) (Z.of_nat n + 1)) as (y & Y); [lia|].
    rewrite (diffs_nth _ _ _ _ X Y) in Zn. apply some_inj in Zn. subst d. apply (H _ _ _ X Y).
Qed.
Lemma traverse_map_some {A} (l : list A) : traverse id (map Some l) = Some l.
Proof. induction l as [|x l IH]; [reflexivity|]. cbn [map traverse id]. rewrite IH. reflexivity. Qed.
Lemma traverse_some_inv {A} : forall (vs : list (option A)) l, traverse id vs = Some l -> vs = map Some l.
Proof.
  induction vs as [|v vs IH]; intros l T; cbn in T; [apply some_inj in T; subst; reflexivity|]. unfold id in T at 1. destruct v as [x|]; [|discriminate].
  destruct (traverse id vs) as [l'|] eqn:E; [|discriminate]. apply some_inj in T. subst l. cbn. rewrite (IH l' eq_refl). reflexivity.
Qed.
Lemma monotone_iff vs : monotonic_and_finite vs = true <-> exists l sg, vs = map Some l /\ heads sg l.
Proof.
  unfold monotonic_and_finite. split.
  - intro H. destruct (traverse id vs) as [l|] eqn:T; [|discriminate]. apply traverse_some_inv in T. exists l.
    apply Bool.orb_true_iff in H as [H|H]; [apply Bool.orb_true_iff in H as [H|H]|].
    + exists 1%Q. split; [exact T|]. split; [left; reflexivity|]. intros i x y X Y. exfalso. pose proof (diffs_nth l i x y X Y) as D. apply Z.eqb_eq in H.
      apply znth_lt in D. lia.
    + exists 1%Q. split; [exact T|]. split; [left; reflexivity|]. intros i x y X Y. pose proof (proj1 (all_diffs _ l) H i x y X Y) as K. cbn in K. apply Qltb_lt in K. lra.
    + exists (-1)%Q. split; [exact T|]. split; [right; reflexivity|]. intros i x y X Y. pose proof (proj1 (all_diffs _ l) H i x y X Y) as K. cbn in K. apply Qltb_lt in K. lra.
  - intros (l & sg & -> & S & H). rewrite traverse_map_some. destruct S as [->| ->].
    + assert (F : forallb (fun d => Qltb 0 d) (diffs l) = true); [|rewrite F, Bool.orb_true_r; reflexivity].
      apply all_diffs. intros i x y X Y. apply Qltb_lt. specialize (H i x y X Y). lra.
    + assert (F : forallb (fun d => Qltb d 0) (diffs l) = true); [|rewrite F, !Bool.orb_true_r; reflexivity].
      apply all_diffs. intros i x y X Y. apply Qltb_lt. specialize (H i x y X Y). lra.
Qed.

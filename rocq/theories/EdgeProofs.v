(** Proofs for cell edges (C87). *)
From Verif Require Import Base BaseFacts CoordModel CalcModel CalcProofs MoveModel MoveSpec MoveProofs MuteModel MuteProofs EdgeModel EdgeSpec.
From Coq Require Import QArith Qabs Lqa Lia Sorting.Permutation.
Local Open Scope Z_scope.
Local Open Scope list_scope.

Lemma znth_cons {A} (x : A) l i : 0 < i -> znth (x :: l) i = znth l (i - 1).
Proof.
  intro H. unfold znth. destruct (i <? 0) eqn:E1; [apply Z.ltb_lt in E1; lia|]. destruct (i - 1 <? 0) eqn:E2; [apply Z.ltb_lt in E2; lia|].
  replace (Z.to_nat i) with (S (Z.to_nat (i - 1))) by lia. reflexivity.
Qed.
Lemma znth_head {A} (x : A) l : znth (x :: l) 0 = Some x.
Proof. reflexivity. Qed.
Lemma znth_neg {A} (l : list A) i : i < 0 -> znth l i = None.
Proof. intro H. unfold znth. apply Z.ltb_lt in H. rewrite H. reflexivity. Qed.
Lemma zlen_c {A} (x : A) l : zlen (x :: l) = zlen l + 1.
Proof. unfold zlen. cbn [Datatypes.length]. lia. Qed.

Lemma diffs_len l : l <> [] -> zlen (diffs l) = zlen l - 1.
Proof.
  induction l as [|x [|y t] IH]; intro H; [contradiction|reflexivity|].
  change (diffs (x :: y :: t)) with ((y - x)%Q :: diffs (y :: t)). rewrite !zlen_c, IH by discriminate. rewrite zlen_c. lia.
Qed.
Lemma diffs_nth l : forall i u v, znth l i = Some u -> znth l (i + 1) = Some v -> znth (diffs l) i = Some (v - u)%Q.
Proof.
  induction l as [|x [|y t] IH]; intros i u v U V; [unfold znth in U; destruct (i <? 0); [discriminate|destruct (Z.to_nat i); discriminate]| |].
  - destruct (Z.eq_dec i 0) as [->|N].
    + unfold znth in V. cbn in V. discriminate.
    + destruct (Z_lt_ge_dec i 0); [rewrite znth_neg in U by lia; discriminate|]. rewrite znth_cons in U by lia. unfold znth in U.
      destruct (i - 1 <? 0); [discriminate|destruct (Z.to_nat (i - 1)); discriminate].
  - change (diffs (x :: y :: t)) with ((y - x)%Q :: diffs (y :: t)). destruct (Z.eq_dec i 0) as [->|N].
    + rewrite znth_head in U. rewrite znth_cons in V by lia. change (0 + 1 - 1) with 0 in V. rewrite znth_head in V.
      apply some_inj in U. apply some_inj in V. subst. reflexivity.
    + destruct (Z_lt_ge_dec i 0); [rewrite znth_neg in U by lia; discriminate|]. rewrite znth_cons in U by lia. rewrite znth_cons in V by lia.
      rewrite znth_cons by lia. apply IH; [exact U|]. rewrite <- V. f_equal. lia.
Qed.
Lemma znth_map {A B} (f : A -> B) l i : znth (map f l) i = option_map f (znth l i).
Proof. unfold znth. destruct (i <? 0); [reflexivity|]. apply nth_error_map. Qed.
Lemma zlen_map {A B} (f : A -> B) l : zlen (map f l) = zlen l.
Proof. unfold zlen. rewrite map_length. reflexivity. Qed.
Lemma znth_ok {A} (l : list A) i : 0 <= i < zlen l -> exists x, znth l i = Some x.
Proof.
  intro H. unfold znth, zlen in *. destruct (i <? 0) eqn:E; [apply Z.ltb_lt in E; lia|].
  destruct (nth_error l (Z.to_nat i)) eqn:F; [eauto|]. apply nth_error_None in F. lia.
Qed.
Lemma znth_lt {A} (l : list A) i x : znth l i = Some x -> 0 <= i < zlen l.
Proof.
  intro H. unfold znth, zlen in *. destruct (i <? 0) eqn:E; [discriminate|]. apply Z.ltb_ge in E.
  assert (Z.to_nat i < Datatypes.length l)%nat by (apply nth_error_Some; rewrite H; discriminate). lia.
Qed.

Definition med (l : list Q) : Q := bn_median (map Qabs (diffs l)).
Lemma med_ok l : 2 <= zlen l -> middle_interval l (med l).
Proof.
  intro N. assert (l <> []) by (intros ->; cbn in N; lia). assert (L : zlen (map Qabs (diffs l)) = zlen l - 1) by (rewrite zlen_map; apply diffs_len; assumption).
  assert (K : map Qabs (diffs l) <> []) by (intro K; rewrite K in L; cbn in L; lia).
  destruct (bn_reduce_ok (fun q => q) 0 OMedian (map Qabs (diffs l))) as (x & y & X & Y & M); [discriminate|exact K|].
  exists (map Qabs (diffs l)), x, y. split; [exact L|]. split; [|split; [exact X|split; [exact Y|exact M]]].
  intros i u v U V. rewrite znth_map, (diffs_nth l i u v U V). reflexivity.
Qed.
Lemma ranked_in l k v : ranked l k v -> In v l.
Proof.
  intros (s & P & _ & Z). eapply Permutation_in; [symmetry; exact P|]. unfold znth in Z. destruct (k <? 0); [discriminate|]. eapply nth_error_In, Z.
Qed.
Lemma middle_pos sg l m : heads sg l -> middle_interval l m -> (0 < m)%Q.
Proof.
  intros [S H] (ds & x & y & L & D & X & Y & M).
  assert (P : forall v, In v ds -> (0 < v)%Q).
  { intros v I. apply In_nth_error in I as (n & I). assert (Zn : znth ds (Z.of_nat n) = Some v).
    { unfold znth. destruct (Z.of_nat n <? 0) eqn:E; [apply Z.ltb_lt in E; lia|]. rewrite Nat2Z.id. exact I. }
    pose proof (znth_lt _ _ _ Zn) as B. destruct (znth_ok l (Z.of_nat n)) as (u & U); [lia|]. destruct (znth_ok l (Z.of_nat n + 1)) as (w & W); [lia|].
    specialize (D _ _ _ U W). specialize (H _ _ _ U W). rewrite Zn in D. apply some_inj in D. subst v.
    destruct S as [->| ->]; apply Qabs_case; intro; lra. }
  apply ranked_in, P in X. apply ranked_in, P in Y. rewrite M. apply Qlt_shift_div_l; [lra|]. lra.
Qed.

Lemma mask_len ds f : zlen (gap_mask ds f) = zlen ds.
Proof. destruct f; cbn; apply zlen_map. Qed.
Lemma mask_nth l f i u v : znth l i = Some u -> znth l (i + 1) = Some v ->
  exists g, znth (gap_mask (diffs l) f) i = Some g /\
    (g = true <-> exists k, f = Some k /\ (med l * k < Qabs (v - u))%Q).
Proof.
  intros U V. pose proof (diffs_nth l i u v U V) as D. destruct f as [k|]; cbn [gap_mask]; rewrite znth_map, D; cbn [option_map]; eexists; (split; [reflexivity|]).
  - rewrite Qltb_lt. fold (med l). split.
    + intro H. exists k. split; [reflexivity|]. exact H.
    + intros (k' & E & H). apply some_inj in E. subst k'. exact H.
  - split; [discriminate|]. intros (k & E & _). discriminate.
Qed.

(** The edges between the first and the last. *)
Lemma inner_cells step : forall l gs lo hi, l <> [] -> zlen gs = zlen l - 1 ->
  exists cs, cells (lo :: inner_edges l gs step ++ [hi]) gs cs /\ zlen cs = zlen l /\
    option_map fst (znth cs 0) = Some lo /\ option_map snd (znth cs (zlen l - 1)) = Some hi /\
    forall i u v g, znth l i = Some u -> znth l (i + 1) = Some v -> znth gs i = Some g ->
      exists p q r s, znth cs i = Some (p, q) /\ znth cs (i + 1) = Some (r, s) /\
        if g then (q == u + step / 2)%Q /\ (r == v - step / 2)%Q else (q == (u + v) / 2)%Q /\ (r == (u + v) / 2)%Q.
Proof.
  induction l as [|x [|y t] IH]; intros gs lo hi H L; [contradiction| |].
  - destruct gs as [|g gs]; [|rewrite zlen_c in L; unfold zlen in L; cbn in L; lia]. exists [(lo, hi)]. split; [constructor|]. split; [reflexivity|]. split; [reflexivity|]. split; [reflexivity|].
    intros i u v g _ _ G. unfold znth in G. destruct (i <? 0); [discriminate|destruct (Z.to_nat i); discriminate].
  - destruct gs as [|g gs]; [rewrite !zlen_c in L; unfold zlen in L; cbn in L; lia|]. rewrite !zlen_c in L.
    set (e1 := if g then (x + step / 2)%Q else (x + (y - x) / 2)%Q). set (e2 := if g then (y - step / 2)%Q else e1).
    destruct (IH gs e2 hi) as (cs & C & N & F & La & B); [discriminate|rewrite zlen_c; lia|]. rewrite zlen_c in N, La.
    exists ((lo, e1) :: cs). split.
    { change (inner_edges (x :: y :: t) (g :: gs) step) with ((if g then [x + step / 2; y - step / 2] else [x + (y - x) / 2])%Q ++ inner_edges (y :: t) gs step).
      subst e2 e1. destruct g; cbn [app]; constructor; exact C. }
    split; [rewrite !zlen_c; lia|]. split; [reflexivity|]. split.
    { rewrite !zlen_c. rewrite znth_cons by (unfold zlen; lia). rewrite <- La. do 2 f_equal. lia. }
    intros i u v g' U V G. destruct (Z.eq_dec i 0) as [->|Ni].
    + rewrite znth_head in U. rewrite znth_head in G. rewrite znth_cons in V by lia. change (0 + 1 - 1) with 0 in V. rewrite znth_head in V.
      apply some_inj in U. apply some_inj in V. apply some_inj in G. subst u v g'.
      destruct (znth cs 0) as [[r s]|] eqn:E0; [|discriminate]. cbn in F. apply some_inj in F. subst r.
      exists lo, e1, e2, s. split; [reflexivity|]. split; [rewrite znth_cons by lia; exact E0|]. subst e2 e1. destruct g; (split; [|]); try reflexivity; field.
    + pose proof (znth_lt _ _ _ G). rewrite znth_cons in U by lia. rewrite znth_cons in V by lia. rewrite znth_cons in G by lia.
      replace (i + 1 - 1) with (i - 1 + 1) in V by lia. destruct (B _ _ _ _ U V G) as (p & q & r & s & P1 & P2 & P3).
      exists p, q, r, s. split; [rewrite znth_cons by lia; exact P1|]. split; [rewrite znth_cons by lia; rewrite <- P2; f_equal; lia|exact P3].
Qed.
Lemma inner_plain step : forall l gs, existsb id gs = false -> zlen gs = zlen l - 1 ->
  inner_edges l gs step = map (fun e => fst e + snd e / 2)%Q (combine l (diffs l)).
Proof.
  induction l as [|x [|y t] IH]; intros gs E L; [reflexivity|destruct gs; reflexivity|].
  destruct gs as [|g gs]; [rewrite !zlen_c in L; unfold zlen in L; cbn in L; lia|]. cbn [existsb id] in E. apply Bool.orb_false_iff in E as [E1 E2]. unfold id in E1. subst g.
  change (inner_edges (x :: y :: t) (false :: gs) step) with ([x + (y - x) / 2]%Q ++ inner_edges (y :: t) gs step).
  rewrite IH; [reflexivity|exact E2|]. rewrite !zlen_c in *. lia.
Qed.
Lemma last_znth {A} (l : list A) d : l <> [] -> znth l (zlen l - 1) = Some (List.last l d).
Proof.
  induction l as [|x [|y t] IH]; intro H; [contradiction|reflexivity|].
  rewrite zlen_c, znth_cons by (rewrite zlen_c; unfold zlen; lia). change (List.last (x :: y :: t) d) with (List.last (y :: t) d).
  rewrite <- IH by discriminate. f_equal. lia.
Qed.
Lemma at_some l i x : znth l i = Some x -> at_ l i = x.
Proof. intro H. unfold at_. rewrite H. reflexivity. Qed.
Lemma existsb_nth gs i : existsb id gs = false -> znth gs i = Some true -> False.
Proof.
  intros E H. unfold znth in H. destruct (i <? 0); [discriminate|]. apply nth_error_In in H. assert (existsb id gs = true); [|congruence].
  apply existsb_exists. exists true. split; [exact H|reflexivity].
Qed.

Theorem edges_ok dt l f sg m : 2 <= zlen l -> heads sg l -> middle_interval l m -> (m == med l)%Q ->
  exists es gs cs, gap_edges dt l f = Ok (es, gs) /\ cells es gs cs /\ zlen cs = zlen l /\ zlen gs = zlen l - 1 /\
    (forall i u v, znth l i = Some u -> znth l (i + 1) = Some v -> exists g a b, znth gs i = Some g /\ option_map snd (znth cs i) = Some a /\ option_map fst (znth cs (i + 1)) = Some b /\
       (g = true <-> exists k, f = Some k /\ (k * m < Qabs (v - u))%Q) /\
       if g then (a == u + sg * m / 2)%Q /\ (b == v - sg * m / 2)%Q else (a == (u + v) / 2)%Q /\ (b == (u + v) / 2)%Q) /\
    (forall u a b, znth l 0 = Some u -> znth cs 0 = Some (a, b) -> (u - a == b - u)%Q) /\
    (forall u a b, znth l (zlen l - 1) = Some u -> znth cs (zlen l - 1) = Some (a, b) -> (u - a == b - u)%Q).
Proof.
  intros N [S H] M Em. destruct l as [|x [|y t]]; [cbn in N; lia|cbn in N; lia|]. set (l := x :: y :: t) in *.
  assert (Ne : l <> []) by discriminate.
  set (ds := diffs l). set (gs := gap_mask ds f). assert (Lg : zlen gs = zlen l - 1) by (subst gs; rewrite mask_len; apply diffs_len, Ne).
  assert (Ld : zlen ds = zlen l - 1) by (apply diffs_len, Ne).
  set (first := at_ ds 0). set (last := at_ ds (zlen ds - 1)). set (signed := if Qltb 0 first then med l else (- med l)%Q).
  assert (Hf : first = (y - x)%Q) by reflexivity.
  assert (Sg : (signed == sg * m)%Q).
  { assert (K : (0 < sg * (y - x))%Q) by (apply (H 0); reflexivity). subst signed. rewrite Hf. rewrite Em. destruct S as [->| ->].
    - assert (Q1 : Qltb 0 (y - x) = true) by (apply Qltb_lt; lra). rewrite Q1. lra.
    - assert (Q1 : Qltb 0 (y - x) = false) by (apply Qltb_ge; lra). rewrite Q1. lra. }
  set (fs := if existsb id gs then match gs with true :: _ => signed | _ => first end else first).
  set (ls := if existsb id gs then (if List.last gs false then signed else last) else last).
  set (xl := at_ l (zlen l - 1)).
  destruct (inner_cells signed l gs (x - fs / 2)%Q (xl + ls / 2)%Q Ne Lg) as (cs & C & Nc & F & La & B).
  exists ((x - fs / 2)%Q :: inner_edges l gs signed ++ [(xl + ls / 2)%Q]), gs, cs.
  split.
  { unfold gap_edges. subst l. cbv beta iota zeta. fold ds. fold gs. fold first. fold last. fold xl. fold (med (x :: y :: t)). fold signed.
    subst fs ls. destruct (existsb id gs) eqn:E; cbn [negb].
    - reflexivity.
    - rewrite (inner_plain signed _ _ E Lg). reflexivity. }
  split; [exact C|]. split; [exact Nc|]. split; [exact Lg|]. split; [|split].
  - intros i u v U V. destruct (mask_nth l f i u v U V) as (g & G & Gi). destruct (B _ _ _ _ U V G) as (p & q & r & s & P1 & P2 & P3).
    exists g, q, r. split; [exact G|]. rewrite P1, P2. split; [reflexivity|]. split; [reflexivity|]. split.
    + rewrite Gi. split; intros (k & K1 & K2); exists k; (split; [exact K1|]); rewrite Em in *; rewrite Qmult_comm; exact K2.
    + destruct g; destruct P3 as [P3 P4]; rewrite P3, P4; split; try reflexivity; rewrite Sg; reflexivity.
  - intros u a b U Cz. rewrite Cz in F. cbn in F. apply some_inj in F. subst a. assert (u = x) by (symmetry; apply some_inj; exact U). subst u.
    destruct (mask_nth l f 0 x y) as (g & G & _); [reflexivity|reflexivity|]. fold ds in G. fold gs in G.
    destruct (B 0 x y g) as (p & q & r & s & P1 & P2 & P3); [reflexivity|reflexivity|exact G|]. rewrite P1 in Cz. apply some_inj in Cz.
    assert (q = b) by congruence. subst q. destruct gs as [|g0 gs0]; [discriminate|]. rewrite znth_head in G. apply some_inj in G. subst g0.
    subst fs. destruct g.
    + cbn [existsb id orb]. destruct P3 as [P3 _]. rewrite P3. field.
    + assert (X : (if existsb id (false :: gs0) then first else first) = first) by (destruct (existsb id (false :: gs0)); reflexivity).
      rewrite X. destruct P3 as [P3 _]. rewrite P3, Hf. field.
  - intros u a b U Cz. rewrite Cz in La. cbn in La. apply some_inj in La. subst b.
    assert (Xl : xl = u) by (apply at_some; exact U). 
    destruct (znth_ok l (zlen l - 2)) as (w & W); [lia|]. replace (zlen l - 1) with (zlen l - 2 + 1) in U, Cz by lia.
    destruct (mask_nth l f _ w u W U) as (g & G & _). fold ds in G. fold gs in G.
    destruct (B _ w u g W U G) as (p & q & r & s & P1 & P2 & P3). rewrite P2 in Cz. apply some_inj in Cz. assert (r = a) by congruence. subst r.
    assert (Gl : List.last gs false = g).
    { apply some_inj. rewrite <- G. rewrite <- (last_znth gs false) by (intro K; rewrite K in Lg; unfold zlen at 1 in Lg; cbn [Datatypes.length] in Lg; lia). f_equal. lia. }
    assert (Hl : last = (u - w)%Q).
    { apply at_some. unfold ds. replace (zlen (diffs l) - 1) with (zlen l - 2) by (fold ds; lia). apply diffs_nth; assumption. }
    rewrite Xl. subst ls. rewrite Gl. destruct g.
    + assert (E : existsb id gs = true). { destruct (existsb id gs) eqn:E; [reflexivity|]. exfalso. eapply existsb_nth; eassumption. }
      rewrite E. destruct P3 as [_ P3]. rewrite P3. field.
    + assert (X : (if existsb id gs then last else last) = last) by (destruct (existsb id gs); reflexivity). rewrite X. destruct P3 as [_ P3]. rewrite P3, Hl. field.
Qed.

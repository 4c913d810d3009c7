(** Proofs for waterfall plots (C90). *)
From Verif Require Import Base BaseFacts CoordModel NdModel NdSpec NdProofs FrameModel CmModel CalcModel MoveModel MoveSpec MoveProofs MuteModel MuteProofs TaperProofs2
  EdgeModel EdgeSpec EdgeProofs EdgeProofs2 WaterModel WaterSpec.
From Coq Require Import Strings.String QArith Qabs Lqa Lia.
Local Open Scope Z_scope.
Local Open Scope list_scope.

Lemma gaps_pos gs : 0 <= gaps gs.
Proof. induction gs as [|g gs IH]; cbn [gaps]; [lia|]. destruct g; lia. Qed.
Lemma gaps_filter gs : zlen (filter id gs) = gaps gs.
Proof. induction gs as [|g gs IH]; [reflexivity|]. cbn [filter gaps]. unfold id at 1. destruct g; [rewrite zlen_c|]; lia. Qed.
Definition shift (gs : list bool) (i : Z) : Z := i + gaps (firstn (Z.to_nat i) gs).
Lemma gaps_firstn gs n : gaps (firstn n gs) <= gaps gs.
Proof.
  revert n. induction gs as [|g gs IH]; intros n; [destruct n; cbn; lia|]. destruct n as [|n]; cbn [firstn gaps].
  - pose proof (gaps_pos gs). destruct g; lia.
  - specialize (IH n). destruct g; lia.
Qed.
Lemma no_gaps gs : existsb id gs = false -> gaps gs = 0.
Proof. induction gs as [|g gs IH]; [reflexivity|]. cbn [existsb gaps]. intro H. apply Bool.orb_false_iff in H as [H1 H2]. unfold id in H1. subst g. rewrite IH by exact H2. reflexivity. Qed.
Lemma shift_none gs i : existsb id gs = false -> shift gs i = i.
Proof. intro H. unfold shift. pose proof (gaps_firstn gs (Z.to_nat i)). pose proof (gaps_pos (firstn (Z.to_nat i) gs)). rewrite (no_gaps gs H) in *. lia. Qed.
Lemma shift_bounds gs i : 0 <= i <= zlen gs -> 0 <= shift gs i < zlen gs + 1 + gaps gs.
Proof. intro H. unfold shift. pose proof (gaps_firstn gs (Z.to_nat i)). pose proof (gaps_pos (firstn (Z.to_nat i) gs)). lia. Qed.

Lemma find_new gs : forall i sk k0 j, 0 <= j <= zlen gs ->
  find_pos (i + sk + j + gaps (firstn (Z.to_nat j) gs)) k0 (new_indices i sk gs) = Some (k0 + j).
Proof.
  induction gs as [|g gs IH]; intros i sk k0 j H.
  - assert (j = 0) by (unfold zlen in H; cbn in H; lia). subst j. cbn. replace (i + sk + 0 + 0) with (i + sk) by lia. rewrite Z.eqb_refl. f_equal. lia.
  - rewrite zlen_c in H. cbn [new_indices find_pos]. destruct (Z.eq_dec j 0) as [->|N].
    + cbn [Z.to_nat firstn gaps]. replace (i + sk + 0 + 0) with (i + sk) by lia. rewrite Z.eqb_refl. f_equal. lia.
    + replace (Z.to_nat j) with (S (Z.to_nat (j - 1))) by lia. cbn [firstn gaps].
      pose proof (gaps_pos (firstn (Z.to_nat (j - 1)) gs)) as G. set (e := if g then 1 else 0). assert (E : 0 <= e) by (subst e; destruct g; lia).
      destruct (Z.eqb_spec (i + sk + j + (e + gaps (firstn (Z.to_nat (j - 1)) gs))) (i + sk)); [lia|].
      replace (i + sk + j + (e + gaps (firstn (Z.to_nat (j - 1)) gs))) with ((i + 1) + (sk + e) + (j - 1) + gaps (firstn (Z.to_nat (j - 1)) gs)) by lia.
      rewrite IH by lia. f_equal. lia.
Qed.
Lemma new_len gs : forall i sk, zlen (new_indices i sk gs) = zlen gs + 1.
Proof. induction gs as [|g gs IH]; intros i sk; [reflexivity|]. cbn [new_indices]. rewrite zlen_c, IH, zlen_c. lia. Qed.
Lemma new_nth gs : forall i sk k, 0 <= k <= zlen gs -> znth (new_indices i sk gs) k = Some (i + sk + k + gaps (firstn (Z.to_nat k) gs)).
Proof.
  induction gs as [|g gs IH]; intros i sk k H.
  - assert (k = 0) by (unfold zlen in H; cbn in H; lia). subst k. cbn. f_equal. lia.
  - rewrite zlen_c in H. cbn [new_indices]. destruct (Z.eq_dec k 0) as [->|N].
    + rewrite znth_head. cbn [Z.to_nat firstn gaps]. f_equal. lia.
    + rewrite znth_cons by lia. rewrite IH by lia. replace (Z.to_nat k) with (S (Z.to_nat (k - 1))) by lia. cbn [firstn gaps]. f_equal. lia.
Qed.
Lemma find_sound x : forall l k0 k, find_pos x k0 l = Some k -> k0 <= k < k0 + zlen l /\ znth l (k - k0) = Some x.
Proof.
  induction l as [|y l IH]; intros k0 k H; [discriminate|]. cbn [find_pos] in H. rewrite zlen_c. destruct (Z.eqb_spec x y) as [->|N].
  - apply some_inj in H. subst k. split; [unfold zlen; lia|]. rewrite Z.sub_diag. reflexivity.
  - apply IH in H as [H1 H2]. split; [lia|]. rewrite znth_cons by lia. rewrite <- H2. f_equal. lia.
Qed.

Lemma put_len {A} (l : list A) ax v : List.length (put l ax v) = List.length l.
Proof. revert ax. induction l as [|x l IH]; intros [|ax]; cbn; auto. Qed.
Lemma put_shape_inb s ix ax n m i k : inb (put s ax m) ix -> nth_error s ax = Some n -> nth_error ix ax = Some i -> 0 <= k < n -> inb s (put ix ax k).
Proof.
  revert ix ax. induction s as [|a s IH]; intros ix ax I E X K; [destruct ax; discriminate|].
  destruct ax as [|ax]; cbn [put nth_error] in *.
  - inversion I as [|? i' ? t B R]; subst. cbn [put]. apply some_inj in E. subst. constructor; assumption.
  - inversion I as [|? i' ? t B R]; subst. cbn [put nth_error] in *. constructor; [exact B|]. eapply IH; eassumption.
Qed.
Lemma put_shape_inb' s ix ax n m k : inb s ix -> nth_error s ax = Some n -> 0 <= k < m -> inb (put s ax m) (put ix ax k).
Proof.
  revert ix ax. induction s as [|a s IH]; intros ix ax I E K; [destruct ax; discriminate|].
  destruct ax as [|ax]; cbn [put nth_error] in *; inversion I as [|? i' ? t B R]; subst; cbn [put]; constructor; [exact K|exact R|exact B|eapply IH; eassumption].
Qed.
Lemma put_idem {A} (l : list A) ax v w : put (put l ax v) ax w = put l ax w.
Proof. revert ax. induction l as [|x l IH]; intros [|ax]; cbn; [reflexivity|reflexivity|reflexivity|f_equal; apply IH]. Qed.
Lemma put_same {A} (l : list A) ax v : nth_error l ax = Some v -> put l ax v = l.
Proof. revert ax. induction l as [|x l IH]; intros [|ax] H; cbn in *; try discriminate; [apply some_inj in H; subst; reflexivity|f_equal; apply IH, H]. Qed.
Lemma put_get {A} (l : list A) ax v w : nth_error l ax = Some w -> nth_error (put l ax v) ax = Some v.
Proof. revert ax. induction l as [|x l IH]; intros [|ax] H; cbn in *; try discriminate; [reflexivity|eapply IH, H]. Qed.
Lemma put_nonneg' s ax m : Forall (fun n => 0 <= n) s -> 0 <= m -> Forall (fun n => 0 <= n) (put s ax m).
Proof. intros F. revert ax. induction F as [|x s X F IH]; intros [|ax] M; cbn; constructor; auto. Qed.

Lemma bands_ok {A} (a : nd (option A)) gs ax n : wf_nd a -> nth_error (nd_shape a) ax = Some n -> zlen gs = n - 1 ->
  exists b, insert_bands a gs ax = Some b /\ wf_nd b /\ nd_shape b = put (nd_shape a) ax (n + gaps gs) /\
    (forall ix i x, nth_error ix ax = Some i -> nd_get a ix = Some x -> nd_get b (put ix ax (shift gs i)) = Some x) /\
    (forall ix y, nd_get b ix = Some (Some y) -> exists i, 0 <= i < n /\ nth_error ix ax = Some (shift gs i) /\ nd_get a (put ix ax i) = Some (Some y)).
Proof.
  intros W S L. unfold insert_bands. destruct (existsb id gs) eqn:E; cbn [negb].
  2: { exists a. split; [reflexivity|]. split; [exact W|]. split; [rewrite (no_gaps gs E), Z.add_0_r; symmetry; apply put_same, S|]. split.
       - intros ix i x I G. rewrite (shift_none gs i E), (put_same ix ax i I). exact G.
       - intros ix y G. pose proof (nd_get_inb _ _ _ G) as I. destruct (inb_axis _ _ _ _ I S) as (i & Ei & Bi). exists i. split; [exact Bi|].
         rewrite (shift_none gs i E). split; [exact Ei|]. rewrite (put_same ix ax i Ei). exact G. }
  rewrite S, gaps_filter. set (sh := put (nd_shape a) ax (n + gaps gs)). set (f := fun ix : list Z => match nth_error ix ax with
     | Some i => match find_pos i 0 (new_indices 0 0 gs) with Some k => nd_get a (put ix ax k) | None => Some None end | None => None end).
  assert (Nn : 0 <= n). { destruct W as [W _]. rewrite Forall_forall in W. apply W. eapply nth_error_In, S. }
  pose proof (gaps_pos gs) as Gp.
  assert (P : Forall (fun n => 0 <= n) sh) by (apply put_nonneg'; [apply W|lia]).
  assert (Ssh : nth_error sh ax = Some (n + gaps gs)) by (eapply put_get, S).
  assert (Fk : forall i k, find_pos i 0 (new_indices 0 0 gs) = Some k -> 0 <= k < n /\ i = shift gs k).
  { intros i k H. apply find_sound in H as [H1 H2]. rewrite new_len in H1. split; [lia|]. rewrite Z.sub_0_r, new_nth in H2 by lia. apply some_inj in H2. unfold shift. lia. }
  destruct (nd_build_total sh f P) as (b & B).
  { intros ix I. destruct (inb_axis _ _ _ _ I Ssh) as (i & Ei & Bi). subst f. cbv beta. rewrite Ei. destruct (find_pos i 0 (new_indices 0 0 gs)) as [k|] eqn:K; [|eauto].
    destruct (Fk i k K) as [Bk _]. apply nd_get_total; [exact W|]. eapply put_shape_inb; eassumption. }
  exists b. split; [exact B|]. destruct (nd_build_spec _ _ _ P B) as (Sb & Wb & Gb). split; [exact Wb|]. split; [exact Sb|]. split.
  - intros ix i x Ei G. pose proof (nd_get_inb _ _ _ G) as I. destruct (inb_axis _ _ _ _ I S) as (i' & Ei' & Bi). assert (i' = i) by congruence. subst i'.
    assert (Bs : 0 <= shift gs i < n + gaps gs) by (pose proof (shift_bounds gs i); lia).
    destruct (Gb (put ix ax (shift gs i)) (put_shape_inb' _ _ _ _ _ _ I S Bs)) as (y & Fy & Gy). rewrite Gy, <- Fy. subst f. cbv beta.
    rewrite (put_get ix ax _ i Ei). pose proof (find_new gs 0 0 0 i) as FN. replace (0 + 0 + i + gaps (firstn (Z.to_nat i) gs)) with (shift gs i) in FN by (unfold shift; lia).
    rewrite FN by lia. change (0 + i) with i. rewrite put_idem, (put_same ix ax i Ei). exact G.
  - intros ix y G. pose proof (nd_get_inb _ _ _ G) as I. rewrite Sb in I. destruct (Gb ix I) as (z & Fz & Gz). rewrite G in Gz. apply some_inj in Gz. subst z.
    destruct (inb_axis _ _ _ _ I Ssh) as (i & Ei & Bi). subst f. cbv beta in Fz. rewrite Ei in Fz.
    destruct (find_pos i 0 (new_indices 0 0 gs)) as [k|] eqn:K; [|discriminate]. destruct (Fk i k K) as [Bk ->]. exists k. split; [exact Bk|]. split; [exact Ei|exact Fz].
Qed.

Lemma cells_side es gs cs : cells es gs cs -> forall i c, znth cs i = Some c -> side es (shift gs i) c.
Proof.
  unfold side. induction 1 as [lo hi|lo hi es gs cs C IH|lo hi es gs cs C IH]; intros i c Zc; pose proof (znth_lt _ _ _ Zc) as B.
  - assert (i = 0) by (unfold zlen in B; cbn in B; lia). subst i. cbn in Zc. apply some_inj in Zc. subst c. split; reflexivity.
  - destruct (Z.eq_dec i 0) as [->|N].
    + cbn in Zc. apply some_inj in Zc. subst c. split; reflexivity.
    + rewrite znth_cons in Zc by lia. destruct (IH _ _ Zc) as [H1 H2]. unfold shift in *. replace (Z.to_nat i) with (S (Z.to_nat (i - 1))) by lia. cbn [firstn gaps].
      pose proof (gaps_pos (firstn (Z.to_nat (i - 1)) gs)). split.
      * rewrite znth_cons by lia. rewrite <- H1. f_equal. lia.
      * rewrite znth_cons by lia. rewrite <- H2. f_equal. lia.
  - destruct (Z.eq_dec i 0) as [->|N].
    + cbn in Zc. apply some_inj in Zc. subst c. split; reflexivity.
    + rewrite znth_cons in Zc by lia. destruct (IH _ _ Zc) as [H1 H2]. unfold shift in *. replace (Z.to_nat i) with (S (Z.to_nat (i - 1))) by lia. cbn [firstn gaps].
      pose proof (gaps_pos (firstn (Z.to_nat (i - 1)) gs)). split.
      * do 2 rewrite znth_cons by lia. rewrite <- H1. f_equal. lia.
      * do 2 rewrite znth_cons by lia. rewrite <- H2. f_equal. lia.
Qed.
Lemma edges_any dt l f sg : l <> [] -> heads sg l ->
  exists es gs cs, gap_edges dt l f = Ok (es, gs) /\ cells es gs cs /\ zlen cs = zlen l /\ zlen gs = zlen l - 1 /\ zlen es = zlen l + 1 + gaps gs /\ (f = None -> gaps gs = 0).
Proof.
  intros N H. destruct (Z_lt_ge_dec (zlen l) 2) as [L|L].
  - destruct l as [|x [|y t]]; [contradiction| |rewrite !zlen_c in L; unfold zlen in L; lia].
    eexists. eexists. eexists. split; [reflexivity|]. split; [constructor|]. repeat split.
  - destruct (edges_all dt l f sg ltac:(lia) H) as (m & es & gs & cs & M & E & C & Nc & Ng & B & _). exists es, gs, cs. split; [exact E|]. split; [exact C|]. split; [exact Nc|]. split; [exact Ng|].
    split; [rewrite (cells_count _ _ _ C); lia|]. intros ->. apply no_gaps. destruct (existsb id gs) eqn:X; [|reflexivity]. exfalso.
    apply existsb_exists in X as (g & I & G). unfold id in G. subst g. apply In_nth_error in I as (n & I).
    assert (Zn : znth gs (Z.of_nat n) = Some true). { unfold znth. destruct (Z.of_nat n <? 0) eqn:Q; [apply Z.ltb_lt in Q; lia|]. rewrite Nat2Z.id. exact I. }
    pose proof (znth_lt _ _ _ Zn). destruct (znth_ok l (Z.of_nat n)) as (u & U); [lia|]. destruct (znth_ok l (Z.of_nat n + 1)) as (v & V); [lia|].
    destruct (B _ _ _ U V) as (g & a & b & G1 & _ & _ & G2 & _). rewrite Zn in G1. apply some_inj in G1. subst g. destruct (proj1 G2 eq_refl) as (k & K & _). discriminate.
Qed.
Lemma nd_map_some {A B} (f : A -> B) (a : nd A) ix : nd_get (nd_map f a) ix = option_map f (nd_get a ix).
Proof. unfold nd_get, nd_map. cbn. destruct (ravel (nd_shape a) ix); [apply znth_map|reflexivity]. Qed.
Lemma nd_map_wf {A B} (f : A -> B) (a : nd A) : wf_nd a -> wf_nd (nd_map f a).
Proof. intros [P L]. split; [exact P|]. cbn. rewrite zlen_map. exact L. Qed.

Lemma mesh_ok {A} (a : nd A) t0 v0 t1 v1 sg0 sg1 colored k : wf_nd a -> nd_shape a = [zlen v0; zlen v1] -> v0 <> [] -> v1 <> [] -> heads sg0 v0 -> heads sg1 v1 ->
  exists xs ys gx gy cx cy b, plot_with_mesh a (t0, v0) (t1, v1) colored k = Ok (Mesh xs ys b) /\
    gap_edges t0 v0 (if colored then Some k else None) = Ok (ys, gy) /\ gap_edges t1 v1 (if colored then Some k else None) = Ok (xs, gx) /\
    cells ys gy cy /\ cells xs gx cx /\ wf_nd b /\ nd_shape b = [zlen ys - 1; zlen xs - 1] /\
    (forall i j v, nd_get a [i; j] = Some v -> exists i' j' c d, znth cy i = Some c /\ znth cx j = Some d /\ side ys i' c /\ side xs j' d /\ nd_get b [i'; j'] = Some (Some v)) /\
    (forall i' j' v, nd_get b [i'; j'] = Some (Some v) -> exists i j c d, nd_get a [i; j] = Some v /\ znth cy i = Some c /\ znth cx j = Some d /\ side ys i' c /\ side xs j' d).
Proof.
  intros W S N0 N1 H0 H1. set (f := if colored then Some k else None).
  destruct (edges_any t0 v0 f sg0 N0 H0) as (ys & gy & cy & Ey & Cy & Ly & Gy & Sy & Fy).
  destruct (edges_any t1 v1 f sg1 N1 H1) as (xs & gx & cx & Ex & Cx & Lx & Gx & Sx & Fx).
  assert (Wm : wf_nd (nd_map Some a)) by apply nd_map_wf, W. assert (Sm : nd_shape (nd_map Some a) = [zlen v0; zlen v1]) by exact S.
  assert (K : exists b, plot_with_mesh a (t0, v0) (t1, v1) colored k = Ok (Mesh xs ys b) /\ wf_nd b /\ nd_shape b = [zlen ys - 1; zlen xs - 1] /\
     (forall i j x, nd_get (nd_map Some a) [i; j] = Some x -> nd_get b [shift gy i; shift gx j] = Some x) /\
     (forall i' j' y, nd_get b [i'; j'] = Some (Some y) -> exists i j, i' = shift gy i /\ j' = shift gx j /\ nd_get (nd_map Some a) [i; j] = Some (Some y))).
  { unfold plot_with_mesh. cbn [fst snd]. fold f. rewrite Ey, Ex. cbn [bind fst snd]. destruct colored.
    - destruct (bands_ok (nd_map Some a) gy 0%nat (zlen v0) Wm) as (b & B & Wb & Sb & P1 & P2); [rewrite Sm; reflexivity|exact Gy|].
      destruct (bands_ok b gx 1%nat (zlen v1) Wb) as (c & C & Wc & Sc & Q1 & Q2); [rewrite Sb, Sm; reflexivity|exact Gx|].
      rewrite B. cbn [opt_result bind]. rewrite C. cbn [opt_result bind]. exists c. split; [reflexivity|]. split; [exact Wc|]. split.
      + rewrite Sc, Sb, Sm. cbn [put]. f_equal; [lia|f_equal; lia].
      + split.
        * intros i j x G. specialize (P1 [i; j] i x eq_refl G). cbn [put] in P1. specialize (Q1 [shift gy i; j] j x eq_refl P1). exact Q1.
        * intros i' j' y G. destruct (Q2 _ _ G) as (j & Bj & Ej & Gj). cbn in Ej. apply some_inj in Ej. cbn [put] in Gj.
          destruct (P2 _ _ Gj) as (i & Bi & Ei & Gi). cbn in Ei. apply some_inj in Ei. cbn [put] in Gi. exists i, j. auto.
    - cbn [bind]. exists (nd_map Some a). split; [reflexivity|]. split; [exact Wm|]. assert (Zy : gaps gy = 0) by (apply Fy; reflexivity). assert (Zx : gaps gx = 0) by (apply Fx; reflexivity).
      assert (Sh : forall gs i, gaps gs = 0 -> shift gs i = i).
      { intros gs i Z. unfold shift. pose proof (gaps_firstn gs (Z.to_nat i)). pose proof (gaps_pos (firstn (Z.to_nat i) gs)). lia. }
      split; [rewrite Sm; f_equal; [lia|f_equal; lia]|]. split.
      + intros i j x G. rewrite !Sh by assumption. exact G.
      + intros i' j' y G. exists i', j'. rewrite !Sh by assumption. auto. }
  destruct K as (b & B & Wb & Sb & P & Q). exists xs, ys, gx, gy, cx, cy, b. split; [exact B|]. split; [exact Ey|]. split; [exact Ex|]. split; [exact Cy|]. split; [exact Cx|]. split; [exact Wb|]. split; [exact Sb|].
  assert (Bd : forall i j v, nd_get a [i; j] = Some v -> exists c d, znth cy i = Some c /\ znth cx j = Some d).
  { intros i j v G. apply nd_get_inb in G. rewrite S in G. inversion G as [|? ? ? ? A1 R1]; subst. inversion R1 as [|? ? ? ? A2 R2]; subst.
    destruct (znth_ok cy i) as (c & C); [lia|]. destruct (znth_ok cx j) as (d & D); [lia|]. eauto. }
  split.
  - intros i j v G. destruct (Bd i j v G) as (c & d & C & D). exists (shift gy i), (shift gx j), c, d. split; [exact C|]. split; [exact D|].
    split; [apply (cells_side _ _ _ Cy), C|]. split; [apply (cells_side _ _ _ Cx), D|]. apply P. rewrite nd_map_some, G. reflexivity.
  - intros i' j' v G. destruct (Q _ _ _ G) as (i & j & -> & -> & Gi). rewrite nd_map_some in Gi. destruct (nd_get a [i; j]) as [w|] eqn:E; [|discriminate].
    cbn in Gi. apply some_inj in Gi. apply some_inj in Gi. subst w. destruct (Bd i j v E) as (c & d & C & D). exists i, j, c, d. split; [exact E|]. split; [exact C|]. split; [exact D|].
    split; [apply (cells_side _ _ _ Cy), C|apply (cells_side _ _ _ Cx), D].
Qed.

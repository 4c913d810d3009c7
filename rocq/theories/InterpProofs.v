(** Proofs for interpolated patches (C94). *)
From Verif Require Import Base BaseFacts CoordModel CoordSpec CoordProofs CoordProofs2 CoordProofs3 CoordProofs4 CoordProofs5 NdModel NdSpec NdProofs FrameModel FrameProofs5 ChunkModel CmModel CmSpec CmProofs CmProofs2 CmProofs3 CmProofs10 CmProofs13
  TaperProofs2 CalcProofs EdgeProofs MoveModel MoveSpec MoveProofs TrendProofs2 WaterProofs InterpModel InterpSpec.
From Coq Require Import Strings.String QArith Lqa Lia Sorted Permutation.
Local Open Scope Z_scope.
Local Open Scope list_scope.

Lemma insert_perm p l : Permutation (insert_pair p l) (p :: l).
Proof. induction l as [|q t IH]; cbn; [reflexivity|]. destruct (fst p <=? fst q); [reflexivity|]. rewrite IH. apply perm_swap. Qed.
Lemma sort_perm l : Permutation (sort_pairs l) l.
Proof. induction l as [|p t IH]; cbn; [reflexivity|]. rewrite insert_perm. apply perm_skip, IH. Qed.
Definition le1 (p q : Z * Q) : Prop := fst p <= fst q.
Definition lt1 (p q : Z * Q) : Prop := fst p < fst q.
Lemma insert_sorted p l : StronglySorted le1 l -> StronglySorted le1 (insert_pair p l).
Proof.
  induction 1 as [|q t S IH F]; cbn; [repeat constructor|]. destruct (Z.leb_spec (fst p) (fst q)) as [L|L].
  - constructor; [constructor; assumption|]. constructor; [exact L|]. rewrite Forall_forall in *. intros r I. specialize (F r I). unfold le1 in *. lia.
  - constructor; [exact IH|]. rewrite Forall_forall in *. intros r I. apply (Permutation_in _ (insert_perm p t)) in I. destruct I as [<-|I]; [unfold le1; lia|exact (F r I)].
Qed.
Lemma sort_sorted l : StronglySorted le1 (sort_pairs l).
Proof. induction l as [|p t IH]; cbn; [constructor|apply insert_sorted, IH]. Qed.
Lemma strict l : StronglySorted le1 l -> NoDup (map fst l) -> StronglySorted lt1 l.
Proof.
  induction 1 as [|q t S IH F]; cbn; intro N; [constructor|]. inversion N; subst. constructor; [auto|]. rewrite Forall_forall in *. intros r I. specialize (F r I). unfold le1, lt1 in *.
  assert (fst q <> fst r) by (intro E; apply H1; rewrite E; apply in_map, I). lia.
Qed.
Lemma segment_ok s x : StronglySorted lt1 s -> (2 <= List.length s)%nat ->
  exists p q l r, segment s x = Some (p, q) /\ s = l ++ p :: q :: r /\ (l = [] \/ fst p < x) /\ (r = [] \/ x <= fst q).
Proof.
  induction s as [|p t IH]; cbn [List.length]; intros S L; [lia|]. destruct t as [|q r]; [cbn in L; lia|]. destruct r as [|q' r].
  - exists p, q, [], []. cbn. auto.
  - cbn [segment]. destruct (Z.leb_spec x (fst q)) as [K|K].
    + exists p, q, [], (q' :: r). cbn. auto.
    + inversion S; subst. destruct (IH H1) as (p1 & q1 & l & r1 & E & Es & A & B); [cbn; lia|]. exists p1, q1, (p :: l), r1. split; [exact E|]. split; [cbn; f_equal; exact Es|]. split; [|exact B]. right.
      destruct A as [->|A]; [|exact A]. cbn in Es. injection Es as <- _ _. exact K.
Qed.
Lemma sorted_parts l p q r c : StronglySorted lt1 (l ++ p :: q :: r) -> In c (l ++ p :: q :: r) -> In c l /\ fst c < fst p \/ c = p \/ c = q \/ In c r /\ fst q < fst c.
Proof.
  induction l as [|y l IH]; cbn; intros S I; inversion S as [|? ? S' F]; subst; rewrite Forall_forall in F.
  - destruct I as [<-|[<-|I]]; [auto|auto|]. right; right; right. split; [exact I|]. inversion S' as [|? ? _ F']; subst. rewrite Forall_forall in F'. exact (F' c I).
  - destruct I as [<-|I].
    + left. split; [auto|]. apply F. apply in_or_app. right. left. reflexivity.
    + destruct (IH S' I) as [[J K]|J]; [left; auto|right; exact J].
Qed.
Lemma combine_valued (v : list Z) (f : list Q) a y : In (a, y) (combine v f) <-> valued v f a y.
Proof.
  revert f. induction v as [|x t IH]; intros f; cbn.
  - split; [intros []|]. intros (i & E & _). unfold znth in E. destruct (i <? 0); [discriminate|]. destruct (Z.to_nat i); discriminate.
  - destruct f as [|z u]; cbn.
    + split; [intros []|]. intros (i & _ & E). unfold znth in E. destruct (i <? 0); [discriminate|]. destruct (Z.to_nat i); discriminate.
    + rewrite IH. split.
      * intros [E|(i & A & B)]; [injection E as <- <-; exists 0; auto|]. exists (i + 1). pose proof (EdgeProofs.znth_lt _ _ _ A). rewrite !EdgeProofs.znth_cons by lia. replace (i + 1 - 1) with i by lia. auto.
      * intros (i & A & B). destruct (Z.eq_dec i 0) as [->|N]; [left; cbn in *; congruence|]. right. exists (i - 1). assert (0 <= i) by (pose proof (EdgeProofs.znth_lt _ _ _ A); lia).
        rewrite EdgeProofs.znth_cons in A by lia. rewrite EdgeProofs.znth_cons in B by lia. auto.
Qed.
Lemma combine_len {A B} (v : list A) (f : list B) : zlen f = zlen v -> List.length (combine v f) = List.length v.
Proof. unfold zlen. intro E. rewrite combine_length. lia. Qed.
Lemma combine_fst {A B} (v : list A) (f : list B) : zlen f = zlen v -> map fst (combine v f) = v.
Proof. revert f. induction v as [|x t IH]; intros [|y u] E; unfold zlen in *; cbn in *; try reflexivity; try lia. f_equal. apply IH. unfold zlen. lia. Qed.
Lemma distinct_nodup v : distinct v = true -> NoDup v.
Proof.
  induction v as [|x t IH]; cbn; intro D; constructor; apply andb_true_iff in D as [D1 D2]; [|auto]. intro I. apply negb_true_iff in D1.
  assert (existsb (Z.eqb x) t = true); [|congruence]. apply existsb_exists. exists x. split; [exact I|apply Z.eqb_refl].
Qed.
Lemma nodup_distinct v : NoDup v -> distinct v = true.
Proof.
  induction 1 as [|x t N D IH]; cbn; [reflexivity|]. rewrite IH, andb_true_r. apply negb_true_iff, not_true_is_false. intro K. apply existsb_exists in K as (y & I & E). apply Z.eqb_eq in E. subst y. contradiction.
Qed.
Lemma value_ok v f x : NoDup v -> 2 <= zlen v -> zlen f = zlen v -> on_line v f x (value_at (sort_pairs (combine v f)) x).
Proof.
  intros N L E. set (s := sort_pairs (combine v f)). assert (Pm : Permutation s (combine v f)) by apply sort_perm.
  assert (S : StronglySorted lt1 s). { apply strict; [apply sort_sorted|]. apply (Permutation_NoDup (l := v)); [|exact N]. rewrite <- (combine_fst v f E) at 1. apply Permutation_map. symmetry. exact Pm. }
  assert (Ln : (2 <= List.length s)%nat). { rewrite (Permutation_length Pm), combine_len by exact E. unfold zlen in L. lia. }
  destruct (segment_ok s x S Ln) as ([a ya] & [b yb] & l & r & G & Es & A & B). unfold value_at. rewrite G.
  assert (V : forall c y, In (c, y) s <-> valued v f c y). { intros c y. rewrite <- combine_valued. split; apply Permutation_in; [exact Pm|symmetry; exact Pm]. }
  assert (Iv : forall c, In c v -> exists y, In (c, y) s).
  { intros c I. rewrite <- (combine_fst v f E) in I. apply in_map_iff in I as ([c' y] & <- & I). exists y. apply (Permutation_in _ (Permutation_sym Pm)), I. }
  rewrite Es in S. assert (Lt : a < b). { clear -S. induction l as [|y l IH]; cbn in S; inversion S as [|? ? S' F]; subst; [inversion F; subst; exact H1|auto]. }
  exists a, b, ya, yb. split; [apply V; rewrite Es; apply in_or_app; right; left; reflexivity|]. split; [apply V; rewrite Es; apply in_or_app; right; right; left; reflexivity|]. split; [exact Lt|].
  assert (C : forall c, In c v -> (exists y, In (c, y) l) /\ c < a \/ c = a \/ c = b \/ (exists y, In (c, y) r) /\ b < c).
  { intros c I. destruct (Iv c I) as [y J]. rewrite Es in J. destruct (sorted_parts _ _ _ _ _ S J) as [[K M]|[K|[K|[K M]]]]; cbn in *; [left; eauto|right; left; congruence|right; right; left; congruence|right; right; right; eauto]. }
  split; [intros c I; destruct (C c I) as [[_ K]|[K|[K|[_ K]]]]; lia|]. split.
  - assert (P : (0 < inject_Z (b - a))%Q) by (change 0%Q with (inject_Z 0); rewrite <- Zlt_Qlt; lia). field. lra.
  - cbn in A, B. destruct (Z.lt_ge_cases x a) as [X|X]; [|destruct (Z.lt_ge_cases b x) as [Y|Y]; [|left; lia]].
    + right. left. split; [exact X|]. destruct A as [->|A]; [|lia]. intros c I. destruct (C c I) as [[[y []] _]|[K|[K|[_ K]]]]; lia.
    + right. right. split; [exact Y|]. destruct B as [->|B]; [|lia]. intros c I. destruct (C c I) as [[_ K]|[K|[K|[[y []] _]]]]; lia.
Qed.
Lemma interp_ok v w f : NoDup v -> 2 <= zlen v -> zlen f = zlen v -> follows v w f (interp_line v w f).
Proof.
  intros N L E. unfold follows, interp_line. split; [apply EdgeProofs.zlen_map|]. intros j x y X Y. rewrite EdgeProofs.znth_map, X in Y. cbn in Y. injection Y as <-. apply value_ok; assumption.
Qed.

Lemma traverse_same {A B} (f g : A -> option B) l : (forall x, f x = g x) -> traverse f l = traverse g l.
Proof. intro H. induction l as [|x t IH]; cbn; [reflexivity|]. rewrite H, IH. reflexivity. Qed.
Lemma along_to_ok {A B} (f : list A -> list B) m ax (a : nd A) n : wf_nd a -> nth_error (nd_shape a) ax = Some n -> 0 < n -> 0 <= m -> (forall vs, zlen vs = n -> zlen (f vs) = m) ->
  exists b, along_to f m ax a = Some b /\ by_line_to (fun u v => v = f u) m ax a b.
Proof.
  intros W E Pn Pm FL. assert (Lx : (ax < List.length (nd_shape a))%nat) by (apply nth_error_Some; congruence).
  assert (PS : Forall (fun n => 0 <= n) (put (nd_shape a) ax m)) by (apply put_nonneg; [apply W|exact Pm]).
  assert (TOT : forall ix, inb (put (nd_shape a) ax m) ix -> exists i u, nth_error ix ax = Some i /\ 0 <= i < m /\ inb (nd_shape a) (put ix ax 0) /\
     traverse (fun k => nd_get a (put ix ax k)) (zrange n) = Some u /\ line a ax ix u).
  { intros ix I. destruct (inb_axis _ _ ax m I) as (i & Ei & Ri); [apply nth_put_same; exact Lx|]. exists i.
    assert (I0 : inb (nd_shape a) (put ix ax 0)).
    { apply (inb_put _ _ _ m 0 I n E). lia. }
    destruct (line_total a ax n (put ix ax 0) W E I0) as (u & T & Ll); [lia|]. exists u. split; [exact Ei|]. split; [exact Ri|]. split; [exact I0|].
    assert (Q1 : forall k, put (put ix ax 0) ax k = put ix ax k) by (intro; apply put_put). split.
    - rewrite <- T. apply traverse_same. intros k. rewrite Q1. reflexivity.
    - destruct Ll as [L1 L2]. split; [exact L1|]. intros k K. rewrite <- Q1. apply L2, K. }
  unfold along_to. rewrite E.
  destruct (nd_build_total (put (nd_shape a) ax m) (fun ix => match nth_error ix ax, traverse (fun k => nd_get a (put ix ax k)) (zrange n) with Some i, Some vs => znth (f vs) i | _, _ => None end) PS) as [b Eb].
  { intros ix I. destruct (TOT ix I) as (i & u & Ei & Ri & _ & T & [L1 _]). rewrite Ei, T. apply znth_range. rewrite FL; [exact Ri|]. congruence. }
  exists b. split; [exact Eb|]. destruct (nd_build_spec _ _ _ PS Eb) as (Sb & Wb & H). split; [exact Wb|]. split; [exact Sb|].
  intros ix u I [L1 L2]. exists (f u). split; [|reflexivity]. assert (Lu : zlen u = n) by congruence. split; [rewrite Sb, FL by exact Lu; apply nth_put_same, Lx|].
  intros k K. rewrite (FL u Lu) in K.
  assert (J : inb (put (nd_shape a) ax m) (put ix ax k)) by (apply (put_shape_inb' _ _ _ n); assumption).
  destruct (H _ J) as (x & Ex & Gx). rewrite Gx. destruct (TOT _ J) as (i & u' & Ei & Ri & _ & T & L'). rewrite Ei, T in Ex. rewrite <- Ex.
  assert (Ek : i = k). { rewrite nth_put_same in Ei; [congruence|]. destruct (inb_axis _ _ _ _ I E) as (i0 & Ei0 & _). apply nth_error_Some. congruence. }
  subst i. f_equal. f_equal. apply (line_eq a ax (put ix ax k)); [exact L'|]. split; [exact L1|]. intros j Jj. rewrite put_put. apply L2, Jj.
Qed.

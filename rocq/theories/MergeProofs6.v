(** Lemmas behind C55: concatenation of arrays, and snapping what is even. *)
From Verif Require Import Base BaseFacts CoordModel CoordSpec CoordProofs CoordProofs2 CoordProofs3 CoordProofs5 NdModel NdSpec NdProofs
  FrameModel FrameProofs5 ChunkModel CmModel CmSpec CmProofs CmProofs2 CmProofs3 CmProofs4 CmProofs17 FourierProofs2 MergeModel MergeSpec MergeProofs
  MergeProofs2 MergeProofs3 MergeProofs4 MergeProofs5.
From Coq Require Import Strings.String ZifyBool Sorting.Permutation Sorting.Sorted.
Ltac Zify.zify_post_hook ::= Z.div_mod_to_equations.
Local Open Scope Z_scope.
Local Open Scope list_scope.

Lemma locate_in {A} ax (pre post : list (nd A)) a j : (forall b, In b (pre ++ a :: post) -> wf_nd b /\ (ax < List.length (nd_shape b))%nat) ->
  0 <= j < axis_len ax a -> locate ax (pre ++ a :: post) (total (map (axis_len ax) pre) + j) = Some (a, j).
Proof.
  intros H Hj. induction pre as [|b pre IH]; cbn [app map total fold_right locate].
  - unfold axis_len in Hj. destruct (H a (or_introl eq_refl)) as [_ L].
    destruct (nth_error (nd_shape a) ax) as [n|] eqn:E; [|apply nth_error_None in E; lia].
    cbn [Z.add]. replace (j <? n) with true by lia. reflexivity.
  - fold (total (map (axis_len ax) pre)). destruct (H b (or_introl eq_refl)) as [Wb L].
    destruct (nth_error (nd_shape b) ax) as [n|] eqn:E; [|apply nth_error_None in E; lia].
    assert (axis_len ax b = n) as -> by (unfold axis_len; rewrite E; reflexivity).
    assert (0 <= total (map (axis_len ax) pre)).
    { clear - H. induction pre as [|c pre IH]; [cbn; lia|]. cbn [map total fold_right]. fold (total (map (axis_len ax) pre)).
      assert (0 <= axis_len ax c).
      { unfold axis_len. destruct (H c) as [[W _] _]; [right; left; reflexivity|]. destruct (nth_error (nd_shape c) ax) eqn:Q; [|lia].
        apply nth_error_In in Q. rewrite Forall_forall in W. apply W, Q. }
      assert (0 <= total (map (axis_len ax) pre)); [|lia]. apply IH. intros d [<-|I]; apply H; [left; reflexivity|right; right; exact I]. }
    replace (n + total (map (axis_len ax) pre) + j <? n) with false by lia.
    replace (n + total (map (axis_len ax) pre) + j - n) with (total (map (axis_len ax) pre) + j) by lia.
    apply IH. intros c I. apply H. right. exact I.
Qed.
Lemma split_total {A} (f : A -> Z) l i : (forall a, In a l -> 0 <= f a) -> 0 <= i < total (map f l) ->
  exists pre a post j, l = pre ++ a :: post /\ i = total (map f pre) + j /\ 0 <= j < f a.
Proof.
  revert i. induction l as [|a l IH]; intros i H Hi; cbn [map total fold_right] in Hi; [lia|]. fold (total (map f l)) in Hi.
  destruct (Z_lt_dec i (f a)) as [Q|Q].
  - exists [], a, l, i. split; [reflexivity|]. split; [reflexivity|lia].
  - destruct (IH (i - f a)) as (pre & b & post & j & -> & E & Hj); [intros b I; apply H; right; exact I|lia|].
    exists (a :: pre), b, post, j. split; [reflexivity|]. cbn [map total fold_right]. fold (total (map f pre)). lia.
Qed.
Lemma nd_concat_ok {A} ax (l : list (nd A)) a0 : In a0 l -> (forall a, In a l -> wf_nd a /\ (ax < List.length (nd_shape a))%nat) ->
  (forall a, In a l -> put (nd_shape a) ax 0 = put (nd_shape a0) ax 0) ->
  exists out, nd_concat ax l = Ok out /\ wf_nd out /\ nd_shape out = put (nd_shape a0) ax (total (map (axis_len ax) l)) /\
    stacked ax l out.
Proof.
  intros I0 H S. destruct l as [|a t]; [destruct I0|]. cbn [nd_concat].
  assert (forallb (fun b => zlist_eqb (put (nd_shape a) ax 0) (put (nd_shape b) ax 0)) t = true) as ->.
  { apply forallb_forall. intros b I. apply CmProofs.zlist_eqb_eq. rewrite (S a), (S b); [reflexivity|right; exact I|left; reflexivity]. }
  set (l := a :: t) in *. assert (PP : put (nd_shape a) ax (total (map (axis_len ax) l)) = put (nd_shape a0) ax (total (map (axis_len ax) l))).
  { rewrite <- (put_put (nd_shape a) ax 0), <- (put_put (nd_shape a0) ax 0). rewrite (S a) by (left; reflexivity). reflexivity. }
  assert (AN : forall b, In b l -> 0 <= axis_len ax b).
  { intros b I. unfold axis_len. destruct (H b I) as [[W _] _]. destruct (nth_error (nd_shape b) ax) eqn:Q; [|lia].
    apply nth_error_In in Q. rewrite Forall_forall in W. apply W, Q. }
  assert (TN : 0 <= total (map (axis_len ax) l)).
  { clear - AN. induction l as [|b l IH]; [cbn; lia|]. cbn [map total fold_right]. fold (total (map (axis_len ax) l)).
    pose proof (AN b (or_introl eq_refl)). assert (0 <= total (map (axis_len ax) l)); [|lia]. apply IH. intros c I. apply AN. right; exact I. }
  assert (NN : Forall (fun n => 0 <= n) (put (nd_shape a) ax (total (map (axis_len ax) l)))).
  { apply put_nonneg; [apply (H a (or_introl eq_refl))|exact TN]. }
  match goal with |- context [nd_build ?s ?f] => set (F := f) end.
  assert (SB : forall b j ix, In b l -> 0 <= j < axis_len ax b -> inb (put (nd_shape a) ax (total (map (axis_len ax) l))) ix ->
     inb (nd_shape b) (put ix ax j)).
  { intros b j ix Ib Hj Hix. destruct (H b Ib) as [Wb Lb]. unfold axis_len in Hj.
    destruct (nth_error (nd_shape b) ax) as [n|] eqn:E; [|apply nth_error_None in E; lia].
    apply (inb_put (nd_shape b) ix ax (total (map (axis_len ax) l))) with (k := n); [|exact E|exact Hj].
    rewrite <- (put_put (nd_shape b) ax 0), (S b Ib), put_put, <- PP. exact Hix. }
  assert (LA : (ax < List.length (nd_shape a))%nat) by (apply (H a (or_introl eq_refl))).
  assert (FV : forall ix, inb (put (nd_shape a) ax (total (map (axis_len ax) l))) ix -> exists x, F ix = Some x).
  { intros ix Hix. pose proof (proj1 (inb_nth _ _) Hix) as [LL Q]. rewrite put_length in LL.
    destruct (nth_error ix ax) as [i|] eqn:Ei; [|apply nth_error_None in Ei; lia].
    assert (0 <= i < total (map (axis_len ax) l)) as Hi.
    { apply (Q ax); [|exact Ei]. apply nth_put_same. exact LA. }
    destruct (split_total (axis_len ax) l i AN Hi) as (pre & b & post & j & El & -> & Hj).
    assert (Ib : In b l) by (rewrite El; apply in_elt).
    assert (LC : locate ax l (total (map (axis_len ax) pre) + j) = Some (b, j)) by (rewrite El; apply locate_in; [rewrite <- El; exact H|exact Hj]).
    unfold F. rewrite Ei. change (a :: t) with l. rewrite LC.
    apply nd_get_total; [apply (H b Ib)|apply SB; assumption]. }
  destruct (nd_build_total _ F NN FV) as (out & B). rewrite B. exists out. split; [reflexivity|].
  destruct (nd_build_spec _ F out NN B) as (Sh & W & G).
  split; [exact W|]. split; [rewrite Sh; exact PP|].
  intros pre b post ix j El Hix Ej.
  assert (Ib : In b l) by (rewrite El; apply in_elt). destruct (H b Ib) as [Wb Lb].
  pose proof (proj1 (inb_nth _ _) Hix) as [LL Q].
  destruct (nth_error (nd_shape b) ax) as [n|] eqn:En; [|apply nth_error_None in En; lia].
  pose proof (Q ax n j En Ej) as Hj.
  assert (Hjb : 0 <= j < axis_len ax b) by (unfold axis_len; rewrite En; exact Hj).
  assert (XX : fold_right Z.add 0 (map (fun c => nth ax (nd_shape c) 0) pre) = total (map (axis_len ax) pre)).
  { unfold total. f_equal. apply map_ext. intros c. unfold axis_len.
    destruct (nth_error (nd_shape c) ax) eqn:Ec; [apply nth_error_nth; exact Ec|apply nth_overflow, nth_error_None, Ec]. }
  rewrite XX.
  assert (TT : total (map (axis_len ax) pre) + axis_len ax b <= total (map (axis_len ax) l) /\ 0 <= total (map (axis_len ax) pre)).
  { rewrite El. rewrite map_app. cbn [map]. assert (AN' : forall c, In c (pre ++ b :: post) -> 0 <= axis_len ax c) by (rewrite <- El; exact AN).
    clear - AN'. assert (P : 0 <= total (map (axis_len ax) post)).
    { assert (AN2 : forall c, In c post -> 0 <= axis_len ax c) by (intros c I; apply AN'; apply in_or_app; right; right; exact I).
      clear AN'. induction post as [|c post IH]; [cbn; lia|]. cbn [map total fold_right]. fold (total (map (axis_len ax) post)).
      pose proof (AN2 c (or_introl eq_refl)). assert (0 <= total (map (axis_len ax) post)); [|lia]. apply IH. intros d I. apply AN2; right; exact I. }
    induction pre as [|c pre IH]; cbn [map app total fold_right]; [fold (total (map (axis_len ax) post)); lia|].
    fold (total (map (axis_len ax) pre)). fold (total (map (axis_len ax) pre ++ axis_len ax b :: map (axis_len ax) post)).
    pose proof (AN' c (or_introl eq_refl)). destruct IH; [intros d I; apply AN'; right; exact I|]. lia. }
  assert (Hix' : inb (put (nd_shape a) ax (total (map (axis_len ax) l))) (put ix ax (total (map (axis_len ax) pre) + j))).
  { rewrite PP. apply inb_nth. split; [rewrite !put_length; rewrite <- (put_length (nd_shape a0) ax 0), <- (S b Ib), put_length; lia|].
    intros m z w Ez Ew. destruct (Nat.eq_dec ax m) as [<-|Nm].
    - rewrite nth_put_same in Ew by lia. rewrite nth_put_same in Ez; [assert (z = total (map (axis_len ax) l)) by congruence; assert (w = total (map (axis_len ax) pre) + j) by congruence; lia|].
      rewrite <- (put_length _ ax 0), <- (S b Ib), put_length. exact Lb.
    - rewrite nth_put_other in Ez, Ew by exact Nm.
      assert (nth_error (nd_shape b) m = Some z) as Eb.
      { rewrite <- (nth_put_other _ ax m 0 Nm), (S b Ib), (nth_put_other _ ax m 0 Nm). exact Ez. }
      exact (Q m z w Eb Ew). }
  assert (LC : locate ax l (total (map (axis_len ax) pre) + j) = Some (b, j)) by (rewrite El; apply locate_in; [rewrite <- El; exact H|exact Hjb]).
  destruct (G _ Hix') as (x & Fx & ->). rewrite <- Fx. unfold F. rewrite nth_put_same by lia. change (a :: t) with l. rewrite LC. rewrite put_put, put_nth by exact Ej. reflexivity.
Qed.

Lemma get_coord_even k a s n : s <> 0 -> 2 <= n -> get_coord_data k (progression a s n) = Ok (CRange (mkRange k a (a + s * n) s n)).
Proof.
  intros Hs Hn. set (v := progression a s n).
  assert (L : zlen v = n) by (unfold v; rewrite zlen_progression; lia).
  assert (Z0 : znth v 0 = Some a). { unfold v. rewrite znth_progression by lia. f_equal. lia. }
  assert (D : forall d, In d (diffs v) -> d = s).
  { intros d I. apply in_diffs_gap in I as (i & x & y & X & Y & ->). apply znth_some in X as Bx. apply znth_some in Y as By.
    unfold v in *. rewrite L in *. rewrite znth_progression in X, Y by lia. injection X as <-. injection Y as <-. lia. }
  pose proof (get_coord_cases k v) as C.
  destruct v as [|x0 [|x1 t]] eqn:Ev; [rewrite zlen_nil in L; lia|rewrite zlen_cons, zlen_nil in L; lia|].
  rewrite <- Ev in *. assert (x0 = a) as -> by (rewrite Ev in Z0; cbn in Z0; congruence).
  assert (NE : In (x1 - a) (diffs v)) by (rewrite Ev, diffs_cons2; left; reflexivity).
  assert (NS : In s (diffs v)) by (rewrite <- (D _ NE) at 1; exact NE).
  assert (M : is_monotonic v = true).
  { apply is_monotonic_spec. destruct (Z_lt_dec 0 s) as [P|P]; [left; apply ascending_diffs|right; apply descending_diffs]; intros d I; rewrite (D d I); lia. }
  assert (U : np_unique (diffs v) = [s]).
  { apply zsorted_ext; [apply zsorted_np_unique|repeat constructor|]. intros x. rewrite in_np_unique. cbn. split; [intros I; left; symmetry; apply D, I|].
    intros [<-|[]]. exact NS. }
  destruct C as [[Q _]|[(_ & _ & _ & Q)|(_ & _ & s' & I & _ & _ & E)]].
  - congruence.
  - exfalso. apply Q. rewrite U. reflexivity.
  - rewrite E. rewrite (D s' I), L. reflexivity.
Qed.

(** Lemmas behind CoordProps.v: arrays, classification, binary search. *)
From Verif Require Import Base BaseFacts CoordModel CoordSpec CoordProofs.
From Coq Require Import ZifyBool Sorting.Permutation Sorting.Sorted.
Ltac Zify.zify_post_hook ::= Z.div_mod_to_equations.

(** ** positions_where *)
Lemma positions_where_true {A} (p : A -> bool) l :
  positions_where p l = true_positions 0 (map p l).
Proof.
  unfold positions_where; apply zsorted_ext.
  - apply zsorted_filter, zsorted_zrange.
  - apply zsorted_true_positions.
  - intros x; rewrite filter_In, in_zrange, in_true_positions, Z.sub_0_r, znth_map.
    destruct (znth l x) eqn:E; cbn.
    + apply znth_some in E. split; [intros [_ ->]; auto|intros [= ->]; auto].
    + split; [intros [_ ?]|]; discriminate.
Qed.
Lemma gather_positions_where {A} (p : A -> bool) l :
  gather l (positions_where p l) = Some (filter p l).
Proof. rewrite positions_where_true; apply gather_true_positions_filter. Qed.
Lemma zlen_positions_where {A} (p : A -> bool) l : zlen (positions_where p l) = zlen (filter p l).
Proof. symmetry; eapply gather_some_len, gather_positions_where. Qed.
Lemma positions_where_interval {A} (p : A -> bool) (l : list A) a b :
  (forall i x, znth l i = Some x -> p x = (a <=? i) && (i <? b)) ->
  positions_where p l = filter (fun i => (a <=? i) && (i <? b)) (zrange (zlen l)).
Proof.
  intros H; unfold positions_where; apply filter_ext_in; intros i Hi.
  apply in_zrange in Hi. destruct (proj2 (znth_range l i) Hi) as [x Hx]. rewrite Hx; eauto.
Qed.

(** ** Differences and monotonicity *)
Lemma diffs_cons2 x y t : diffs (x :: y :: t) = (y - x) :: diffs (y :: t).
Proof. reflexivity. Qed.
Lemma zlen_diffs x t : zlen (diffs (x :: t)) = zlen t.
Proof.
  revert x; induction t as [|y t IH]; intros x; [reflexivity|].
  rewrite diffs_cons2, !zlen_cons, IH. reflexivity.
Qed.
Lemma ascending_diffs v : ascending v <-> forall d, In d (diffs v) -> 0 < d.
Proof.
  induction v as [|x [|y t] IH]; cbn [ascending].
  - split; [intros _ d []|auto].
  - split; [intros _ d []|auto].
  - rewrite diffs_cons2. cbn [In]. split.
    + intros [H1 H2] d [<-|Hd]; [lia|]. apply (proj1 IH); auto.
    + intros H; split; [specialize (H (y - x) (or_introl eq_refl)); lia|apply IH; auto].
Qed.
Lemma descending_diffs v : descending v <-> forall d, In d (diffs v) -> d < 0.
Proof.
  induction v as [|x [|y t] IH]; cbn [descending].
  - split; [intros _ d []|auto].
  - split; [intros _ d []|auto].
  - rewrite diffs_cons2. cbn [In]. split.
    + intros [H1 H2] d [<-|Hd]; [lia|]. apply (proj1 IH); auto.
    + intros H; split; [specialize (H (y - x) (or_introl eq_refl)); lia|apply IH; auto].
Qed.
Lemma is_monotonic_spec v : is_monotonic v = true <-> ascending v \/ descending v.
Proof.
  unfold is_monotonic. rewrite orb_true_iff, !forallb_forall, ascending_diffs, descending_diffs.
  split; intros [H|H]; [right|left|right|left]; intros d Hd; specialize (H d Hd); lia.
Qed.
Lemma ascending_zsorted v : ascending v -> zsorted v.
Proof.
  induction v as [|x t IH]; intros H; [constructor|]. destruct H as [H1 H2].
  specialize (IH H2). constructor; auto.
  destruct t as [|y t]; [constructor|].
  inversion IH as [|? ? H3 H4]; subst. rewrite Forall_forall in *.
  intros z [<-|Hz]; [lia|]. specialize (H4 z Hz); lia.
Qed.
Lemma zsorted_ascending v : zsorted v -> ascending v.
Proof.
  induction 1 as [|x t Ht IH Hx]; cbn; auto. split; auto.
  destruct t; auto. inversion Hx; auto.
Qed.
Lemma ascending_znth v i j x y : ascending v ->
  znth v i = Some x -> znth v j = Some y -> (i < j <-> x < y).
Proof.
  intros Ha%ascending_zsorted; revert i j.
  assert (M : forall i j x y, znth v i = Some x -> znth v j = Some y -> i < j -> x < y).
  { induction Ha as [|z t Ht IH Hz]; intros i j a b; [rewrite znth_nil; discriminate|].
    rewrite !znth_cons. intros Hi Hj Hij.
    destruct (Z.eqb_spec j 0) as [->|Hj0].
    - destruct (Z.eqb_spec i 0); [lia|]. apply znth_some in Hi; lia.
    - destruct (Z.eqb_spec i 0).
      + injection Hi as <-. rewrite Forall_forall in Hz. apply Hz. eapply znth_in; eauto.
      + eapply IH; eauto. lia. }
  intros i j Hi Hj; split; [eapply M; eauto|].
  intros Hxy. destruct (Z_lt_dec i j); auto. exfalso.
  destruct (Z.eq_dec i j) as [->|]; [assert (x = y) by congruence; lia|].
  assert (y < x) by (eapply M; eauto; lia). lia.
Qed.
Lemma ascending_opp v : descending v <-> ascending (map Z.opp v).
Proof.
  induction v as [|x [|y t] IH]; cbn [map ascending descending]; try tauto.
  cbn [map] in IH. rewrite <- IH. cbn [descending]. split; intros [? ?]; split; auto; lia.
Qed.

Lemma some_step_diffs (op : Z -> Z -> bool) (f : Z -> bool) v :
  (forall x y, op y x = f (y - x)) -> some_step op v = existsb f (diffs v).
Proof.
  intros H; induction v as [|x [|y t] IH]; auto.
  rewrite diffs_cons2. cbn [some_step existsb]. rewrite H. f_equal. exact IH.
Qed.
Lemma step_meets_gt v : step_meets true v = existsb (fun d => 0 <? d) (diffs v) || (zlen v =? 1).
Proof.
  unfold step_meets. rewrite andb_true_r. f_equal.
  apply some_step_diffs; intros; lia.
Qed.
Lemma step_meets_lt v : step_meets false v = existsb (fun d => d <? 0) (diffs v).
Proof.
  unfold step_meets. rewrite andb_false_r, orb_false_r.
  apply some_step_diffs; intros; lia.
Qed.
Lemma ascending_not_rev v : ascending v -> step_meets false v = false.
Proof.
  rewrite ascending_diffs, step_meets_lt; intros H.
  destruct (existsb _ _) eqn:E; auto. apply existsb_exists in E as (d & Hd & Hlt).
  specialize (H d Hd); lia.
Qed.
Lemma descending_rev v : descending v -> 2 <= zlen v -> step_meets false v = true.
Proof.
  rewrite descending_diffs, step_meets_lt; intros H Hl.
  destruct v as [|x [|y t]]; try (rewrite ?zlen_cons, ?zlen_nil in Hl; lia).
  rewrite diffs_cons2. cbn [existsb].
  specialize (H (y - x)). rewrite diffs_cons2 in H. specialize (H (or_introl eq_refl)). lia.
Qed.
Lemma ascending_one x : ascending [x]. Proof. cbn; auto. Qed.

(** ** Sorting helpers *)
Lemma insert_perm x l : Permutation (insert x l) (x :: l).
Proof.
  induction l as [|y l IH]; cbn; auto. destruct (x <=? y); auto.
  rewrite IH; apply perm_swap.
Qed.
Lemma np_sort_perm l : Permutation (np_sort l) l.
Proof.
  unfold np_sort; induction l as [|x l IH]; cbn [fold_right]; auto.
  rewrite insert_perm; auto.
Qed.
Lemma insert_sorted x l : StronglySorted Z.le l -> StronglySorted Z.le (insert x l).
Proof.
  induction 1 as [|y l Hl IH Hy]; cbn; [repeat constructor|].
  destruct (Z.leb_spec x y).
  - constructor; [constructor; auto|]. constructor; auto.
    rewrite Forall_forall in *; intros z Hz; specialize (Hy z Hz); lia.
  - constructor; auto. rewrite Forall_forall in *. intros z Hz.
    apply (Permutation_in _ (insert_perm x l)) in Hz as [<-|Hz]; [lia|auto].
Qed.
Lemma np_sort_sorted l : StronglySorted Z.le (np_sort l).
Proof. unfold np_sort; induction l; cbn [fold_right]; [constructor|now apply insert_sorted]. Qed.
Lemma in_np_sort x l : In x (np_sort l) <-> In x l.
Proof. split; apply Permutation_in; [|symmetry]; apply np_sort_perm. Qed.
Lemma dedup_in x l : In x (dedup l) <-> In x l.
Proof.
  induction l as [|y [|z t] IH]; try tauto.
  change (dedup (y :: z :: t)) with (if y =? z then dedup (z :: t) else y :: dedup (z :: t)).
  destruct (Z.eqb_spec y z) as [->|].
  - rewrite IH; cbn; tauto.
  - cbn [In]. rewrite IH; cbn; tauto.
Qed.
Lemma dedup_zsorted l : StronglySorted Z.le l -> zsorted (dedup l).
Proof.
  induction l as [|y [|z t] IH]; intros H; [constructor|repeat constructor|].
  inversion H as [|? ? H1 H2]; subst. specialize (IH H1).
  change (dedup (y :: z :: t)) with (if y =? z then dedup (z :: t) else y :: dedup (z :: t)).
  destruct (Z.eqb_spec y z) as [->|]; auto. constructor; auto.
  rewrite Forall_forall in *. intros w Hw; apply (proj1 (dedup_in w (z :: t))) in Hw.
  pose proof (H2 z (or_introl eq_refl)).
  inversion H1 as [|? ? H3 H4]; subst. rewrite Forall_forall in H4.
  destruct Hw as [<-|Hw]; [lia|]. specialize (H4 w Hw); lia.
Qed.
Lemma in_np_unique x l : In x (np_unique l) <-> In x l.
Proof. unfold np_unique; rewrite dedup_in; apply in_np_sort. Qed.
Lemma zsorted_np_unique l : zsorted (np_unique l).
Proof. apply dedup_zsorted, np_sort_sorted. Qed.

(** ** get_coord on an array *)
Lemma nth_middle_in l : l <> [] -> In (nth (length l / 2) (np_sort l) 0) l.
Proof.
  intros Hl. apply in_np_sort. apply nth_In.
  rewrite (Permutation_length (np_sort_perm l)).
  destruct l; [congruence|]. cbn [length]. apply Nat.div_lt; lia.
Qed.

Lemma all_equal_values v d : (forall e, In e (diffs v) -> e = d) ->
  forall x0 t, v = x0 :: t -> v = progression x0 d (zlen v).
Proof.
  intros H x0 t ->. revert x0 H; induction t as [|y t IH]; intros x0 H.
  - change (zlen [x0]) with 1. unfold progression. change (zrange 1) with [0]. cbn [map].
    f_equal; lia.
  - rewrite diffs_cons2 in H. assert (y = x0 + d) as -> by (specialize (H _ (or_introl eq_refl)); lia).
    unfold progression. rewrite zlen_cons, zrange_cons by (pose proof (zlen_nonneg ((x0 + d) :: t)); lia).
    cbn [map]. f_equal; [lia|].
    rewrite (IH (x0 + d)) at 1 by (intros e He; apply H; cbn [In]; auto).
    unfold progression. rewrite map_map. replace (1 + zlen (x0 + d :: t) - 1) with (zlen (x0 + d :: t)) by lia.
    apply map_ext; intros; ring.
Qed.

Lemma change_length_same r n : r_len r = n -> 0 <= n -> change_length r n = Ok (CRange r).
Proof.
  intros <- Hn; unfold change_length. destruct (Z.ltb_spec (r_len r) 0); [lia|].
  now rewrite Z.eqb_refl.
Qed.

(** The three outcomes of [get_coord]. *)
Lemma get_coord_cases k v :
  match v with
  | [] => get_coord_data k v = Ok (CPart 0)
  | [x] => get_coord_data k v = Ok (CMono k v)
  | x0 :: _ =>
      (is_monotonic v = false /\ get_coord_data k v = Ok (CArr k v)) \/
      (is_monotonic v = true /\ get_coord_data k v = Ok (CMono k v)
         /\ close_to_median (np_unique (diffs v)) = false
         /\ zlen (np_unique (diffs v)) <> 1) \/
      (is_monotonic v = true /\
       (zlen (np_unique (diffs v)) = 1 \/ close_to_median (np_unique (diffs v)) = true) /\
       exists s, In s (diffs v) /\ s <> 0 /\
         s = nth (length (diffs v) / 2) (np_sort (diffs v)) 0 /\
         get_coord_data k v = Ok (CRange (mkRange k x0 (x0 + s * zlen v) s (zlen v))))
  end.
Proof.
  destruct v as [|x0 [|x1 t]]; try reflexivity.
  set (v := x0 :: x1 :: t).
  assert (Hl : 2 <= zlen v) by (subst v; rewrite !zlen_cons; pose proof (zlen_nonneg t); lia).
  assert (Hd : diffs v <> []) by (subst v; rewrite diffs_cons2; discriminate).
  assert (U : get_coord_data k v =
      (if is_monotonic v then
        if (zlen (np_unique (diffs v)) =? 1) || close_to_median (np_unique (diffs v)) then
          let step := nth (length (diffs v) / 2) (np_sort (diffs v)) 0 in
          let last := x0 + (zlen v - 1) * step in
          do r <- mk_range k x0 (last + step) step;
          change_length r (zlen v)
        else Ok (CMono k v)
      else Ok (CArr k v))) by reflexivity.
  rewrite U; clear U. clearbody v.
  destruct (is_monotonic v) eqn:M; [right|left; auto].
  destruct (Z.eqb_spec (zlen (np_unique (diffs v))) 1) as [E1|E1];
    [|destruct (close_to_median (np_unique (diffs v))) eqn:E2].
  3:{ left; auto. }
  all: right; split; auto; split; [tauto|].
  all: pose proof (nth_middle_in (diffs v) Hd) as Hin; cbn [orb]; cbv zeta;
    set (s := nth (length (diffs v) / 2) (np_sort (diffs v)) 0) in *;
    assert (Hs : s <> 0) by (apply is_monotonic_spec in M as [M|M];
      [rewrite ascending_diffs in M|rewrite descending_diffs in M]; specialize (M s Hin); lia);
    exists s; repeat split; auto;
    replace (x0 + (zlen v - 1) * s + s) with (x0 + s * zlen v) by ring;
    rewrite mk_range_exact by lia; cbn [bind]; apply change_length_same; cbn; lia.
Qed.

Lemma close_to_median_spec l : close_to_median l = true ->
  l <> [] /\ exists m2, forall d, In d l -> near_half m2 d.
Proof.
  destruct l as [|x l]; [discriminate|]. unfold close_to_median.
  set (m2 := twice_median (x :: l)). rewrite forallb_forall. intros H.
  split; [discriminate|]. exists m2; intros d Hd; specialize (H d Hd). unfold near_half; lia.
Qed.

Lemma in_diffs_gap v d : In d (diffs v) <-> gap v d.
Proof.
  induction v as [|x [|y t] IH].
  - split; [intros []|]. intros (i & x & y & H & _). rewrite znth_nil in H; discriminate.
  - split; [intros []|]. intros (i & a & b & H1 & H2 & _).
    rewrite znth_cons in H1, H2. rewrite znth_nil in *.
    destruct (Z.eqb_spec i 0), (Z.eqb_spec (i + 1) 0); try discriminate; lia.
  - rewrite diffs_cons2. cbn [In]. rewrite IH. split.
    + intros [<-|(i & a & b & H1 & H2 & ->)].
      * exists 0, x, y; repeat split; auto.
      * exists (i + 1), a, b; repeat split; rewrite znth_cons;
          apply znth_some in H1 as B1; apply znth_some in H2 as B2.
        -- destruct (Z.eqb_spec (i + 1) 0); [lia|]. now replace (i + 1 - 1) with i by lia.
        -- destruct (Z.eqb_spec (i + 1 + 1) 0); [lia|].
           now replace (i + 1 + 1 - 1) with (i + 1) by lia.
    + intros (i & a & b & H1 & H2 & ->).
      apply znth_some in H1 as B1; apply znth_some in H2 as B2.
      rewrite znth_cons in H1, H2.
      destruct (Z.eqb_spec i 0) as [Ei|Hi].
      * left. subst i. cbn in H2. congruence.
      * right. destruct (Z.eqb_spec (i + 1) 0); [lia|].
        exists (i - 1), a, b; repeat split; auto.
        now replace (i - 1 + 1) with (i + 1 - 1) by lia.
Qed.
Lemma represents_exact c v : c_values c = map Some v -> represents c v.
Proof.
  intros E; unfold represents; rewrite E. repeat split.
  - apply zlen_map.
  - apply znth_map.
Qed.

Lemma get_coord_represents k v :
  exists c, get_coord_data k v = Ok c /\ represents c v /\ wf_coord c.
Proof.
  pose proof (get_coord_cases k v) as H. destruct v as [|x0 [|x1 t]].
  - exists (CPart 0); repeat split; auto. cbn; lia.
  - exists (CMono k [x0]); repeat split; auto; cbn; auto. discriminate.
  - set (v := x0 :: x1 :: t) in *.
    assert (Hl : 2 <= zlen v) by (subst v; rewrite !zlen_cons; pose proof (zlen_nonneg t); lia).
    destruct H as [[M E]|[[M [E _]]|[M [C (s & Hin & Hs & _ & E)]]]].
    + exists (CArr k v); split; auto; split; [now apply represents_exact|]. subst v; discriminate.
    + exists (CMono k v); split; auto; split; [now apply represents_exact|].
      split; [subst v; discriminate|]. now apply is_monotonic_spec.
    + eexists; split; [exact E|].
      assert (W : wf_range (mkRange k x0 (x0 + s * zlen v) s (zlen v)))
        by (unfold wf_range; cbn [r_step r_len r_start r_stop]; repeat split; auto; lia).
      split; [|exact W].
      cbn [c_values]. unfold represents. cbn [c_values].
      rewrite r_values_prog by auto. cbn [r_start r_step r_len].
      split; [rewrite zlen_map, zlen_progression; lia|].
      split; [rewrite znth_map, znth_progression by lia; subst v; cbn; do 2 f_equal; lia|].
      intros Sp. f_equal.
      symmetry. eapply all_equal_values; [|reflexivity].
      intros e He. destruct C as [C|C].
      * assert (L : forall d, In d (diffs v) -> np_unique (diffs v) = [d]).
        { intros d Hd; apply in_np_unique in Hd. destruct (np_unique (diffs v)) as [|a [|b l]].
          - destruct Hd.
          - destruct Hd as [->|[]]; reflexivity.
          - rewrite !zlen_cons in C; pose proof (zlen_nonneg l); lia. }
        pose proof (L e He) as L1; pose proof (L s Hin) as L2; congruence.
      * apply close_to_median_spec in C as (_ & m2 & C).
        apply (Sp m2); try (now apply in_diffs_gap).
        intros d Hd; apply C, in_np_unique, in_diffs_gap, Hd.
Qed.

(** ** Range select on an unsorted array *)
Lemma between_cases lo hi x :
  between lo hi x =
  match (match lo, hi with Some a, Some b => Some (Z.min a b) | y, _ => y end) with
  | Some a => a <=? x | None => true end
  && match (match lo, hi with Some a, Some b => Some (Z.max a b) | _, y => y end) with
     | Some b => x <=? b | None => true end.
Proof. unfold between; destruct lo, hi; rewrite ?andb_true_r; reflexivity. Qed.

Lemma existsb_filter {A} (p : A -> bool) l : existsb (fun b => b) (map p l) = false ->
  filter p l = [].
Proof.
  induction l as [|x l IH]; cbn; auto. destruct (p x); cbn; [discriminate|auto].
Qed.
Lemma forallb_filter {A} (p : A -> bool) l : forallb (fun b => b) (map p l) = true ->
  filter p l = l.
Proof.
  induction l as [|x l IH]; cbn; auto. destruct (p x); cbn; [|discriminate].
  intros; f_equal; auto.
Qed.
Lemma forallb_positions {A} (p : A -> bool) l : forallb (fun b => b) (map p l) = true ->
  positions_where p l = zrange (zlen l).
Proof.
  intros H. rewrite forallb_forall in H. unfold positions_where.
  rewrite <- (filter_ext_in (fun _ => true)).
  - induction (zrange (zlen l)) as [|i r IH]; cbn; congruence.
  - intros i Hi; apply in_zrange in Hi. destruct (proj2 (znth_range l i) Hi) as [x Hx].
    rewrite Hx. symmetry; apply H. apply in_map. eapply znth_in; eauto.
Qed.
Lemma full_slice_positions n : 0 <= n ->
  indexer_positions n (simple_slice None None) = Some (zrange n).
Proof.
  intros Hn; cbn [indexer_positions simple_slice].
  rewrite simple_slice_positions; try lia; try discriminate. cbn [opt_or]. f_equal.
  rewrite <- (filter_ext_in (fun _ => true)).
  - induction (zrange n) as [|i r IH]; cbn; congruence.
  - intros i Hi; apply in_zrange in Hi; lia.
Qed.
Lemma ints_positions n l : (forall i, In i l -> 0 <= i < n) ->
  indexer_positions n (IxInts l) = Some l.
Proof.
  intros H; cbn [indexer_positions].
  assert (forallb (fun i => (- n <=? i) && (i <? n)) l = true) as ->.
  { apply forallb_forall; intros i Hi; specialize (H i Hi); lia. }
  f_equal. rewrite <- (map_id l) at 2. apply map_ext_in; intros i Hi; specialize (H i Hi).
  unfold wrap_index; destruct (Z.ltb_spec i 0); lia.
Qed.

Lemma a_select_spec k v rel lo hi mn mx :
  list_min v = Some mn -> list_max v = Some mx ->
  exists out, a_select k v rel lo hi = Ok out /\
    keeps_as_coord v (between (resolve rel mn mx lo) (resolve rel mn mx hi)) out.
Proof.
  intros Hmn Hmx.
  pose proof (slice_tuple_spec (CArr k v) rel lo hi mn mx Hmn Hmx) as E.
  set (L := resolve rel mn mx lo) in *. set (U := resolve rel mn mx hi) in *. clearbody L U.
  unfold a_select; rewrite E; cbn [bind]; clear E.
  set (args := match L, U with Some a, Some b => _ | x, y => _ end).
  assert (K : forall x, (match fst args with Some a => a <=? x | None => true end
      && match snd args with Some b => x <=? b | None => true end) = between L U x).
  { intros x; subst args; rewrite between_cases; destruct L, U; reflexivity. }
  rewrite (map_ext _ _ K). clear K args. set (p := between L U). cbv zeta.
  destruct (existsb (fun b => b) (map p v)) eqn:Ex; cbn [negb].
  2:{ eexists; split; [reflexivity|]. split; cbn [fst snd].
      - rewrite existsb_filter by auto. now apply represents_exact.
      - cbn [indexer_positions]. rewrite zlen_map, Z.eqb_refl, positions_where_true. reflexivity. }
  destruct (forallb (fun b => b) (map p v)) eqn:Fa.
  { eexists; split; [reflexivity|]. split; cbn [fst snd].
    - rewrite forallb_filter by auto. now apply represents_exact.
    - rewrite forallb_positions by auto. apply full_slice_positions, zlen_nonneg. }
  rewrite <- positions_where_true.
  assert (P : indexer_positions (zlen v) (IxInts (positions_where p v)) = Some (positions_where p v)).
  { apply ints_positions. intros i Hi. unfold positions_where in Hi.
    apply filter_In in Hi as [Hi _]; now apply in_zrange in Hi. }
  unfold np_index. rewrite P, gather_positions_where.
  destruct (get_coord_represents k (filter p v)) as (c & -> & R & _). cbn [bind].
  eexists; split; [reflexivity|]. split; auto.
Qed.

(** ** Binary search *)
Definition mono_pred (v : list Z) (g : Z -> bool) : Prop :=
  forall i j x y, i <= j -> znth v i = Some x -> znth v j = Some y -> g y = true -> g x = true.

Lemma bsearch_spec v g : mono_pred v g -> forall fuel lo hi,
  0 <= lo -> lo <= hi <= zlen v -> hi - lo <= Z.of_nat fuel ->
  (forall i x, znth v i = Some x -> i < lo -> g x = true) ->
  (forall i x, znth v i = Some x -> hi <= i -> g x = false) ->
  let p := bsearch fuel v g lo hi in
  lo <= p <= hi /\ forall i x, znth v i = Some x -> g x = (i <? p).
Proof.
  intros M; induction fuel as [|fuel IH]; intros lo hi H0 H1 Hf Hlo Hhi; cbn [bsearch].
  - cbv zeta. split; [lia|]. intros i x Hx. destruct (Z.ltb_spec i lo); [eauto|].
    eapply Hhi; eauto; lia.
  - destruct (Z.ltb_spec lo hi) as [Hlt|Hge].
    + assert (Hm : lo <= lo + (hi - lo) / 2 < hi) by lia.
      set (mid := lo + (hi - lo) / 2) in *. clearbody mid.
      destruct (proj2 (znth_range v mid)) as [y Hy]; [lia|]. rewrite Hy.
      destruct (g y) eqn:G.
      * destruct (IH (mid + 1) hi) as [B1 B2]; try lia; auto.
        { intros i x Hx Hi. apply (M i mid x y); auto; lia. }
        cbv zeta in *. split; [lia|auto].
      * destruct (IH lo mid) as [B1 B2]; try lia; auto.
        { intros i x Hx Hi. destruct (g x) eqn:Gx; auto.
          rewrite (M mid i y x Hi Hy Hx Gx) in G; discriminate. }
        cbv zeta in *. split; [lia|auto].
    + cbv zeta. split; [lia|]. intros i x Hx. destruct (Z.ltb_spec i lo); [eauto|].
      eapply Hhi; eauto; lia.
Qed.

Definition wsorted := StronglySorted Z.le.
Lemma wsorted_znth v : wsorted v -> forall i j x y, i <= j ->
  znth v i = Some x -> znth v j = Some y -> x <= y.
Proof.
  induction 1 as [|z t Ht IH Hz]; intros i j a b Hij; [rewrite znth_nil; discriminate|].
  rewrite !znth_cons. intros Hi Hj.
  destruct (Z.eqb_spec i 0), (Z.eqb_spec j 0).
  - assert (a = b) by congruence; lia.
  - injection Hi as <-. rewrite Forall_forall in Hz. apply Hz. eapply znth_in; eauto.
  - subst j. apply znth_some in Hi; lia.
  - eapply (IH (i - 1) (j - 1)); eauto; lia.
Qed.
Lemma zsorted_wsorted v : zsorted v -> wsorted v.
Proof.
  induction 1 as [|z t Ht IH Hz]; constructor; auto.
  rewrite Forall_forall in *; intros x Hx; specialize (Hz x Hx); lia.
Qed.
Lemma searchsorted_left v key : wsorted v ->
  0 <= searchsorted true v key <= zlen v /\
  forall i x, znth v i = Some x -> (x <? key) = (i <? searchsorted true v key).
Proof.
  intros S; unfold searchsorted.
  apply (bsearch_spec v (fun x => x <? key)); unfold zlen; try lia.
  - intros i j x y Hij Hx Hy Hlt. pose proof (wsorted_znth v S i j x y Hij Hx Hy). lia.
  - intros i x Hx ?; apply znth_some in Hx; lia.
  - intros i x Hx ?; apply znth_some in Hx; unfold zlen in Hx; lia.
Qed.
Lemma searchsorted_right v key : wsorted v ->
  0 <= searchsorted false v key <= zlen v /\
  forall i x, znth v i = Some x -> (x <=? key) = (i <? searchsorted false v key).
Proof.
  intros S; unfold searchsorted.
  apply (bsearch_spec v (fun x => x <=? key)); unfold zlen; try lia.
  - intros i j x y Hij Hx Hy Hlt. pose proof (wsorted_znth v S i j x y Hij Hx Hy). lia.
  - intros i x Hx ?; apply znth_some in Hx; lia.
  - intros i x Hx ?; apply znth_some in Hx; unfold zlen in Hx; lia.
Qed.

(** ** Range select on a monotonic array *)
Definition m_tail (k : kind) (v : list Z) (new_start new_stop : option Z)
  : result (coord * indexer) :=
  let out := simple_slice new_start new_stop in
  if slice_degenerate (zlen v) new_start new_stop
  then Ok (c_empty, simple_slice (Some 0) (Some 0))
  else match np_index v out with
       | Some w => do c <- get_coord_data k w; Ok (c, out)
       | None => Err IndexError
       end.

Lemma m_tail_spec k v l e ns ne keep : v <> [] ->
  0 <= l -> l <= e -> e <= zlen v ->
  ns = (if 0 <? l then Some l else None) ->
  (ne = Some e \/ (ne = None /\ e = zlen v)) ->
  (forall i x, znth v i = Some x -> keep x = (l <=? i) && (i <? e)) ->
  exists out, m_tail k v ns ne = Ok out /\ keeps_as_coord v keep out.
Proof.
  intros Hv Hl Hle He Hns Hne Hk.
  assert (Hn : 0 < zlen v) by (destruct v; [congruence|rewrite zlen_cons; pose proof (zlen_nonneg v); lia]).
  pose proof (positions_where_interval keep v l e Hk) as HP.
  unfold m_tail. destruct (slice_degenerate (zlen v) ns ne) eqn:D.
  - assert (l = e \/ zlen v <= l).
    { unfold slice_degenerate in D. destruct (Z.ltb_spec 0 l); subst ns;
        destruct Hne as [->|[-> ?]]; lia. }
    assert (E : positions_where keep v = []).
    { rewrite HP. destruct (filter _ _) as [|i r] eqn:F; auto. exfalso.
      assert (Hi : In i (i :: r)) by (cbn; auto). rewrite <- F in Hi.
      apply filter_In in Hi as [Hi ?]; apply in_zrange in Hi; lia. }
    exists (c_empty, simple_slice (Some 0) (Some 0)). split; [reflexivity|]. split; cbn [fst snd].
    + assert (filter keep v = []) as ->.
      { apply zlen_zero. rewrite <- zlen_positions_where, E. reflexivity. }
      now apply represents_exact.
    + rewrite E. cbn [indexer_positions simple_slice].
      rewrite simple_slice_positions; [|lia|intros ? [= <-]; lia|intros ? [= <-]; lia].
      cbn [opt_or]. f_equal. clear. induction (zrange (zlen v)) as [|i t IH]; auto.
      cbn [filter]. destruct ((0 <=? i) && (i <? 0)) eqn:Ei; [lia|auto].
  - assert (IP : indexer_positions (zlen v) (simple_slice ns ne) = Some (positions_where keep v)).
    { cbn [indexer_positions simple_slice]. rewrite HP, simple_slice_positions.
      - f_equal. apply filter_ext_in; intros i Hi; apply in_zrange in Hi.
        subst ns. destruct (Z.ltb_spec 0 l), Hne as [->|[-> ?]]; cbn [opt_or]; lia.
      - lia.
      - intros x ->. destruct (Z.ltb_spec 0 l); [|discriminate]. injection Hns as ->. lia.
      - intros x ->. destruct Hne as [[= ->]|[? ?]]; [lia|discriminate]. }
    unfold np_index; rewrite IP, gather_positions_where.
    destruct (get_coord_represents k (filter keep v)) as (c & -> & R & _). cbn [bind].
    eexists; split; [reflexivity|]. split; auto.
Qed.

Lemma m_select_spec k v rel lo hi mn mx : v <> [] -> ascending v \/ descending v ->
  list_min v = Some mn -> list_max v = Some mx ->
  exists out, m_select k v rel lo hi = Ok out /\
    keeps_as_coord v (between (resolve rel mn mx lo) (resolve rel mn mx hi)) out.
Proof.
  intros Hv Hord Hmn Hmx.
  pose proof (slice_tuple_spec (CMono k v) rel lo hi mn mx Hmn Hmx) as E.
  set (L := resolve rel mn mx lo) in *. set (U := resolve rel mn mx hi) in *. clearbody L U.
  set (x1 := match L, U with Some a, Some b => Some (Z.min a b) | x, _ => x end).
  set (x2 := match L, U with Some a, Some b => Some (Z.max a b) | _, y => y end).
  assert (E' : slice_tuple (CMono k v) rel lo hi = Ok (x1, x2))
    by (rewrite E; subst x1 x2; destruct L, U; reflexivity).
  unfold m_select; rewrite E'; cbn [bind fst snd]; clear E E'.
  assert (K : forall x, between L U x =
    match x1 with Some a => a <=? x | None => true end
    && match x2 with Some b => x <=? b | None => true end) by apply between_cases.
  assert (Hx12 : forall a b, x1 = Some a -> x2 = Some b -> a <= b).
  { subst x1 x2; destruct L, U; intros a b [= <-] [= <-]; lia. }
  clearbody x1 x2.
  assert (Hn : 0 < zlen v) by (destruct v; [congruence|rewrite zlen_cons; pose proof (zlen_nonneg v); lia]).
  assert (Hcase : ascending v \/ (descending v /\ 2 <= zlen v)).
  { destruct Hord as [?|Hd]; auto. destruct v as [|a [|b t]]; [congruence|left; apply ascending_one|].
    right; split; auto. rewrite !zlen_cons; pose proof (zlen_nonneg t); lia. }
  assert (Hrange : forall i x, znth v i = Some x -> 0 <= i < zlen v) by (intros; eapply znth_some; eauto).
  match goal with |- exists out, ?lhs = _ /\ _ => change lhs with
    (m_tail k v
      (match m_get_index v (if step_meets false v then x2 else x1) false with
                   | Some s => if 0 <? s then Some s else None
                   | None => None end)
      (match (match m_get_index v (if step_meets false v then x1 else x2) true with
                  | Some s => if s <? zlen v then Some s else None
                  | None => None end) with
       | Some s => match znth v s, (if step_meets false v then x1 else x2) with
                      | Some x, Some y => if x =? y then Some (s + 1) else Some s
                      | _, _ => Some s
                      end
       | None => None end)) end.
  destruct Hcase as [Ha|[Hd H2]].
  - rewrite (ascending_not_rev v Ha).
    pose proof (zsorted_wsorted _ (ascending_zsorted _ Ha)) as WS.
    assert (I1 : forall key, m_index v key false = searchsorted true v key).
    { intros key; unfold m_index; rewrite (ascending_not_rev v Ha); cbn [negb andb].
      now destruct (_ && _). }
    set (l := match x1 with Some a => searchsorted true v a | None => 0 end).
    set (e := match x2 with Some b => searchsorted false v b | None => zlen v end).
    apply m_tail_spec with (l := l) (e := e); auto.
    + subst l; destruct x1; [apply searchsorted_left; auto|lia].
    + subst l e. destruct x1 as [a|], x2 as [b|].
      * specialize (Hx12 a b eq_refl eq_refl).
        destruct (searchsorted_left v a WS) as [Bl Sl], (searchsorted_right v b WS) as [Br Sr].
        destruct (Z_le_gt_dec (searchsorted true v a) (searchsorted false v b)); auto. exfalso.
        destruct (proj2 (znth_range v (searchsorted false v b))) as [y Hy]; [lia|].
        specialize (Sl _ _ Hy); specialize (Sr _ _ Hy). lia.
      * destruct (searchsorted_left v a WS); lia.
      * destruct (searchsorted_right v b WS); lia.
      * lia.
    + subst e; destruct x2; [apply searchsorted_right; auto|lia].
    + subst l; destruct x1 as [a|]; cbn [m_get_index]; [now rewrite I1|reflexivity].
    + subst e; destruct x2 as [b|]; cbn [m_get_index]; [|auto].
      unfold m_index; rewrite (ascending_not_rev v Ha); cbn [negb andb].
      destruct (searchsorted_left v b WS) as [Bl Sl], (searchsorted_right v b WS) as [Br Sr].
      set (lf := searchsorted true v b) in *. set (rt := searchsorted false v b) in *.
      clearbody lf rt. unfold take_clip.
      destruct (((lf <? zlen v) && (0 <? lf)) && _) eqn:Eq.
      * (* the bound is a value of the array, not the first one *)
        apply andb_true_iff in Eq as [Hok Heq].
        assert (Hcl : Z.max 0 (Z.min lf (zlen v - 1)) = lf) by lia. rewrite Hcl in Heq.
        destruct (znth v lf) as [y|] eqn:Hy; [|discriminate].
        destruct (Z.ltb_spec lf (zlen v)); [|lia]. rewrite Hy, Heq. left.
        (* rt = lf + 1 *)
        f_equal. pose proof (Sr _ _ Hy). destruct (Z.eq_dec rt (lf + 1)); auto. exfalso.
        assert (Hr : 0 <= rt - 1 < zlen v) by lia.
        destruct (proj2 (znth_range v (rt - 1)) Hr) as [z Hz].
        pose proof (Sr _ _ Hz). pose proof (ascending_znth v lf (rt - 1) y z Ha Hy Hz). lia.
      * destruct (Z.ltb_spec rt (zlen v)) as [Hrt|Hrt].
        -- destruct (proj2 (znth_range v rt)) as [y Hy]; [lia|]. rewrite Hy.
           pose proof (Sr _ _ Hy). destruct (Z.eqb_spec y b); [lia|auto].
        -- right; split; [auto|lia].
    + intros i x Hx. rewrite K. subst l e. pose proof (Hrange _ _ Hx).
      destruct x1 as [a|], x2 as [b|]; f_equal;
        try (destruct (searchsorted_left v a WS) as [_ Sl]; specialize (Sl _ _ Hx));
        try (destruct (searchsorted_right v b WS) as [_ Sr]; specialize (Sr _ _ Hx)); lia.
  - rewrite (descending_rev v Hd H2).
    assert (Ha : ascending (map Z.opp v)) by now apply ascending_opp.
    pose proof (zsorted_wsorted _ (ascending_zsorted _ Ha)) as WS.
    set (w := map Z.opp v) in *.
    assert (Hw : forall i x, znth v i = Some x -> znth w i = Some (- x)).
    { intros i x Hx; subst w; rewrite znth_map, Hx; reflexivity. }
    assert (Lw : zlen w = zlen v) by (subst w; apply zlen_map).
    assert (I1 : forall key f, m_index v key f
       = if f then searchsorted false w (- key) else searchsorted true w (- key)).
    { intros key f; unfold m_index; rewrite (descending_rev v Hd H2); cbn [negb andb].
      reflexivity. }
    set (l := match x2 with Some b => searchsorted true w (- b) | None => 0 end).
    set (e := match x1 with Some a => searchsorted false w (- a) | None => zlen v end).
    apply m_tail_spec with (l := l) (e := e); auto.
    + subst l; destruct x2 as [b|]; [apply searchsorted_left; auto|lia].
    + subst l e. destruct x1 as [a|], x2 as [b|].
      * specialize (Hx12 a b eq_refl eq_refl).
        destruct (searchsorted_left w (- b) WS) as [Bl Sl], (searchsorted_right w (- a) WS) as [Br Sr].
        destruct (Z_le_gt_dec (searchsorted true w (- b)) (searchsorted false w (- a))); auto. exfalso.
        destruct (proj2 (znth_range w (searchsorted false w (- a)))) as [y Hy]; [lia|].
        specialize (Sl _ _ Hy); specialize (Sr _ _ Hy). lia.
      * destruct (searchsorted_right w (- a) WS); lia.
      * destruct (searchsorted_left w (- b) WS); lia.
      * lia.
    + subst e; destruct x1 as [a|]; [destruct (searchsorted_right w (- a) WS); lia|lia].
    + subst l; destruct x2 as [b|]; cbn [m_get_index]; [now rewrite I1|reflexivity].
    + subst e; destruct x1 as [a|]; cbn [m_get_index]; [|auto].
      rewrite I1. destruct (searchsorted_right w (- a) WS) as [Br Sr].
      set (rt := searchsorted false w (- a)) in *. clearbody rt.
      destruct (Z.ltb_spec rt (zlen v)) as [Hrt|Hrt].
      * destruct (proj2 (znth_range v rt)) as [y Hy]; [lia|]. rewrite Hy.
        pose proof (Sr _ _ (Hw _ _ Hy)). destruct (Z.eqb_spec y a); [lia|auto].
      * right; split; [auto|lia].
    + intros i x Hx. rewrite K. subst l e. pose proof (Hrange _ _ Hx).
      pose proof (Hw _ _ Hx) as Hx'.
      destruct x1 as [a|], x2 as [b|];
        try (destruct (searchsorted_left w (- b) WS) as [_ Sl]; specialize (Sl _ _ Hx'));
        try (destruct (searchsorted_right w (- a) WS) as [_ Sr]; specialize (Sr _ _ Hx')); lia.
Qed.

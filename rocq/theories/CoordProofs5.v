(** Lemmas behind CoordProps.v: limits, lengths, alignment, lookups. *)
From Verif Require Import Base BaseFacts CoordModel CoordSpec CoordProofs CoordProofs2 CoordProofs3
  CoordProofs4.
From Coq Require Import ZifyBool Sorting.Permutation Sorting.Sorted.
Ltac Zify.zify_post_hook ::= Z.div_mod_to_equations.

(** ** change_length (C13) *)
Lemma change_length_neg r n : n < 0 -> change_length r n = Err ParameterError.
Proof. intros; unfold change_length. destruct (Z.ltb_spec n 0); [auto|lia]. Qed.
Lemma change_length_zero r : wf_range r -> change_length r 0 = Ok (CPart 0).
Proof.
  intros (_ & Hn & _). unfold change_length. cbn [Z.ltb Z.compare].
  destruct (Z.eqb_spec (r_len r) 0); [lia|reflexivity].
Qed.
Lemma change_length_wf r n : wf_range r -> 1 <= n ->
  (r_kind r = KTime \/ r_len r = n \/
   1 + 1000 * Z.abs (r_stop r) < 100000000 * (Z.abs (r_step r) * Z.abs (n - r_len r))) ->
  change_length r n = Ok (CRange (mkRange (r_kind r) (r_start r) (r_start r + r_step r * n) (r_step r) n)).
Proof.
  intros (Hs & Hn & Hstop) H1 H. unfold change_length. destruct (Z.ltb_spec n 0); [lia|].
  destruct (Z.eqb_spec (r_len r) n) as [E|E].
  - do 2 f_equal. subst n. destruct r; cbn in *. f_equal; lia.
  - destruct (Z.eqb_spec n 0); [lia|].
    replace (r_stop r + r_step r * (n - r_len r)) with (r_start r + r_step r * n) by (rewrite Hstop; ring).
    assert (A : all_close (r_kind r) (r_start r + r_step r * n) (r_stop r) = false).
    { unfold all_close. rewrite Hstop in *. destruct (r_kind r); [|nia].
      destruct H as [H|[H|H]]; [discriminate|lia|].
      apply Z.leb_gt. replace (r_start r + r_step r * n - (r_start r + r_len r * r_step r))
        with (r_step r * (n - r_len r)) by ring. rewrite Z.abs_mul. lia. }
    rewrite A, r_new_exact by auto. cbn [c_len r_len]. now rewrite Z.eqb_refl.
Qed.
(** Whatever happens, a successful call has the right length, start and step. *)
Lemma change_length_ok r n c : wf_range r -> change_length r n = Ok c ->
  0 <= n /\ ((n = 0 /\ c = CPart 0) \/
    exists r', c = CRange r' /\ wf_range r' /\ r_kind r' = r_kind r /\
      r_start r' = r_start r /\ r_step r' = r_step r /\ r_len r' = n).
Proof.
  intros W. pose proof W as (Hs & Hn & Hstop). unfold change_length.
  destruct (Z.ltb_spec n 0); [discriminate|].
  destruct (Z.eqb_spec (r_len r) n) as [E|E].
  { intros [= <-]. split; auto. right. exists r; auto 10. }
  destruct (Z.eqb_spec n 0) as [->|E0].
  { intros [= <-]. split; auto. }
  destruct (all_close _ _ _).
  { cbn [c_len]. destruct (Z.eqb_spec (r_len r) n); [lia|discriminate]. }
  replace (r_stop r + r_step r * (n - r_len r)) with (r_start r + r_step r * n) by (rewrite Hstop; ring).
  rewrite r_new_exact by lia. cbn [c_len r_len]. rewrite Z.eqb_refl. intros [= <-].
  split; auto. right. eexists; split; [reflexivity|]. repeat split; cbn; auto; lia.
Qed.

(** The values of the new coordinate agree with the old ones. *)
Lemma change_length_prefix r r' : wf_range r -> wf_range r' ->
  r_start r' = r_start r -> r_step r' = r_step r ->
  firstn (Z.to_nat (Z.min (r_len r) (r_len r'))) (r_values r')
  = firstn (Z.to_nat (Z.min (r_len r) (r_len r'))) (r_values r).
Proof.
  intros W W' E1 E2. rewrite !r_values_prog, E1, E2 by auto.
  apply znth_ext; intros i. rewrite !znth_firstn.
  destruct (Z.ltb_spec i (Z.min (r_len r) (r_len r'))); auto.
  destruct (Z_lt_dec i 0) as [Hi|Hi].
  - unfold znth. destruct (Z.ltb_spec i 0); [auto|lia].
  - rewrite !znth_progression by lia. reflexivity.
Qed.

(** ** update_limits (C12) *)
Lemma shift_range r d s : s <> 0 -> 1 <= r_len r ->
  r_new r d (d + s * r_len r) s = CRange (mkRange (r_kind r) d (d + s * r_len r) s (r_len r)).
Proof. intros; now apply r_new_exact. Qed.

Lemma update_limits_three r a b s : r_update_limits r (Some a) (Some b) (Some s) = Err ValueError.
Proof. reflexivity. Qed.

(** The result of the min/max/step adjustments, for any sign of step. *)
Lemma update_limits_step r s : wf_range r -> s <> 0 ->
  r_update_limits r None None (Some s)
  = Ok (CRange (mkRange (r_kind r) (r_start r) (r_start r + s * r_len r) s (r_len r))).
Proof.
  intros (_ & Hn & _) Hs. cbn [r_update_limits]. rewrite shift_range by auto. reflexivity.
Qed.
Lemma update_limits_min r m os : wf_range r -> (forall s, os = Some s -> s <> 0) ->
  let s := match os with Some s => s | None => r_step r end in
  r_update_limits r (Some m) None os
  = Ok (CRange (mkRange (r_kind r) m (m + s * r_len r) s (r_len r))).
Proof.
  intros (Hr & Hn & Hstop) Hs; cbv zeta. unfold r_update_limits. destruct os as [s|].
  - specialize (Hs s eq_refl). rewrite shift_range by auto. cbn [bind r_stop r_start r_step].
    replace (r_start r + s * r_len r + (m - r_start r)) with (m + s * r_len r) by ring.
    rewrite r_new_exact by auto. reflexivity.
  - cbn [bind]. rewrite Hstop.
    replace (r_start r + r_len r * r_step r + (m - r_start r)) with (m + r_step r * r_len r) by ring.
    f_equal. apply r_new_exact; auto.
Qed.
Lemma update_limits_max r m os : wf_range r -> (forall s, os = Some s -> s <> 0) ->
  let s := match os with Some s => s | None => r_step r end in
  r_update_limits r None (Some m) os
  = Ok (CRange (mkRange (r_kind r) (m + s - s * r_len r) (m + s) s (r_len r))).
Proof.
  intros (Hr & Hn & Hstop) Hs; cbv zeta. unfold r_update_limits.
  assert (G : forall o, r_kind o = r_kind r -> r_len o = r_len r -> r_start o = r_start r ->
     r_step o <> 0 -> r_stop o = r_start o + r_len o * r_step o ->
     r_new o (r_start r + (m + r_step o - r_stop o)) (m + r_step o) (r_step o)
     = CRange (mkRange (r_kind r) (m + r_step o - r_step o * r_len r) (m + r_step o) (r_step o) (r_len r))).
  { intros o Hk Hl Ha Ho Hst. rewrite Hst, Hl, Ha.
    replace (r_start r + (m + r_step o - (r_start r + r_len r * r_step o)))
      with (m + r_step o - r_step o * r_len r) by ring.
    pose proof (r_new_exact o (m + r_step o - r_step o * r_len r) (r_step o) (r_len r) Ho Hn) as N.
    replace (m + r_step o - r_step o * r_len r + r_step o * r_len r) with (m + r_step o) in N by ring.
    rewrite N, Hk. reflexivity. }
  destruct os as [s|].
  - specialize (Hs s eq_refl). rewrite shift_range by auto. cbn [bind]. rewrite G; cbn; auto. ring.
  - cbn [bind]. rewrite G; auto.
Qed.
Lemma update_limits_none r : r_update_limits r None None None = Ok (CRange r).
Proof. reflexivity. Qed.

(** Both limits of a time coordinate, when the span divides evenly. *)
Lemma update_limits_both r a b : wf_range r -> r_kind r = KTime ->
  a <> b -> (b - a) mod r_len r = 0 ->
  r_update_limits r (Some a) (Some b) None
  = Ok (CRange (mkRange KTime a b ((b - a) / r_len r) (r_len r))).
Proof.
  intros (Hr & Hn & Hstop) Hk Hab Hd. cbn [r_update_limits]. rewrite Hk.
  assert (Q : Z.quot (b - a) (r_len r) = (b - a) / r_len r).
  { pose proof (Z.div_exact (b - a) (r_len r) ltac:(lia)) as [_ D]. specialize (D Hd).
    set (q := (b - a) / r_len r) in *. rewrite D. rewrite Z.mul_comm. apply Z.quot_mul; lia. }
  rewrite Q. pose proof (Z.div_exact (b - a) (r_len r) ltac:(lia)) as [_ D]. specialize (D Hd).
  set (q := (b - a) / r_len r) in *. clearbody q.
  assert (b = a + q * r_len r) as -> by lia. rewrite mk_range_exact by nia. reflexivity.
Qed.

(** Minimum and maximum of the results for ascending coordinates. *)
Lemma r_min_asc k a s n : 0 < s -> 1 <= n -> r_min (mkRange k a (a + s * n) s n) = a.
Proof. intros; unfold r_min; cbn; nia. Qed.
Lemma r_max_asc k a s n : 0 < s -> 1 <= n ->
  r_max (mkRange k (a + s - s * n) (a + s) s n) = a.
Proof. intros; unfold r_max; cbn; nia. Qed.

(** Array coordinates are shifted as a whole. *)
Lemma list_min_least v m : list_min v = Some m -> is_least m v.
Proof.
  destruct v as [|x t]; [discriminate|]. cbn [list_min]. intros [= <-].
  revert x; induction t as [|y t IH]; intros x; cbn [fold_left].
  - split; cbn; auto. intros z [<-|[]]; lia.
  - destruct (IH (Z.min x y)) as [H1 H2]. split.
    + destruct H1 as [H1|H1]; cbn; auto. rewrite <- H1. destruct (Z.min_spec x y) as [[_ ->]|[_ ->]]; auto.
    + intros z [<-|[<-|Hz]]; [| |apply H2; cbn; auto];
        pose proof (H2 (Z.min x y) (or_introl eq_refl)); lia.
Qed.
Lemma list_max_greatest v m : list_max v = Some m -> is_greatest m v.
Proof.
  destruct v as [|x t]; [discriminate|]. cbn [list_max]. intros [= <-].
  revert x; induction t as [|y t IH]; intros x; cbn [fold_left].
  - split; cbn; auto. intros z [<-|[]]; lia.
  - destruct (IH (Z.max x y)) as [H1 H2]. split.
    + destruct H1 as [H1|H1]; cbn; auto. rewrite <- H1. destruct (Z.max_spec x y) as [[_ ->]|[_ ->]]; auto.
    + intros z [<-|[<-|Hz]]; [| |apply H2; cbn; auto];
        pose proof (H2 (Z.max x y) (or_introl eq_refl)); lia.
Qed.
Lemma list_min_ok v : v <> [] -> exists m, list_min v = Some m.
Proof. destruct v; [congruence|cbn; eauto]. Qed.
Lemma list_max_ok v : v <> [] -> exists m, list_max v = Some m.
Proof. destruct v; [congruence|cbn; eauto]. Qed.

Lemma a_update_limits_spec k mono v m (hi : bool) : v <> [] ->
  exists c old, (if hi then is_greatest old v else is_least old v) /\
    a_update_limits k mono v (if hi then None else Some m) (if hi then Some m else None) None = Ok c /\
    represents c (map (fun y => y + (m - old)) v).
Proof.
  intros Hv. destruct hi.
  - destruct (list_max_ok v Hv) as (old & E). cbn [a_update_limits]. rewrite E.
    destruct (get_coord_represents k (map (fun y => y + (m - old)) v)) as (c & Ec & R & _).
    exists c, old. split; auto. now apply list_max_greatest.
  - destruct (list_min_ok v Hv) as (old & E). cbn [a_update_limits]. rewrite E.
    destruct (get_coord_represents k (map (fun y => y + (m - old)) v)) as (c & Ec & R & _).
    exists c, old. split; auto. now apply list_min_least.
Qed.

(** ** snap (C14) *)
Lemma least_unique a b l : is_least a l -> is_least b l -> a = b.
Proof. intros [H1 H2] [H3 H4]. specialize (H2 b H3); specialize (H4 a H1); lia. Qed.
Lemma greatest_unique a b l : is_greatest a l -> is_greatest b l -> a = b.
Proof. intros [H1 H2] [H3 H4]. specialize (H2 b H3); specialize (H4 a H1); lia. Qed.

Lemma snap_spec mono v mn mx : v <> [] -> is_least mn v -> is_greatest mx v ->
  let n := zlen v in
  let step := if n =? 1 then 1000000000 else round_half_even (mx - mn) (n - 1) in
  let down := mono && step_meets false v in
  (0 < step ->
     exists r, snap KTime mono v = Ok (CRange r) /\ wf_range r /\ r_len r = n /\
       r_start r = (if down then mx else mn) /\ r_step r = (if down then - step else step)) /\
  (step <= 0 -> snap KTime mono v = Err AssertionError).
Proof.
  intros Hv Hmn Hmx. cbv zeta. unfold snap.
  destruct (list_min_ok v Hv) as (mn' & E1), (list_max_ok v Hv) as (mx' & E2).
  pose proof (least_unique _ _ _ (list_min_least _ _ E1) Hmn).
  pose proof (greatest_unique _ _ _ (list_max_greatest _ _ E2) Hmx). subst mn' mx'.
  rewrite E1, E2. cbv zeta.
  assert (Hle : mn <= mx) by (destruct Hmn as [Hi _], Hmx as [_ Hg]; apply Hg; auto).
  assert (Hn : 1 <= zlen v) by (destruct v; [congruence|rewrite zlen_cons; pose proof (zlen_nonneg v); lia]).
  set (n := zlen v) in *. set (down := mono && step_meets false v).
  set (step := if n =? 1 then 1000000000 else round_half_even (mx - mn) (n - 1)).
  split; intros Hst.
  - assert (B : (if n =? 1 then Ok 1000000000
                 else if 0 <? round_half_even (mx - mn) (n - 1)
                      then Ok (round_half_even (mx - mn) (n - 1)) else Err AssertionError)
                = Ok step).
    { subst step. destruct (n =? 1); auto. destruct (Z.ltb_spec 0 (round_half_even (mx - mn) (n - 1))); auto; lia. }
    rewrite B; cbn [bind]. clear B.
    assert (S0 : (if down then - step else step) <> 0) by (destruct down; lia).
    set (st := if down then - step else step) in *.
    set (a := if down then mx else mn). set (b := if down then mn else mx).
    destruct (proj2 (mk_range_ok_iff KTime a (b + st) st S0)) as [r Er].
    { subst a b st. clearbody step. destruct down; nia. }
    rewrite Er; cbn [bind]. destruct (mk_range_wf _ _ _ _ _ S0 Er) as (W & Hk & Ha & Hs & _).
    rewrite change_length_wf by auto. eexists; split; [reflexivity|].
    rewrite Ha, Hs. unfold wf_range; cbn [r_len r_start r_step r_stop]. repeat split; auto; ring.
  - subst step. destruct (Z.eqb_spec n 1); [lia|].
    destruct (Z.ltb_spec 0 (round_half_even (mx - mn) (n - 1))); [lia|reflexivity].
Qed.
Lemma snap_step_error span n : 2 <= n -> 0 <= span ->
  2 * Z.abs (round_half_even span (n - 1) * (n - 1) - span) <= n - 1.
Proof. intros Hn Hs. pose proof (rhe_bounds span (n - 1) ltac:(lia)). lia. Qed.

(** ** align_to (C15) *)
Lemma in_intersect1d x a b : In x (intersect1d a b) <-> In x a /\ In x b.
Proof. unfold intersect1d. rewrite filter_In, in_np_unique, memZ_In. tauto. Qed.
Lemma zsorted_intersect1d a b : zsorted (intersect1d a b).
Proof. apply zsorted_filter, zsorted_np_unique. Qed.

Lemma occurrences_single x v : NoDup v -> In x v -> exists i, occurrences x v = [i].
Proof.
  intros N Hx. apply in_znth in Hx as (i & Hi). exists i. apply zsorted_ext.
  - apply zsorted_filter, zsorted_zrange.
  - repeat constructor.
  - intros j. rewrite in_occurrences. cbn [In]. split; [|intros [<-|[]]; auto].
    intros Hj. left. apply znth_some in Hi as B1; apply znth_some in Hj as B2.
    rewrite NoDup_nth_error in N. specialize (N (Z.to_nat i) (Z.to_nat j)).
    unfold znth, zlen in *. destruct (Z.ltb_spec i 0), (Z.ltb_spec j 0); try lia.
    specialize (N ltac:(lia) ltac:(congruence)). lia.
Qed.
Lemma order_nodup v arr : NoDup v -> (forall x, In x arr -> In x v) ->
  concat (map (fun x => map (fun _ => x) (occurrences x v)) arr) = arr.
Proof.
  intros N. induction arr as [|x t IH]; intros H; auto. cbn [map concat].
  destruct (occurrences_single x v N (H x (or_introl eq_refl))) as (i & ->). cbn.
  f_equal. apply IH; intros; apply H; cbn; auto.
Qed.

Lemma zlist_eqb_eq a b : zlist_eqb a b = true -> a = b.
Proof.
  revert b; induction a as [|x a IH]; intros [|y b]; cbn; try discriminate; auto.
  rewrite andb_true_iff. intros [E1 E2]. f_equal; [lia|auto].
Qed.
Lemma zlist_eqb_refl a : zlist_eqb a a = true.
Proof. induction a; cbn; auto. rewrite IHa. lia. Qed.
Lemma all_close_spec k x y : all_close k x y = true <-> close_values k x y.
Proof. destruct k; unfold all_close, close_values; [apply Z.leb_le|apply Z.eqb_eq]. Qed.
Lemma all_pairs_close_spec k v w : all_pairs_close k v w = true <-> Forall2 (close_values k) v w.
Proof.
  revert w; induction v as [|x v IH]; intros [|y w]; cbn; split; intros H; try discriminate; auto;
    try (inversion H; fail).
  - apply andb_true_iff in H as [H1 H2]. constructor; [now apply all_close_spec|now apply IH].
  - inversion H; subst. apply andb_true_iff; split; [now apply all_close_spec|now apply IH].
Qed.
Lemma close_refl k x : close_values k x x.
Proof. destruct k; unfold close_values; lia. Qed.
Lemma close_list_refl k v : Forall2 (close_values k) v v.
Proof. induction v; constructor; auto using close_refl. Qed.
Lemma c_eqb_spec a b : c_eqb a b = true <-> confusable a b.
Proof.
  split.
  - destruct a as [r|k v|k v|n], b as [r'|k' v'|k' v'|n']; cbn; try discriminate; intros H.
    + left. destruct r as [[] ? ? ? ?], r' as [[] ? ? ? ?]; cbn in H; try discriminate; f_equal; f_equal; lia.
    + apply andb_true_iff in H as [E1 E2%all_pairs_close_spec]. destruct k, k'; try discriminate; right; eauto 8.
    + apply andb_true_iff in H as [E1 E2%all_pairs_close_spec]. destruct k, k'; try discriminate; right; eauto 8.
    + apply andb_true_iff in H as [E1 E2%all_pairs_close_spec]. destruct k, k'; try discriminate; right; eauto 8.
    + apply andb_true_iff in H as [E1 E2%all_pairs_close_spec]. destruct k, k'; try discriminate; right; eauto 8.
    + left. f_equal; lia.
  - intros [<-|(k & v & w & Ha & Hb & F%all_pairs_close_spec)].
    + destruct a as [r|k v|k v|n]; cbn [c_eqb].
      * destruct r as [[] ? ? ? ?]; cbn; lia.
      * apply andb_true_iff; split; [now destruct k|]. apply all_pairs_close_spec, close_list_refl.
      * apply andb_true_iff; split; [now destruct k|]. apply all_pairs_close_spec, close_list_refl.
      * lia.
    + destruct Ha as [-> | ->], Hb as [-> | ->]; cbn [c_eqb]; rewrite F; now destruct k.
Qed.
Lemma c_eqb_refl a : c_eqb a a = true.
Proof. apply c_eqb_spec. now left. Qed.

Lemma align_to_spec argsort a b : valid_argsort argsort ->
  wf_coord a -> wf_coord b -> concrete a -> concrete b ->
  NoDup (c_ints a) -> NoDup (c_ints b) -> ~ confusable a b ->
  exists a' b' ia ib common,
    align_to argsort a b = Ok (a', b', ia, ib) /\
    ascending common /\ (forall x, In x common <-> In x (c_ints a) /\ In x (c_ints b)) /\
    np_index (c_ints a) ia = Some common /\ np_index (c_ints b) ib = Some common /\
    represents a' common /\ represents b' common.
Proof.
  intros VA Wa Wb Ca Cb Na Nb Hab.
  set (common := intersect1d (c_ints a) (c_ints b)).
  destruct (order_values_full argsort a common VA Wa Ca) as ((a' & ia) & pa & Ea & _ & Pa & Ga & Ra).
  destruct (order_values_full argsort b common VA Wb Cb) as ((b' & ib) & pb & Eb & _ & Pb & Gb & Rb).
  rewrite order_nodup in Ga, Ra by (auto; intros x Hx; apply in_intersect1d in Hx; tauto).
  rewrite order_nodup in Gb, Rb by (auto; intros x Hx; apply in_intersect1d in Hx; tauto).
  exists a', b', ia, ib, common. cbn [fst snd] in *.
  split.
  { unfold align_to. destruct (c_eqb a b) eqn:E; [apply c_eqb_spec in E; contradiction|].
    fold common. destruct a, b; try (destruct Ca; fail); try (destruct Cb; fail);
      fold common; rewrite Ea, Eb; reflexivity. }
  split; [apply zsorted_ascending, zsorted_intersect1d|].
  split; [intros; apply in_intersect1d|].
  unfold np_index. rewrite (wf_len a), (wf_len b), Pa, Pb by auto. auto.
Qed.
Lemma align_to_confusable argsort a b : confusable a b ->
  align_to argsort a b = Ok (a, b, simple_slice None None, simple_slice None None).
Proof. intros H%c_eqb_spec. unfold align_to. now rewrite H. Qed.
Lemma confusable_times a b : confusable a b -> (concrete a -> c_kind a = KTime) -> c_ints a = c_ints b.
Proof.
  intros [-> |(k & v & w & Ha & Hb & F)] K; auto.
  assert (k = KTime) as -> by (destruct Ha as [-> | ->]; cbn in K; auto).
  assert (v = w) as -> by (clear -F; induction F; cbn in *; congruence).
  destruct Ha as [-> | ->], Hb as [-> | ->]; reflexivity.
Qed.
Lemma align_to_self argsort a : align_to argsort a a = Ok (a, a, simple_slice None None, simple_slice None None).
Proof. unfold align_to. now rewrite c_eqb_refl. Qed.
Lemma align_to_partial argsort a b : a <> b -> ~ (concrete a /\ concrete b) ->
  align_to argsort a b =
  if (c_len a =? 1) || (c_len b =? 1) || (c_len a =? c_len b)
  then Ok (a, b, simple_slice None None, simple_slice None None) else Err CoordError.
Proof.
  intros Hab Hc. unfold align_to. destruct (c_eqb a b) eqn:E.
  { apply c_eqb_spec in E as [E|(k & v & w & [-> | ->] & [-> | ->] & _)]; cbn in Hc; tauto. }
  destruct a, b; cbn in Hc |- *; tauto.
Qed.

(** ** get_next_index (C16) *)
Lemma r_next_index r x : wf_range r -> 0 < r_step r -> r_step r < 20000000000 ->
  r_min r <= x <= r_max r -> first_at_or_after (r_values r) x (r_raw_index r x true).
Proof.
  intros W Hs Hsm Hx. pose proof W as (_ & Hn & Hstop).
  assert (F : forall i, r_raw_index r x true <= i <-> x <= r_start r + i * r_step r).
  { intros i. rewrite raw_forward_le by lia. rewrite Z.sgn_pos, Z.abs_eq by lia. lia. }
  set (p := r_raw_index r x true) in *. clearbody p.
  unfold r_min, r_max in Hx. rewrite Hstop in Hx. rewrite Z.min_l, Z.max_l in Hx by nia.
  unfold first_at_or_after. rewrite zlen_r_values, r_values_prog by auto.
  assert (Hp : 0 <= p < r_len r).
  { split.
    - destruct (Z_lt_dec p 0); [|lia]. exfalso.
      assert (H : p <= -1) by lia. apply F in H. nia.
    - enough (p <= r_len r - 1) by lia. apply F. nia. }
  repeat split; try lia; intros j y Hj Hjp; pose proof (znth_some _ _ _ Hj) as B;
    rewrite zlen_progression in B; rewrite znth_progression in Hj by lia; injection Hj as <-.
  - destruct (Z_lt_dec (r_start r + j * r_step r) x); auto. exfalso.
    assert (p <= j) by (apply F; lia). lia.
  - now apply F.
Qed.

Lemma m_next_index v x : ascending v -> v <> [] ->
  (forall y, znth v 0 = Some y -> y < x) -> (exists y, In y v /\ x <= y) ->
  first_at_or_after v x (m_index v x true).
Proof.
  intros Ha Hv H0 (y & Hy & Hxy).
  pose proof (zsorted_wsorted _ (ascending_zsorted _ Ha)) as WS.
  destruct (searchsorted_left v x WS) as [Bl Sl], (searchsorted_right v x WS) as [Br Sr].
  unfold m_index. rewrite (ascending_not_rev v Ha). cbn [negb andb].
  set (lf := searchsorted true v x) in *. set (rt := searchsorted false v x) in *. clearbody lf rt.
  apply in_znth in Hy as (p & Hp). pose proof (Sl _ _ Hp) as Hlp.
  assert (Bp := znth_some _ _ _ Hp).
  assert (Hn : 0 < zlen v) by lia.
  destruct (proj2 (znth_range v 0) ltac:(lia)) as [z Hz]. specialize (H0 z Hz).
  pose proof (Sl _ _ Hz) as Hz'.
  assert (L : lf < zlen v) by lia. assert (L0 : 0 < lf) by lia.
  assert (R : (if (lf <? zlen v) && (0 <? lf) && match take_clip v lf with
              | Some w => w =? x | None => false end then lf else rt) = lf).
  { unfold take_clip. replace (Z.max 0 (Z.min lf (zlen v - 1))) with lf by lia.
    destruct (proj2 (znth_range v lf) ltac:(lia)) as [w Hw]. rewrite Hw.
    destruct (Z.eqb_spec w x) as [E|E]; [destruct ((lf <? zlen v) && (0 <? lf)) eqn:Q; [reflexivity|lia]|].
    rewrite andb_false_r. pose proof (Sl _ _ Hw). pose proof (Sr _ _ Hw).
    destruct (Z.eq_dec lf rt); auto. exfalso.
    destruct (Z_lt_dec rt lf).
    - destruct (proj2 (znth_range v rt) ltac:(lia)) as [u Hu].
      pose proof (Sl _ _ Hu); pose proof (Sr _ _ Hu); lia.
    - lia. }
  rewrite R. repeat split; try lia; intros j u Hj Hjl; pose proof (Sl _ _ Hj); lia.
Qed.

Lemma existsb_false_all {A} (f : A -> bool) l : (forall x, In x l -> f x = false) -> existsb f l = false.
Proof.
  intros H. destruct (existsb f l) eqn:E; auto. apply existsb_exists in E as (x & Hx & Hf).
  rewrite H in Hf by auto. discriminate.
Qed.

Lemma next_index_range r arr allow : wf_range r -> 0 < r_step r -> r_step r < 20000000000 ->
  (forall x, In x arr -> r_min r <= x <= r_max r) ->
  exists out, next_index (CRange r) arr allow = Ok out /\
    Forall2 (first_at_or_after (r_values r)) arr out.
Proof.
  intros W Hs Hsm H. unfold next_index. cbn [c_sorted c_min c_max]. unfold r_sorted.
  destruct (Z.leb_spec 0 (r_step r)); [|lia]. cbn [negb].
  rewrite existsb_false_all by (intros x Hx; specialize (H x Hx); lia).
  rewrite !andb_false_r. destruct (Z.eqb_spec (r_step r) 0); [lia|].
  eexists; split; [reflexivity|].
  induction arr as [|x t IH]; cbn [map]; constructor; [|apply IH; intros; apply H; cbn; auto].
  assert (Hx : r_min r <= x <= r_max r) by (apply H; cbn; auto).
  destruct (Z.ltb_spec (r_max r) x); [lia|]. destruct (Z.ltb_spec x (r_min r)); [lia|].
  now apply r_next_index.
Qed.
Lemma next_index_mono k v arr allow mn mx : ascending v -> list_min v = Some mn -> list_max v = Some mx ->
  c_sorted (CMono k v) = true ->
  (forall x, In x arr -> mn < x <= mx) ->
  exists out, next_index (CMono k v) arr allow = Ok out /\ Forall2 (first_at_or_after v) arr out.
Proof.
  intros Ha Hmn Hmx Hso H. unfold next_index. rewrite Hso. cbn [negb c_min c_max]. rewrite Hmn, Hmx.
  rewrite existsb_false_all by (intros x Hx; specialize (H x Hx); lia).
  rewrite andb_false_r. eexists; split; [reflexivity|].
  assert (Hv : v <> []) by (intros ->; discriminate).
  pose proof (list_min_least _ _ Hmn) as [_ Hl]. pose proof (list_max_greatest _ _ Hmx) as [Hg _].
  induction arr as [|x t IH]; cbn [map]; constructor; [|apply IH; intros; apply H; cbn; auto].
  assert (Hx : mn < x <= mx) by (apply H; cbn; auto).
  destruct (Z.ltb_spec mx x); [lia|]. destruct (Z.ltb_spec x mn); [lia|].
  apply m_next_index; auto.
  - intros y Hy. destruct (list_min_least _ _ Hmn) as [Hi _].
    apply in_znth in Hi as (i & Hi). destruct (Z.eq_dec i 0) as [->|]; [congruence || (assert (y = mn) by congruence; lia)|].
    assert (Bi := znth_some _ _ _ Hi).
    assert (y < mn) by (apply (ascending_znth v 0 i); auto; lia). lia.
  - exists mx. split; auto; lia.
Qed.
Lemma next_index_oob c arr mn mx : c_sorted c = true -> c_min c = Some mn -> c_max c = Some mx ->
  (exists x, In x arr /\ (x < mn \/ mx < x)) -> next_index c arr false = Err ValueError.
Proof.
  intros Hs Hmn Hmx (x & Hx & Ho). unfold next_index. rewrite Hs, Hmn, Hmx. cbn [negb].
  assert (E : existsb (fun x => (mx <? x) || (x <? mn)) arr = true)
    by (apply existsb_exists; exists x; split; auto; lia).
  now rewrite E.
Qed.
Lemma next_index_unsorted c arr b : c_sorted c = false -> next_index c arr b = Err CoordError.
Proof. intros H; unfold next_index; now rewrite H. Qed.
Lemma next_index_samples_spec c arr : c_sorted c = true ->
  next_index_samples c arr false =
  if forallb (fun i => (- c_len c <=? i) && (i <? c_len c)) arr
  then Ok (map (wrap_index (c_len c)) arr) else Err ValueError.
Proof.
  intros Hs. unfold next_index_samples. rewrite Hs. cbn [negb andb].
  assert (E : map (fun i => if i <? 0 then i + (c_len c - 1) + 1 else i) arr
              = map (wrap_index (c_len c)) arr).
  { apply map_ext; intros i; unfold wrap_index. destruct (i <? 0); lia. }
  rewrite E. clear E.
  assert (E : existsb (fun i => (c_len c - 1 <? i) || (i <? 0)) (map (wrap_index (c_len c)) arr)
     = negb (forallb (fun i => (- c_len c <=? i) && (i <? c_len c)) arr)).
  { induction arr as [|i t IH]; auto. cbn [map existsb forallb]. rewrite IH, negb_andb. f_equal.
    unfold wrap_index. destruct (Z.ltb_spec i 0); lia. }
  rewrite E. now destruct (forallb _ arr).
Qed.

(** ** get_sample_count (C17) *)
Lemma sample_count_spec r d enforce : wf_range r -> 0 < r_step r -> 0 <= d ->
  exists n, (n - 1) * r_step r < d <= n * r_step r /\
    sample_count r d enforce
    = if enforce && (r_len r <? n) then Err ParameterError else Ok n.
Proof.
  intros W Hs Hd. unfold sample_count. destruct (Z.eqb_spec (r_step r) 0); [lia|].
  unfold relative_value. destruct (Z.leb_spec 0 d); [|lia]. cbn [c_min bind].
  destruct (Z.ltb_spec (r_step r) 0); [lia|].
  replace (r_min r + d - r_min r) with d by lia.
  exists (ceil_div d (r_step r)). split; [now apply ceil_div_spec|reflexivity].
Qed.

(** ** Summary (C18) *)
Lemma summary_roundtrip r : wf_range r -> summary_to_coord (r_kind r) (to_summary r) = Ok r.
Proof.
  intros W. pose proof W as (Hs & Hn & Hstop). unfold summary_to_coord, to_summary.
  assert (R : mk_range (r_kind r) (r_start r) (r_stop r) (r_step r) = Ok r).
  { rewrite Hstop, Z.mul_comm, mk_range_exact by auto.
    destruct r; cbn in *. f_equal. f_equal; lia. }
  destruct (Z.eqb_spec (Z.sgn (r_step r)) (-1)) as [E|E].
  - unfold r_max, r_min. rewrite Hstop in R |- *. rewrite Z.max_r, Z.min_r by nia.
    match goal with |- mk_range _ ?a ?b _ = _ =>
      replace a with (r_start r) by lia; replace b with (r_stop r) by lia end.
    rewrite Hstop. exact R.
  - unfold r_max, r_min. rewrite Hstop in R |- *. rewrite Z.max_l, Z.min_l by nia.
    match goal with |- mk_range _ ?a ?b _ = _ =>
      replace a with (r_start r) by lia; replace b with (r_stop r) by lia end.
    rewrite Hstop. exact R.
Qed.

(** ** coord_range *)
Lemma coord_range_spec r extend : wf_range r ->
  coord_range (CRange r) extend = Ok ((r_len r - 1 + (if extend then 1 else 0)) * Z.abs (r_step r)).
Proof.
  intros (Hs & Hn & Hstop). unfold coord_range. cbn [c_evenly negb andb c_min c_max].
  unfold r_min, r_max. rewrite Hstop. f_equal. destruct extend; nia.
Qed.

(** ** The drift of nearly even arrays has no bound (C10) *)
Fixpoint sums (x : Z) (ds : list Z) : list Z :=
  match ds with [] => [x] | d :: t => x :: sums (x + d) t end.
Lemma sums_cons x ds : exists t, sums x ds = x :: t.
Proof. destruct ds; cbn; eauto. Qed.
Lemma diffs_sums ds : forall x, diffs (sums x ds) = ds.
Proof.
  induction ds as [|d t IH]; intros x; auto. cbn [sums]. destruct (sums_cons (x + d) t) as (u & E).
  specialize (IH (x + d)). rewrite E in *. rewrite diffs_cons2, IH. f_equal; lia.
Qed.
Lemma znth_sums d a t : forall x, znth (sums x (repeat d a ++ t)) (Z.of_nat a) = Some (x + Z.of_nat a * d).
Proof.
  induction a as [|a IH]; intros x.
  - cbn [repeat app]. destruct (sums_cons x t) as (u & ->). rewrite znth_cons. cbn. f_equal; lia.
  - cbn [repeat app sums]. rewrite znth_cons. destruct (Z.eqb_spec (Z.of_nat (S a)) 0); [lia|].
    replace (Z.of_nat (S a) - 1) with (Z.of_nat a) by lia. rewrite IH. f_equal; lia.
Qed.
Lemma np_sort_id l : wsorted l -> np_sort l = l.
Proof.
  induction 1 as [|x t Ht IH Hx]; auto. unfold np_sort in *. cbn [fold_right]. rewrite IH.
  destruct t as [|y t]; auto. cbn. inversion Hx; subst. destruct (Z.leb_spec x y); [auto|lia].
Qed.
Lemma wsorted_two (p q : Z) a b : p <= q -> wsorted (repeat p a ++ repeat q b).
Proof.
  intros H. assert (R : forall k, wsorted (repeat q k)).
  { induction k; cbn; constructor; auto. rewrite Forall_forall. intros x Hx.
    apply repeat_spec in Hx; lia. }
  induction a as [|a IH]; cbn [repeat app]; auto. constructor; auto.
  rewrite Forall_forall. intros x Hx. apply in_app_iff in Hx as [Hx|Hx]; apply repeat_spec in Hx; lia.
Qed.
Lemma drift_unbounded N : 0 < N -> exists v r i x,
  get_coord_data KTime v = Ok (CRange r) /\ znth v i = Some x /\
  N * Z.abs (r_step r) <= Z.abs (x - (r_start r + i * r_step r)).
Proof.
  intros HN. set (a := Z.to_nat (1001 * N)).
  assert (Ha : (1 <= a)%nat) by (subst a; lia).
  set (ds := repeat 1000 a ++ repeat 1001 (S a)).
  assert (Hin : forall d, In d ds <-> d = 1000 \/ d = 1001).
  { intros d; subst ds. rewrite in_app_iff. split.
    - intros [H|H]; apply repeat_spec in H; auto.
    - intros [->| ->]; [left|right].
      + destruct a; [lia|]. cbn; auto.
      + cbn; auto. }
  assert (Hso : wsorted ds) by (apply wsorted_two; lia).
  assert (Hlen : length ds = (2 * a + 1)%nat)
    by (subst ds; rewrite app_length, !repeat_length; lia).
  assert (Hu : np_unique ds = [1000; 1001]).
  { apply zsorted_ext; [apply zsorted_np_unique|repeat constructor; lia|].
    intros x. rewrite in_np_unique, Hin. cbn. intuition lia. }
  assert (Hmed : nth (length ds / 2) (np_sort ds) 0 = 1001).
  { rewrite np_sort_id by auto. rewrite Hlen.
    replace ((2 * a + 1) / 2)%nat with a.
    - subst ds. rewrite app_nth2; rewrite repeat_length; [|lia].
      replace (a - a)%nat with 0%nat by lia. reflexivity.
    - apply Nat.div_unique with 1%nat; lia. }
  set (v := sums 0 ds).
  assert (Hd : diffs v = ds) by apply diffs_sums.
  assert (Hm : is_monotonic v = true).
  { apply is_monotonic_spec. left. apply ascending_diffs. rewrite Hd. intros d H%Hin; lia. }
  pose proof (get_coord_cases KTime v) as H.
  assert (Hv : exists y1 t, v = 0 :: y1 :: t).
  { subst v. destruct ds as [|d t]; [cbn in Hlen; lia|]. cbn [sums].
    destruct (sums_cons (0 + d) t) as (u & ->). eauto. }
  destruct Hv as (y1 & t & Ev).
  assert (Hat : znth v (Z.of_nat a) = Some (0 + Z.of_nat a * 1000)) by apply znth_sums.
  rewrite Ev in H. rewrite <- Ev in H. clear Ev y1 t.
  rewrite Hd in H. rewrite Hu in H. rewrite Hm in H. rewrite Hmed in H.
  destruct H as [[H _]|[[_ [_ [H _]]]|[_ [_ (s & _ & _ & -> & E)]]]]; try discriminate.
  eexists v, _, (Z.of_nat a), _. split; [exact E|]. split; [exact Hat|].
  cbn [r_step r_start]. assert (Z.of_nat a = 1001 * N) as -> by (subst a; lia). lia.
Qed.

(** ** Flags of a freshly classified array (C10) *)
Lemma ascending_not_descending v : 2 <= zlen v -> ascending v -> descending v -> False.
Proof.
  intros Hl Ha Hd. pose proof (descending_rev v Hd Hl) as R. rewrite (ascending_not_rev v Ha) in R.
  discriminate.
Qed.
Lemma mono_sorted_iff v : 2 <= zlen v -> ascending v \/ descending v ->
  (step_meets true v = true <-> ascending v) /\ (step_meets false v = true <-> descending v).
Proof.
  intros Hl H. split; split; intros Q.
  - destruct H as [H|H]; auto. rewrite step_meets_gt in Q. apply orb_true_iff in Q as [Q|Q]; [|lia].
    apply existsb_exists in Q as (d & Hd & Hp). rewrite descending_diffs in H.
    specialize (H d Hd); lia.
  - rewrite step_meets_gt. apply orb_true_iff; left. apply existsb_exists.
    destruct v as [|x [|y t]]; try (rewrite ?zlen_cons, ?zlen_nil in Hl; lia).
    exists (y - x). rewrite diffs_cons2. split; [cbn; auto|].
    rewrite ascending_diffs in Q. specialize (Q (y - x)). rewrite diffs_cons2 in Q.
    specialize (Q (or_introl eq_refl)); lia.
  - destruct H as [H|H]; auto. rewrite (ascending_not_rev v H) in Q; discriminate.
  - now apply descending_rev.
Qed.
Lemma get_coord_flags k v c : 2 <= zlen v -> get_coord_data k v = Ok c ->
  (c_sorted c = true <-> ascending v) /\ (c_reverse_sorted c = true <-> descending v).
Proof.
  intros Hl E. pose proof (get_coord_cases k v) as H.
  destruct v as [|x0 [|x1 t]]; try (rewrite ?zlen_cons, ?zlen_nil in Hl; lia).
  set (v := x0 :: x1 :: t) in *.
  destruct H as [[M H]|[[M [H _]]|[M [_ (s & Hin & Hs & _ & H)]]]]; rewrite E in H; injection H as ->;
    cbn [c_sorted c_reverse_sorted].
  - pose proof (proj2 (is_monotonic_spec v)) as Q. rewrite M in Q.
    split; (split; [discriminate|]); intros A; exfalso; discriminate Q; auto.
  - apply mono_sorted_iff; auto. now apply is_monotonic_spec.
  - unfold r_sorted, r_reverse_sorted. cbn [r_step]. apply is_monotonic_spec in M.
    destruct M as [M|M].
    + pose proof (proj1 (ascending_diffs v) M s Hin). split; split; intros; auto; try lia.
      exfalso; eapply ascending_not_descending; eauto.
    + pose proof (proj1 (descending_diffs v) M s Hin). split; split; intros; auto; try lia.
      exfalso; eapply ascending_not_descending; eauto.
Qed.

(** ** Building a range from a length (C01) *)
Lemma mk_range_opt_start k b s n : s <> 0 -> 1 <= n ->
  mk_range_opt k None (Some b) (Some s) (Some n) = Ok (mkRange k (b - s * n) b s n).
Proof.
  intros. cbn [mk_range_opt]. replace b with (b - s * n + s * n) at 2 by ring.
  rewrite mk_range_exact by auto. do 2 f_equal; ring.
Qed.
Lemma mk_range_opt_stop k a s n : s <> 0 -> 1 <= n ->
  mk_range_opt k (Some a) None (Some s) (Some n) = Ok (mkRange k a (a + s * n) s n).
Proof. intros. cbn [mk_range_opt]. now apply mk_range_exact. Qed.
Lemma mk_range_opt_step k a s n : s <> 0 -> 1 <= n ->
  mk_range_opt k (Some a) (Some (a + s * n)) None (Some n) = Ok (mkRange k a (a + s * n) s n).
Proof.
  intros. cbn [mk_range_opt]. destruct (Z.eqb_spec n 0); [lia|].
  replace (a + s * n - a) with (s * n) by ring. destruct k.
  - rewrite Z.mod_mul by lia. cbn [Z.eqb]. rewrite Z.div_mul by lia. now apply mk_range_exact.
  - rewrite Z.quot_mul by lia. now apply mk_range_exact.
Qed.
Lemma mk_range_construction k a b s : s <> 0 ->
  match mk_range k a b s with
  | Ok r => exists n, 1 <= n /\
      20 * ((n - 1) * Z.abs s) + Z.abs s < 20 * ((b - a) * Z.sgn s) <= 20 * (n * Z.abs s) + Z.abs s /\
      r_values r = progression a s n /\ r_kind r = k /\
      r_start r = a /\ r_step r = s /\ r_len r = n /\ r_stop r = a + n * s /\
      is_least (r_min r) (progression a s n) /\ is_greatest (r_max r) (progression a s n)
  | Err e => e = CoordError /\ 20 * ((b - a) * Z.sgn s) <= Z.abs s
  end.
Proof.
  intros Hs. destruct (mk_range k a b s) as [r|e] eqn:E.
  - destruct (mk_range_wf _ _ _ _ _ Hs E) as (W & Hk & Ha & Hst & Hl).
    pose proof (proj1 (span_count_spec a b s (r_len r) Hs)) as S. rewrite <- Hl in S.
    specialize (S eq_refl). exists (r_len r). pose proof W as (_ & Hn & Hstop).
    assert (V : r_values r = progression a s (r_len r)) by (rewrite r_values_prog, Ha, Hst; auto).
    split; [lia|]. split; [exact S|]. split; [exact V|].
    rewrite <- V. repeat split; auto; try (rewrite Hstop, Ha, Hst; ring);
      try apply (r_min_least r W); try apply (r_max_greatest r W).
  - pose proof (mk_range_ok_iff k a b s Hs) as H. rewrite E in H. split.
    + rewrite mk_range_step in E by auto. cbv zeta in E. destruct (1 <=? _); congruence.
    + destruct (Z_le_gt_dec (20 * ((b - a) * Z.sgn s)) (Z.abs s)); auto.
      destruct (proj2 H) as [r Hr]; [lia|discriminate].
Qed.
Lemma mk_range_zero_step k a b :
  mk_range k a b 0 = if a =? b then Ok (mkRange k a b 0 1) else Err ZeroDivision.
Proof. unfold mk_range. cbn [Z.eqb]. destruct (Z.eqb_spec a b) as [->|]; auto. now rewrite Z.sub_diag. Qed.

Lemma get_coord_one_ok k x s : s <> 0 ->
  exists r, get_coord_one k x s = Ok (CRange r) /\ wf_range r /\ r_values r = [x] /\ r_step r = s /\ r_len r = 1 /\ r_kind r = k.
Proof.
  intros S. unfold get_coord_one. replace (x + s) with (x + s * 1) by ring. rewrite mk_range_exact by lia.
  assert (W : wf_range (mkRange k x (x + s * 1) s 1)) by (split; [exact S|split; cbn [r_len r_stop r_start r_step]; lia]).
  eexists. split; [reflexivity|]. split; [exact W|]. split; [|auto]. rewrite r_values_prog by exact W.
  cbn [r_start r_step r_len]. unfold progression. change (zrange 1) with [0]. cbn [map]. f_equal. lia.
Qed.

Lemma r_new_still r a : r_new r a a 0 = CRange (mkRange (r_kind r) a a 0 1).
Proof. unfold r_new, mk_range. cbn [Z.eqb]. rewrite Z.eqb_refl, Z.sub_diag. reflexivity. Qed.

Lemma update_limits_zero r mn mx c : wf_range r -> (mn = None \/ mx = None) ->
  r_update_limits r mn mx (Some 0) = Ok c -> exists r', c = CRange r' /\ r_len r' = 1.
Proof.
  intros (_ & Hn & _) [-> | ->] E.
  - destruct mx as [m|]; cbn [r_update_limits] in E; rewrite Z.mul_0_l, Z.add_0_r, r_new_still in E;
      cbn [bind r_step r_stop] in E.
    + rewrite Z.add_0_r in E. replace (r_start r + (m - r_start r)) with m in E by ring.
      rewrite r_new_still in E. assert (Q : c = CRange (mkRange (r_kind r) m m 0 1)) by (cbn [r_kind] in E; congruence).
      subst c. eauto.
    + assert (Q : c = CRange (mkRange (r_kind r) (r_start r) (r_start r) 0 1)) by congruence. subst c. eauto.
  - destruct mn as [m|]; cbn [r_update_limits] in E; rewrite Z.mul_0_l, Z.add_0_r, r_new_still in E;
      cbn [bind r_step r_stop r_start] in E.
    + replace (r_start r + (m - r_start r)) with m in E by ring.
      rewrite r_new_still in E. assert (Q : c = CRange (mkRange (r_kind r) m m 0 1)) by (cbn [r_kind] in E; congruence).
      subst c. eauto.
    + assert (Q : c = CRange (mkRange (r_kind r) (r_start r) (r_start r) 0 1)) by congruence. subst c. eauto.
Qed.

Lemma update_limits_range r mn mx step c : wf_range r ->
  r_update_limits r mn mx step = Ok c -> exists r', c = CRange r'.
Proof.
  intros W E. destruct step as [s|]; [destruct (Z.eq_dec s 0) as [->|N]|].
  - destruct mn as [a|], mx as [b|]; try discriminate E;
      eapply update_limits_zero in E as (r' & -> & _); eauto.
  - assert (A : forall s0, Some s = Some s0 -> s0 <> 0) by (intros s0 Q; congruence).
    destruct mn as [a|], mx as [b|]; [discriminate E| | |].
    + rewrite update_limits_min in E by auto. eexists. symmetry. injection E. eauto.
    + rewrite update_limits_max in E by auto. eexists. symmetry. injection E. eauto.
    + rewrite update_limits_step in E by auto. eexists. symmetry. injection E. eauto.
  - assert (A : forall s0 : Z, None = Some s0 -> s0 <> 0) by discriminate.
    destruct mn as [a|], mx as [b|].
    + cbn [r_update_limits] in E. destruct (r_kind r).
      * destruct (_ =? 0); [|discriminate]. destruct (mk_range _ _ _ _); cbn [bind] in E; [|discriminate].
        eexists. symmetry. injection E. eauto.
      * destruct (mk_range _ _ _ _); cbn [bind] in E; [|discriminate]. eexists. symmetry. injection E. eauto.
    + rewrite update_limits_min in E by auto. eexists. symmetry. injection E. eauto.
    + rewrite update_limits_max in E by auto. eexists. symmetry. injection E. eauto.
    + rewrite update_limits_none in E. eexists. symmetry. injection E. eauto.
Qed.

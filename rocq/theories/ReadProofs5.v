(** Facts behind ReadProps.v: the Terra15, SEGY and Sintela readers. *)
From Verif Require Import Base BaseFacts CoordModel CoordSpec CoordProofs CoordProofs2 CoordProofs3
  CoordProofs4 CoordProofs5 NdModel MergeProofs6 ReadModel ReadSpec ReadProofs ReadProofs2 ReadProofs3 ReadProofs4.
From Coq Require Import ZifyBool.
Ltac Zify.zify_post_hook ::= Z.div_mod_to_equations.

(** ** The slices of an even coordinate stay within it *)
Lemma r_select_form r lo hi out : wf_range r -> r_step r <> 0 -> r_select r false lo hi = Ok out ->
  exists s e, snd out = simple_slice s e /\ (forall a, s = Some a -> 0 <= a <= r_len r) /\
              (forall b, e = Some b -> 0 <= b <= r_len r).
Proof.
  intros W Hs. assert (Hl : 0 <= r_len r) by (destruct W; lia).
  unfold r_select. destruct (slice_tuple _ _ _ _) as [args|]; [cbn [bind]|discriminate]. cbv zeta.
  set (start := if r_reverse_sorted r then _ else _).
  set (stop := if r_reverse_sorted r then r_get_index r (fst args) _ else _).
  set (start' := match start with Some _ => _ | None => None end).
  assert (Hb : forall b, stop = Some b -> b < r_len r).
  { intros b. unfold stop, r_get_index, r_sorted, r_reverse_sorted.
    destruct (Z.ltb_spec (r_step r) 0).
    - destruct (fst args) as [v|]; [|discriminate]. cbv zeta.
      destruct (Z.leb_spec 0 (r_step r)); [lia|]. rewrite andb_false_r, andb_true_r. cbn [orb].
      destruct (Z.leb_spec (r_len r) (r_raw_index r v false)); [discriminate|]. intro E; injection E as E. rewrite <- E. assumption.
    - destruct (snd args) as [v|]; [|discriminate]. cbv zeta. rewrite andb_false_r, andb_true_r. cbn [orb].
      destruct (Z.leb_spec (r_len r) (r_raw_index r v false)); [discriminate|]. intro E; injection E as E. rewrite <- E. assumption. }
  destruct (slice_degenerate _ start' _) eqn:D.
  - intro E; injection E as <-. exists (Some 0), (Some 0). cbn [snd]. split; [reflexivity|].
    split; intros x E; injection E as <-; lia.
  - intro E. assert (E' : snd out = simple_slice start' (match stop with Some b => Some (b + 1) | None => None end)).
    { revert E. destruct start' as [a|]; [destruct (r_item r a); [cbn [bind]|discriminate]|cbn [bind]];
      (destruct stop as [b|]; [destruct (r_item r b); [cbn [bind]|discriminate]|cbn [bind]]);
      intro E; injection E as <-; reflexivity. }
    eexists _, _. split; [exact E'|]. unfold slice_degenerate in D. clearbody start' stop. split.
    + intros a ->. destruct stop; lia.
    + intros b Eb. destruct stop as [x|]; [|discriminate]. injection Eb as <-. specialize (Hb x eq_refl).
      destruct start'; lia.
Qed.

Lemma slice_rows n N s e : 0 <= n <= N -> (forall a, s = Some a -> 0 <= a <= n) ->
  (forall b, e = Some b -> 0 <= b <= n) ->
  forall len, (e = None -> (match s with Some a => a | None => 0 end) + len = n) ->
  indexer_positions N (simple_slice (Some (match s with Some a => a | None => 0 end))
      (Some (match e with Some b => b | None => (match s with Some a => a | None => 0 end) + len end)))
  = indexer_positions n (simple_slice s e).
Proof.
  intros Hn Hs He len Hlen. unfold simple_slice; cbn [indexer_positions].
  set (a := match s with Some a => a | None => 0 end) in *.
  set (b := match e with Some b => b | None => a + len end).
  assert (Ha : 0 <= a <= n) by (unfold a; destruct s as [x|]; [apply Hs; reflexivity|lia]).
  assert (Hb : 0 <= b <= n) by (unfold b; destruct e as [x|]; [apply He; reflexivity|rewrite Hlen; [lia|reflexivity]]).
  rewrite !simple_slice_positions; try lia; try (intros x E; injection E as <-; lia).
  - f_equal. apply zsorted_ext; try (apply zsorted_filter, zsorted_zrange).
    intro x. rewrite !filter_In, !in_zrange. cbn [opt_or].
    assert (opt_or s 0 = a) by (unfold a; destruct s; reflexivity).
    assert (opt_or e n = b) by (unfold b; destruct e; cbn; [reflexivity|rewrite Hlen; reflexivity]).
    lia.
  - intros x E. apply Hs; exact E.
Qed.

Lemma zlen_filter_le {A} (p : A -> bool) l : zlen (filter p l) <= zlen l.
Proof. unfold zlen. induction l as [|x t IH]; cbn; [lia|]. destruct (p x); cbn; lia. Qed.

Lemma gather_ext {A} (a b : list A) ix : (forall i, In i ix -> znth a i = znth b i) -> gather a ix = gather b ix.
Proof.
  induction ix as [|i t IH]; intro H; [reflexivity|]. cbn. rewrite (H i (or_introl eq_refl)).
  rewrite IH by (intros j Hj; apply H; right; exact Hj). reflexivity.
Qed.

Lemma firstn_in {A} (l : list A) n x : In x (firstn n l) -> In x l.
Proof. intro H. rewrite <- (firstn_skipn n l). apply in_or_app. left; exact H. Qed.

(** ** Terra15 *)
Lemma filter_zeros k : filter (fun t => 0 <? t) (repeat 0 k) = [].
Proof. induction k; [reflexivity|]. exact IHk. Qed.
Lemma filter_all {A} (p : A -> bool) l : (forall x, In x l -> p x = true) -> filter p l = l.
Proof.
  induction l as [|x t IH]; intro H; [reflexivity|]. cbn. rewrite (H x (or_introl eq_refl)).
  f_equal. apply IH. intros y Hy; apply H; right; exact Hy.
Qed.

Lemma rev_head {A} (l : list A) x t : rev l = x :: t -> znth l (zlen l - 1) = Some x.
Proof.
  intro E. assert (L : l = rev t ++ [x]) by (rewrite <- (rev_involutive l), E; reflexivity).
  rewrite L, zlen_app, znth_app. rewrite zlen_cons, (@zlen_nil A).
  destruct (Z.ltb_spec (zlen (rev t) + (1 + 0) - 1) (zlen (rev t))); [lia|].
  replace (zlen (rev t) + (1 + 0) - 1 - zlen (rev t)) with 0 by lia. reflexivity.
Qed.

Lemma rev_head_ex {A} (l : list A) x : znth l (zlen l - 1) = Some x -> exists t, rev l = x :: t.
Proof.
  intro E. destruct (rev l) as [|y t] eqn:R.
  - apply (f_equal (@rev A)) in R. rewrite rev_involutive in R. subst l. cbn in E. discriminate.
  - exists t. apply rev_head in R. congruence.
Qed.

Lemma terra_info_ok times good first last : recorded times good first last -> 2 <= zlen good ->
  terra_info times = Ok (first, zlen good, round_half_even (last - first) (zlen good - 1)).
Proof.
  intros [[k Hk] Hp Hf Hl Ho] Hn. unfold terra_info.
  destruct good as [|g0 gt] eqn:Eg; [cbn in Hf; discriminate|]. rewrite <- Eg in *.
  assert (g0 = first) by (rewrite Eg in Hf; rewrite znth_cons in Hf; cbn in Hf; congruence). subst g0.
  assert (E1 : exists tl, times = first :: tl) by (exists (gt ++ repeat 0 k); rewrite Hk, Eg; reflexivity).
  destruct E1 as [tl E1]. rewrite E1 at 1. cbn [bind].
  assert (U : exists b tl', rev times = b :: tl' /\
    (if b <? first then filter (fun t => 0 <? t) times else times) = good).
  { assert (Ff : filter (fun t => 0 <? t) times = good).
    { rewrite Hk, filter_app, filter_zeros, app_nil_r. apply filter_all. intros t Ht. apply Hp in Ht. lia. }
    destruct k as [|k].
    - cbn in Hk. rewrite app_nil_r in Hk. destruct (rev_head_ex good last Hl) as [t Et].
      exists last, t. split; [rewrite Hk; exact Et|]. destruct (Z.ltb_spec last first); [exact Ff|exact Hk].
    - exists 0, (repeat 0 k ++ rev good). split.
      + rewrite Hk, rev_app_distr. replace (rev (repeat 0 (S k))) with (repeat 0 (S k)); [reflexivity|].
        clear. induction k as [|k IH]; [reflexivity|]. change (repeat 0 (S (S k))) with (0 :: repeat 0 (S k)).
        cbn [rev]. change (rev (repeat 0 k) ++ [0]) with (rev (repeat 0 (S k))). rewrite <- IH.
        change [0] with (repeat 0 1). rewrite <- repeat_app. rewrite Nat.add_comm. reflexivity.
      + assert (0 < first) by (apply Hp; rewrite Eg; left; reflexivity).
        destruct (Z.ltb_spec 0 first); [exact Ff|lia]. }
  destruct U as [b [tl' [E2 E3]]]. rewrite E2. cbn [bind]. rewrite E3.
  rewrite Eg at 1. cbn [bind]. destruct (rev_head_ex good last Hl) as [t Et]. rewrite Et. cbn [bind].
  destruct (Z.leb_spec (zlen good) 1); [lia|]. reflexivity.
Qed.

Lemma terra_read_ok times good first last d dists rows time dist :
  recorded times good first last -> 2 <= zlen good ->
  let n := zlen good in
  let step := round_half_even (last - first) (n - 1) in
  fair_step step -> even_coord d dists -> width (zlen dists) rows -> n <= zlen rows ->
  exists out, terra_read times d (mkGrid (zlen dists) rows) true time dist = Ok out /\
    part_of (progression first step n) dists (firstn (Z.to_nat n) rows) time dist out.
Proof.
  intros R Hn n step Hs Hd W Hr. unfold terra_read, terra_time.
  rewrite (terra_info_ok times good first last R Hn). cbn [bind]. fold n step.
  replace (first + step * (n - 1) + step) with (first + step * n) by lia.
  destruct Hs as [Hs1 Hs2]. rewrite mk_range_exact by lia. cbn [bind].
  set (rr := mkRange KTime first (first + step * n) step n).
  assert (Wr : wf_range rr) by (unfold wf_range, rr; cbn; repeat split; lia).
  set (times' := progression first step n).
  assert (Hev : even_coord (CRange rr) times').
  { exists rr. split; [reflexivity|]. split; [exact Wr|]. split; [split; assumption|].
    rewrite r_values_prog by exact Wr. reflexivity. }
  destruct (select_even _ _ time Hev) as [ts [Et [[Tv Tp] Tl]]]. rewrite Et. cbn [bind].
  destruct (select_even _ _ dist Hd) as [ds [Es [[Kv Kp] Kl]]]. rewrite Es. cbn [bind].
  assert (Lt : zlen times' = n) by (unfold times'; rewrite zlen_progression; lia).
  assert (F : exists s e, snd ts = simple_slice s e /\ (forall a, s = Some a -> 0 <= a <= n) /\
              (forall b, e = Some b -> 0 <= b <= n)).
  { destruct time as [[lo hi]|]; cbn [select_opt c_select] in Et.
    - exact (r_select_form rr lo hi ts Wr Hs1 Et).
    - injection Et as <-. exists None, None. split; [reflexivity|]. split; intros; discriminate. }
  destruct F as [s [e [Fx [Fs Fe]]]].
  assert (Lx : 0 <= c_len (fst ts) <= n).
  { rewrite Tl. split; [apply zlen_nonneg|]. rewrite <- Lt. apply zlen_filter_le. }
  assert (G : exists rix, terra_rows (zlen rows) (c_len (fst ts)) (snd ts) = Ok rix /\
    np_index rows rix = Some (kept (wanted time) times' (firstn (Z.to_nat n) rows))).
  { assert (Lk : zlen (firstn (Z.to_nat n) rows) = n) by (rewrite zlen_firstn; lia).
    assert (Base : forall rix, indexer_positions (zlen rows) rix = indexer_positions n (snd ts) ->
        np_index rows rix = Some (kept (wanted time) times' (firstn (Z.to_nat n) rows))).
    { intros rix E. unfold np_index. assert (Tp' := Tp). rewrite Lt in Tp'. rewrite E, Tp'. clear Tp'.
      rewrite <- (gather_kept (wanted time) times' (firstn (Z.to_nat n) rows)) by lia.
      apply gather_ext. intros i Hi. unfold positions_where in Hi. apply filter_In in Hi.
      destruct Hi as [Hi _]. apply in_zrange in Hi. rewrite znth_firstn.
      destruct (Z.ltb_spec i n); [reflexivity|lia]. }
    unfold terra_rows. cbn [g_rows]. destruct (Z.ltb_spec (c_len (fst ts)) (zlen rows)).
    - rewrite Fx. cbn [as_slice simple_slice bind sl_start sl_stop]. eexists. split; [reflexivity|].
      apply Base. rewrite Fx. apply slice_rows; [lia|exact Fs|exact Fe|].
      intro Ee. subst e.
      (* everything from the start on is kept *)
      assert (C : c_len (fst ts) = zlen (positions_where (wanted time) times')).
      { rewrite Tl. symmetry. apply zlen_positions_where. }
      assert (P : positions_where (wanted time) times' =
                  filter (fun i => (opt_or s 0 <=? i) && (i <? n)) (zrange n)).
      { assert (Q : Some (positions_where (wanted time) times') = Some (filter (fun i => (opt_or s 0 <=? i) && (i <? n)) (zrange n)));
        [|injection Q as Q; exact Q].
        rewrite <- Tp, Fx, Lt. unfold simple_slice; cbn [indexer_positions].
        rewrite simple_slice_positions; [reflexivity|lia|exact Fs|intros; discriminate]. }
      rewrite C, P. set (a := opt_or s 0). assert (Ha : 0 <= a <= n) by (unfold a; destruct s; cbn; [apply Fs; reflexivity|lia]).
      replace (match s with Some x => x | None => 0 end) with a by (unfold a; destruct s; reflexivity).
      assert (Z1 : filter (fun i => (a <=? i) && (i <? n)) (zrange n) = map (fun k => a + k) (zrange (n - a))).
      { apply zsorted_ext.
        - apply zsorted_filter, zsorted_zrange.
        - apply zsorted_map_mono; [intros; lia|apply zsorted_zrange].
        - intro x. rewrite filter_In, in_zrange, in_map_iff. split.
          + intros [H1 H2]. exists (x - a). split; [lia|]. apply in_zrange. lia.
          + intros [k0 [<- Hk0]]. apply in_zrange in Hk0. lia. }
      rewrite Z1, zlen_map, zlen_zrange. lia.
    - eexists. split; [reflexivity|]. apply Base. f_equal. lia. }
  destruct G as [rix [Er Ei]]. cbn [g_rows]. rewrite Er. cbn [bind].
  assert (Wk : width (zlen dists) (kept (wanted time) times' (firstn (Z.to_nat n) rows))).
  { intros row Hrow. apply W. eapply firstn_in. unfold kept in Hrow. apply in_map_iff in Hrow.
    destruct Hrow as [[l x] [<- Hx]]. apply filter_In in Hx. destruct Hx as [Hx _]. apply in_combine_r in Hx. exact Hx. }
  assert (Eg : g_index (mkGrid (zlen dists) rows) rix (snd ds) =
    Ok (mkGrid (zlen (filter (wanted dist) dists))
          (map (kept (wanted dist) dists) (kept (wanted time) times' (firstn (Z.to_nat n) rows))))).
  { unfold g_index. cbn [g_rows g_cols]. rewrite Ei, Kp.
    rewrite (traverse_map _ (kept (wanted dist) dists)).
    - rewrite zlen_positions_where. reflexivity.
    - intros row Hrow. apply gather_kept. symmetry. apply Wk; exact Hrow. }
  rewrite Eg. cbn [bind].
  destruct (finish times' dists (firstn (Z.to_nat n) rows) time dist (fst ts) (fst ds) _
     ltac:(rewrite zlen_firstn; lia) Tv Tl Kv Kl eq_refl) as [out [Eo Po]].
  exists out. split; [|exact Po].
  assert (Sh : new_reading (fst ts) (fst ds) (mkGrid (zlen (filter (wanted dist) dists))
     (map (kept (wanted dist) dists) (kept (wanted time) times' (firstn (Z.to_nat n) rows)))) =
     Ok (mkReading (fst ts) (fst ds) (mkGrid (zlen (filter (wanted dist) dists))
     (map (kept (wanted dist) dists) (kept (wanted time) times' (firstn (Z.to_nat n) rows)))))).
  { unfold new_reading. cbn [g_rows g_cols]. rewrite Kl, Tl, zlen_map, zlen_kept, !Z.eqb_refl by (rewrite zlen_firstn; lia). reflexivity. }
  rewrite Sh in Eo |- *. exact Eo.
Qed.

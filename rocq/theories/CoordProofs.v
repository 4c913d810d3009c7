(** Lemmas behind CoordProps.v. *)
From Verif Require Import Base BaseFacts CoordModel CoordSpec.
From Coq Require Import ZifyBool Sorting.Permutation Sorting.Sorted.
Ltac Zify.zify_post_hook ::= Z.div_mod_to_equations.

(** ** Rounding to an even target *)
Lemma rhe_le_even p q e : 0 < q -> Z.even e = true ->
  (round_half_even p q <= e <-> 2 * p <= (2 * e + 1) * q).
Proof.
  intros Hq He; unfold round_half_even. destruct (Z.ltb_spec q 0); [lia|].
  rewrite Z.abs_eq by lia. pose proof (Z.div_mod p q ltac:(lia)) as Hd.
  pose proof (Z.mod_pos_bound p q Hq) as Hm.
  set (f := p / q) in *; set (m := p mod q) in *; clearbody f m; subst p.
  destruct (Z.ltb_spec (2 * m) q); [split; nia|]. destruct (Z.ltb_spec q (2 * m)); [split; nia|].
  destruct (Z.even f) eqn:Ef; [split; nia|].
  assert (f <> e) by congruence. split; nia.
Qed.
Lemma rhe_ge_even p q e : 0 < q -> Z.even e = true ->
  (e <= round_half_even p q <-> (2 * e - 1) * q <= 2 * p).
Proof.
  intros Hq He; unfold round_half_even. destruct (Z.ltb_spec q 0); [lia|].
  rewrite Z.abs_eq by lia. pose proof (Z.div_mod p q ltac:(lia)) as Hd.
  pose proof (Z.mod_pos_bound p q Hq) as Hm.
  set (f := p / q) in *; set (m := p mod q) in *; clearbody f m; subst p.
  destruct (Z.ltb_spec (2 * m) q); [split; nia|]. destruct (Z.ltb_spec q (2 * m)); [split; nia|].
  destruct (Z.even f) eqn:Ef; [|split; nia].
  assert (f + 1 <> e). { intros <-. rewrite Z.add_1_r, Z.even_succ, <- Z.negb_even, Ef in He. discriminate. }
  split; nia.
Qed.

(** ** Construction *)
Lemma span_count_spec_pos a b s n : 0 < s ->
  (span_count a b s = n <->
   20 * ((n - 1) * s) + s < 20 * (b - a) <= 20 * (n * s) + s).
Proof.
  intros Hs; unfold span_count. rewrite ceil_div_spec by lia.
  pose proof (rhe_le_even (10 * (b - a)) s (10 * (n - 1)) Hs) as H1.
  pose proof (rhe_le_even (10 * (b - a)) s (10 * n) Hs) as H2.
  assert (Z.even (10 * (n - 1)) = true) as E1 by (rewrite Z.even_mul; reflexivity).
  assert (Z.even (10 * n) = true) as E2 by (rewrite Z.even_mul; reflexivity).
  specialize (H1 E1); specialize (H2 E2). split; intros H; split; nia.
Qed.
Lemma span_count_opp a b s : s <> 0 -> span_count (- a) (- b) (- s) = span_count a b s.
Proof.
  intros Hs; unfold span_count.
  replace (10 * (- b - - a)) with (- (10 * (b - a))) by lia.
  now rewrite rhe_opp.
Qed.
Lemma span_count_spec a b s n : s <> 0 ->
  (span_count a b s = n <->
   20 * ((n - 1) * Z.abs s) + Z.abs s < 20 * ((b - a) * Z.sgn s)
     <= 20 * (n * Z.abs s) + Z.abs s).
Proof.
  intros Hs. destruct (Z_lt_dec 0 s) as [Hp|Hn].
  - rewrite (span_count_spec_pos a b s n Hp), Z.abs_eq, Z.sgn_pos by lia. lia.
  - rewrite <- span_count_opp by lia. rewrite (span_count_spec_pos (- a) (- b) (- s) n) by lia.
    rewrite Z.abs_neq, Z.sgn_neg by lia. lia.
Qed.
Lemma span_count_exact a s n : s <> 0 -> span_count a (a + s * n) s = n.
Proof.
  intros Hs; unfold span_count.
  replace (10 * (a + s * n - a)) with (10 * n * s) by ring.
  rewrite rhe_exact by auto. apply ceil_div_spec; lia.
Qed.

Lemma mk_range_step k a b s : s <> 0 ->
  mk_range k a b s =
    let n := span_count a b s in
    if 1 <=? n then Ok (mkRange k a (a + s * n) s n) else Err CoordError.
Proof.
  intros Hs; unfold mk_range. destruct (Z.eqb_spec s 0) as [|Hs0]; [lia|].
  set (n := span_count a b s). cbv zeta.
  replace (a + s * n - a) with (n * s) by ring. rewrite rhe_exact by auto.
  rewrite Z.sgn_mul.
  destruct (Z.eqb_spec a (a + s * n)), (Z.leb_spec 1 n);
    destruct (Z.eqb_spec (Z.sgn s) (Z.sgn n * Z.sgn s)); auto; exfalso;
    first [ (assert (n = 0) by nia; lia)
          | (assert (Z.sgn n = 0 \/ Z.sgn n = 1 \/ Z.sgn n = -1) by lia; nia) ].
Qed.
Lemma mk_range_exact k a s n : s <> 0 -> 1 <= n ->
  mk_range k a (a + s * n) s = Ok (mkRange k a (a + s * n) s n).
Proof.
  intros Hs Hn; rewrite mk_range_step by auto. cbv zeta. rewrite span_count_exact by auto.
  destruct (Z.leb_spec 1 n); [reflexivity|lia].
Qed.
Lemma mk_range_wf k a b s r : s <> 0 -> mk_range k a b s = Ok r -> wf_range r /\
  r_kind r = k /\ r_start r = a /\ r_step r = s /\ r_len r = span_count a b s.
Proof.
  intros Hs; rewrite mk_range_step by auto; cbv zeta.
  destruct (Z.leb_spec 1 (span_count a b s)); [|discriminate].
  injection 1 as <-; unfold wf_range; cbn. repeat split; auto; ring.
Qed.
Lemma mk_range_ok_iff k a b s : s <> 0 ->
  (exists r, mk_range k a b s = Ok r) <-> Z.abs s < 20 * ((b - a) * Z.sgn s).
Proof.
  intros Hs; rewrite mk_range_step by auto; cbv zeta.
  pose proof (span_count_spec a b s (span_count a b s) Hs) as [H _]. specialize (H eq_refl).
  destruct (Z.leb_spec 1 (span_count a b s)); split; intros HH.
  - nia.
  - eauto.
  - destruct HH; discriminate.
  - exfalso. nia.
Qed.
Lemma r_new_exact r a s n : s <> 0 -> 1 <= n ->
  r_new r a (a + s * n) s = CRange (mkRange (r_kind r) a (a + s * n) s n).
Proof. intros; unfold r_new; now rewrite mk_range_exact. Qed.

(** ** Values *)
Lemma zlen_progression a s n : zlen (progression a s n) = Z.max 0 n.
Proof. unfold progression; now rewrite zlen_map, zlen_zrange. Qed.
Lemma znth_progression a s n i : 0 <= i < n -> znth (progression a s n) i = Some (a + i * s).
Proof.
  intros; unfold progression; rewrite znth_map, znth_zrange.
  destruct (Z.leb_spec 0 i), (Z.ltb_spec i n); try lia; reflexivity.
Qed.
Lemma r_values_prog r : wf_range r ->
  r_values r = progression (r_start r) (r_step r) (r_len r).
Proof.
  intros (Hs & Hn & Hstop); unfold r_values.
  destruct (Z.eqb_spec (r_len r) 1) as [->|Hn1].
  { unfold progression. change (zrange 1) with [0]. cbn [map]. f_equal; lia. }
  destruct (r_kind r); rewrite firstn_all_z.
  - unfold np_linspace, progression. apply map_ext; intros i. f_equal.
    rewrite Hstop. replace (i * (r_start r + r_len r * r_step r - r_step r - r_start r))
      with (i * r_step r * (r_len r - 1)) by ring.
    apply Z.div_mul; lia.
  - unfold np_linspace; rewrite zlen_map, zlen_zrange; lia.
  - unfold np_arange, progression. f_equal. f_equal. rewrite Hstop.
    unfold ceil_div. replace (- (r_start r + r_len r * r_step r - r_start r))
      with (- r_len r * r_step r) by ring. rewrite Z.div_mul by auto; lia.
  - unfold np_arange; rewrite zlen_map, zlen_zrange. rewrite Hstop. unfold ceil_div.
    replace (- (r_start r + r_len r * r_step r - r_start r))
      with (- r_len r * r_step r) by ring. rewrite Z.div_mul by auto; lia.
Qed.
Lemma zlen_r_values r : wf_range r -> zlen (r_values r) = r_len r.
Proof. intros H; rewrite r_values_prog, zlen_progression by auto. destruct H as (? & ? & ?); lia. Qed.
Lemma in_r_values r x : wf_range r ->
  (In x (r_values r) <-> exists i, 0 <= i < r_len r /\ x = r_start r + i * r_step r).
Proof.
  intros H; rewrite r_values_prog by auto; unfold progression. rewrite in_map_iff. split.
  - intros (i & <- & Hi); apply in_zrange in Hi; eauto.
  - intros (i & Hi & ->); exists i; split; auto; now apply in_zrange.
Qed.
Lemma r_min_least r : wf_range r -> is_least (r_min r) (r_values r).
Proof.
  intros H. pose proof H as (Hs & Hn & Hstop). unfold is_least, r_min; split.
  - apply in_r_values; auto. destruct (Z.min_spec (r_start r) (r_stop r - r_step r)) as [[_ ->]|[_ ->]].
    + exists 0; split; lia.
    + exists (r_len r - 1); split; nia.
  - intros x Hx; apply in_r_values in Hx as (i & Hi & ->); auto. nia.
Qed.
Lemma r_max_greatest r : wf_range r -> is_greatest (r_max r) (r_values r).
Proof.
  intros H. pose proof H as (Hs & Hn & Hstop). unfold is_greatest, r_max; split.
  - apply in_r_values; auto. destruct (Z.max_spec (r_stop r - r_step r) (r_start r)) as [[_ ->]|[_ ->]].
    + exists 0; split; lia.
    + exists (r_len r - 1); split; nia.
  - intros x Hx; apply in_r_values in Hx as (i & Hi & ->); auto. nia.
Qed.

(** ** Items and slices of a range *)
Lemma r_item_spec r i : wf_range r -> 0 <= i < r_len r ->
  r_item r i = Ok (r_start r + i * r_step r).
Proof.
  intros H Hi; unfold r_item. destruct (Z.leb_spec (r_len r) i); [lia|].
  rewrite zlen_r_values by auto. unfold wrap_index. destruct (Z.ltb_spec i 0); [lia|].
  rewrite r_values_prog, znth_progression by auto. reflexivity.
Qed.

Lemma map_zrange_ext {A} (f g : Z -> A) n :
  (forall i, 0 <= i < n -> f i = g i) -> map f (zrange n) = map g (zrange n).
Proof. intros H; apply map_ext_in; intros i Hi; apply H, in_zrange, Hi. Qed.

Lemma r_getitem_slice r s : wf_range r ->
  match slice_positions (r_len r) s with
  | None => c_getitem (CRange r) (IxSlice s) = Err ValueError
  | Some ps =>
      exists c, c_getitem (CRange r) (IxSlice s) = Ok c /\
        (exists vs, gather (r_values r) ps = Some vs /\ c_values c = map Some vs) /\
        (ps <> [] -> exists r', c = CRange r' /\ wf_range r') /\
        (ps = [] -> c = CPart 0)
  end.
Proof.
  intros H. pose proof H as (Hs & Hn & Hstop). unfold slice_positions. cbn [c_getitem].
  destruct (slice_indices (r_len r) s) as [[[i0 st] cnt]|] eqn:E; [|reflexivity].
  pose proof E as E2. apply slice_indices_bounds in E2 as (Hst & Hc & Hb); [|lia].
  destruct (Z.ltb_spec 0 cnt) as [Hpos|Hz].
  - rewrite r_new_exact by nia. eexists; split; [reflexivity|].
    split; [|split].
    + exists (map (fun k => r_start r + (i0 + k * st) * r_step r) (zrange cnt)). split.
      * rewrite <- (map_map (fun k => i0 + k * st) (fun i => r_start r + i * r_step r)).
        apply gather_eq_map. intros i Hi. apply in_map_iff in Hi as (k & <- & Hk).
        apply in_zrange in Hk. rewrite r_values_prog by auto.
        apply znth_progression. auto.
      * cbn [c_values]. f_equal. rewrite r_values_prog.
        -- cbn. unfold progression. apply map_ext; intros; ring.
        -- unfold wf_range; cbn; repeat split; nia.
    + intros _. eexists; split; [reflexivity|]. unfold wf_range; cbn; repeat split; nia.
    + rewrite zrange_cons by lia. discriminate.
  - assert (cnt = 0) as -> by lia. cbn [map zrange]. change (zrange 0) with (@nil Z). cbn [map].
    unfold np_index; cbn [indexer_positions]. rewrite zlen_r_values by auto.
    unfold slice_positions; rewrite E. change (zrange 0) with (@nil Z); cbn [map gather].
    exists (CPart 0). repeat split; auto; try congruence. exists []; auto.
Qed.

(** ** Range select on ranges *)
Lemma raw_forward_le r v i : r_step r <> 0 ->
  (r_raw_index r v true <= i <->
   20000000000 * ((v - (r_start r + i * r_step r)) * Z.sgn (r_step r)) <= Z.abs (r_step r)).
Proof.
  intros Hs; unfold r_raw_index, pow10_10.
  assert (G : forall t, ceil_div t 10000000000 <= i <-> t <= 10000000000 * i).
  { intros t. pose proof (ceil_div_spec t 10000000000 (ceil_div t 10000000000) ltac:(lia)) as [A _].
    specialize (A eq_refl). lia. }
  rewrite G. clear G.
  assert (E : Z.even (10000000000 * i) = true) by (rewrite Z.even_mul; reflexivity).
  destruct (Z_lt_dec 0 (r_step r)) as [Hp|Hn].
  - rewrite rhe_le_even by auto. rewrite Z.sgn_pos, Z.abs_eq by lia. split; nia.
  - rewrite <- rhe_opp by auto. rewrite rhe_le_even by (auto; lia).
    rewrite Z.sgn_neg, Z.abs_neq by lia. split; nia.
Qed.
Lemma raw_back_ge r v i : r_step r <> 0 ->
  (i <= r_raw_index r v false <->
   20000000000 * (((r_start r + i * r_step r) - v) * Z.sgn (r_step r)) <= Z.abs (r_step r)).
Proof.
  intros Hs; unfold r_raw_index, pow10_10.
  assert (G : forall t, i <= floor_div t 10000000000 <-> 10000000000 * i <= t).
  { intros t. pose proof (floor_div_spec t 10000000000 (floor_div t 10000000000) ltac:(lia)) as [A _].
    specialize (A eq_refl). lia. }
  rewrite G. clear G.
  assert (E : Z.even (10000000000 * i) = true) by (rewrite Z.even_mul; reflexivity).
  destruct (Z_lt_dec 0 (r_step r)) as [Hp|Hn].
  - rewrite rhe_ge_even by auto. rewrite Z.sgn_pos, Z.abs_eq by lia. split; nia.
  - rewrite <- rhe_opp by auto. rewrite rhe_ge_even by (auto; lia).
    rewrite Z.sgn_neg, Z.abs_neq by lia. split; nia.
Qed.

Lemma filter_interval n A B : 0 <= A -> B < n -> A <= B + 1 ->
  filter (fun i => (A <=? i) && (i <=? B)) (zrange n)
  = map (fun k => A + k) (zrange (B - A + 1)).
Proof.
  intros HA HB HAB; apply zsorted_ext.
  - apply zsorted_filter, zsorted_zrange.
  - apply zsorted_map_mono; [intros; lia|apply zsorted_zrange].
  - intros x; rewrite filter_In, in_map_iff, in_zrange; split.
    + intros [? ?]; exists (x - A); split; [lia|]. apply in_zrange; lia.
    + intros (k & <- & Hk); apply in_zrange in Hk; lia.
Qed.

Lemma positions_where_prog a s n (p : Z -> bool) : 0 <= n ->
  positions_where p (progression a s n) = filter (fun i => p (a + i * s)) (zrange n).
Proof.
  intros Hn; unfold positions_where. rewrite zlen_progression, Z.max_r by lia.
  apply filter_ext_in; intros i Hi; apply in_zrange in Hi. now rewrite znth_progression.
Qed.
Lemma filter_prog a s n (p : Z -> bool) :
  filter p (progression a s n) = map (fun i => a + i * s) (filter (fun i => p (a + i * s)) (zrange n)).
Proof.
  unfold progression. induction (zrange n) as [|i l IH]; cbn; auto.
  destruct (p (a + i * s)); cbn; congruence.
Qed.

(** The tail of [r_select] once the two index bounds are known. [A] and [B] are
    the (unbounded) first and last index; [None] leaves that end open. *)
Definition r_select_tail (r : crange) (start stop : option Z) : result (coord * indexer) :=
  let start := match start with Some a => if a =? 0 then None else Some a | None => None end in
  let stop1 := match stop with Some b => Some (b + 1) | None => None end in
  if slice_degenerate (r_len r) start stop1
  then Ok (c_empty, simple_slice (Some 0) (Some 0))
  else
    do new_start <- match start with Some a => r_item r a | None => Ok (r_start r) end;
    do new_end <- match stop with
                  | Some b => do x <- r_item r b; Ok (x + r_step r)
                  | None => Ok (r_stop r) end;
    Ok (r_new r new_start new_end (r_step r), simple_slice start stop1).

Definition clip_lo (A : option Z) : option Z :=
  match A with Some a => if a <? 0 then None else Some a | None => None end.
Definition clip_hi (n : Z) (B : option Z) : option Z :=
  match B with Some b => if n <=? b then None else Some b | None => None end.

Lemma r_select_tail_spec r A B : wf_range r ->
  (forall a b, A = Some a -> B = Some b -> a <= b + 1) ->
  exists out, r_select_tail r (clip_lo A) (clip_hi (r_len r) B) = Ok out /\
    let ok i := (opt_or A 0 <=? i) && (i <=? opt_or B (r_len r - 1)) in
    c_values (fst out)
      = map Some (map (fun i => r_start r + i * r_step r) (filter ok (zrange (r_len r)))) /\
    indexer_positions (r_len r) (snd out) = Some (filter ok (zrange (r_len r))).
Proof.
  intros H HAB. pose proof H as (Hs & Hn & Hstop). cbv zeta.
  set (n := r_len r) in *.
  set (a := opt_or A 0). set (b := opt_or B (n - 1)).
  assert (Hab : A = None \/ B = None \/ a <= b + 1).
  { destruct A, B; auto. }
  (* the two simplified ends *)
  assert (HS : exists s0, match clip_lo A with Some a => if a =? 0 then None else Some a | None => None end = s0 /\
    ((s0 = None /\ a <= 0) \/ (s0 = Some a /\ 0 < a))).
  { destruct A as [x|]; cbn in a; subst a; cbn; [|eexists; split; [reflexivity|left; split; [reflexivity|lia]]].
    destruct (Z.ltb_spec x 0); [eexists; split; [reflexivity|left; split; auto; lia]|].
    destruct (Z.eqb_spec x 0); eexists; (split; [reflexivity|]).
    - left; split; auto; lia.
    - right; split; auto; lia. }
  assert (HE : (clip_hi n B = None /\ n - 1 <= b) \/ (clip_hi n B = Some b /\ b < n)).
  { destruct B as [x|]; cbn in b; subst b; cbn; [|left; split; auto; lia].
    destruct (Z.leb_spec n x); [left|right]; split; auto; lia. }
  destruct HS as (s0 & Es & HS). unfold r_select_tail. rewrite Es. cbv zeta.
  fold n. set (e0 := clip_hi n B) in *. clearbody e0.
  destruct (slice_degenerate n s0 _) eqn:D.
  - (* nothing selected *)
    exists (c_empty, simple_slice (Some 0) (Some 0)). split; [reflexivity|].
    assert (filter (fun i => (a <=? i) && (i <=? b)) (zrange n) = []) as ->.
    { destruct (filter _ _) as [|x l] eqn:F; auto. exfalso.
      assert (In x (x :: l)) as Hx by (cbn; auto). rewrite <- F in Hx.
      apply filter_In in Hx as [Hx Hp]; apply in_zrange in Hx.
      unfold slice_degenerate in D.
      destruct HS as [[-> ?]|[-> ?]], HE as [[-> ?]|[-> ?]]; lia. }
    split; [reflexivity|].
    cbn [snd indexer_positions simple_slice].
    rewrite simple_slice_positions; [|lia|intros ? [= <-]; lia|intros ? [= <-]; lia].
    cbn [opt_or]. f_equal.
    destruct (filter _ _) as [|x l] eqn:F; auto. exfalso.
    assert (In x (x :: l)) as Hx by (cbn; auto). rewrite <- F in Hx.
    apply filter_In in Hx as [_ Hp]; lia.
  - (* a non-empty interval *)
    set (A' := Z.max a 0). set (B' := Z.min b (n - 1)).
    assert (HAB' : 0 <= A' /\ B' < n /\ A' <= B').
    { unfold slice_degenerate in D. subst A' B'.
      destruct HS as [[-> ?]|[-> ?]], HE as [[-> ?]|[-> ?]]; try lia.
      destruct Hab as [->|[->|?]]; cbn in *; try lia. }
    assert (E1 : match s0 with Some a0 => r_item r a0 | None => Ok (r_start r) end
                 = Ok (r_start r + A' * r_step r)).
    { destruct HS as [[-> ?]|[-> ?]].
      - f_equal. subst A'. rewrite Z.max_r by lia. ring.
      - rewrite r_item_spec by (auto; fold n; lia). do 2 f_equal.
        subst A'. now rewrite Z.max_l by lia. }
    rewrite E1; cbn [bind].
    assert (E2 : match e0 with
                 | Some b0 => do x <- r_item r b0; Ok (x + r_step r)
                 | None => Ok (r_stop r) end
                 = Ok (r_start r + A' * r_step r + r_step r * (B' - A' + 1))).
    { destruct HE as [[-> ?]|[-> ?]].
      - f_equal. subst B'. rewrite Z.min_r by lia. rewrite Hstop; fold n. ring.
      - rewrite r_item_spec by (auto; fold n; unfold slice_degenerate in D; lia).
        cbn [bind]. f_equal. subst B'. rewrite Z.min_l by lia. ring. }
    rewrite E2; cbn [bind]. rewrite r_new_exact by lia.
    eexists; split; [reflexivity|]. cbn [fst snd].
    assert (F : filter (fun i => (a <=? i) && (i <=? b)) (zrange n)
                = map (fun k => A' + k) (zrange (B' - A' + 1))).
    { rewrite <- filter_interval with (n := n) by lia.
      apply filter_ext_in; intros i Hi; apply in_zrange in Hi. subst A' B'. lia. }
    rewrite F. split.
    + cbn [c_values]. rewrite r_values_prog by (unfold wf_range; cbn; repeat split; lia).
      cbn. unfold progression. rewrite !map_map. apply map_ext; intros; f_equal; ring.
    + cbn [indexer_positions simple_slice]. rewrite <- F.
      rewrite simple_slice_positions.
      * f_equal. apply filter_ext_in; intros i Hi; apply in_zrange in Hi.
        destruct HS as [[-> ?]|[-> ?]], HE as [[-> ?]|[-> ?]]; cbn [opt_or]; lia.
      * lia.
      * intros x ->. destruct HS as [[? ?]|[[= ->] ?]]; [discriminate|].
        unfold slice_degenerate in D. lia.
      * intros x Hx. destruct HE as [[-> ?]|[-> ?]]; [discriminate|].
        injection Hx as <-. unfold slice_degenerate in D. lia.
Qed.

Lemma slice_tuple_spec c rel lo hi mn mx :
  c_min c = Some mn -> c_max c = Some mx ->
  slice_tuple c rel lo hi =
    Ok (match resolve rel mn mx lo, resolve rel mn mx hi with
        | Some a, Some b => (Some (Z.min a b), Some (Z.max a b))
        | x, y => (x, y) end).
Proof.
  intros H1 H2; unfold slice_tuple, compat_value, relative_value, resolve.
  rewrite H1, H2. destruct lo as [x|], hi as [y|], rel; cbn [bind]; auto;
    try destruct (0 <=? x); try destruct (0 <=? y); cbn [bind]; auto;
    match goal with |- context [?p <? ?q] => destruct (Z.ltb_spec p q) end;
    f_equal; f_equal; f_equal; lia.
Qed.
(** Without [relative] the limits of the coordinate are not consulted. *)
Lemma slice_tuple_abs c lo hi :
  slice_tuple c false lo hi =
    Ok (match lo, hi with
        | Some a, Some b => (Some (Z.min a b), Some (Z.max a b))
        | x, y => (x, y) end).
Proof.
  unfold slice_tuple, compat_value. destruct lo as [x|], hi as [y|]; cbn [bind]; auto.
  destruct (Z.ltb_spec y x); f_equal; f_equal; f_equal; lia.
Qed.

Lemma r_select_unfold r rel lo hi x1 x2 :
  slice_tuple (CRange r) rel lo hi = Ok (x1, x2) ->
  r_select r rel lo hi =
    let s1 := if r_step r <? 0 then x2 else x1 in
    let s2 := if r_step r <? 0 then x1 else x2 in
    r_select_tail r
      (clip_lo (option_map (fun v => r_raw_index r v true) s1))
      (clip_hi (r_len r) (option_map (fun v => r_raw_index r v false) s2)).
Proof.
  intros E; unfold r_select; rewrite E; cbn [bind fst snd].
  unfold r_sorted, r_reverse_sorted, r_select_tail.
  assert (F : forall v, r_get_index r v true = clip_lo (option_map (fun v => r_raw_index r v true) v)).
  { intros [v|]; cbn; auto. rewrite andb_true_r, andb_false_r, orb_false_r. reflexivity. }
  assert (G : forall v, r_get_index r v false = clip_hi (r_len r) (option_map (fun v => r_raw_index r v false) v)).
  { intros [v|]; cbn; auto. rewrite andb_true_r, andb_false_r. reflexivity. }
  destruct (Z.ltb_spec (r_step r) 0), (Z.leb_spec 0 (r_step r)); try lia; rewrite F, G; reflexivity.
Qed.

Lemma r_select_core r rel lo hi mn mx : wf_range r ->
  r_min r = mn -> r_max r = mx ->
  exists out, r_select r rel lo hi = Ok out /\
    keeps_exactly (r_values r)
      (between_tol (r_step r) (resolve rel mn mx lo) (resolve rel mn mx hi)) out.
Proof.
  intros H Hmn Hmx. pose proof H as (Hs & Hn & Hstop).
  assert (Cmn : c_min (CRange r) = Some mn) by (cbn; congruence).
  assert (Cmx : c_max (CRange r) = Some mx) by (cbn; congruence).
  pose proof (slice_tuple_spec (CRange r) rel lo hi mn mx Cmn Cmx) as E.
  set (L := resolve rel mn mx lo) in *. set (U := resolve rel mn mx hi) in *.
  clearbody L U. clear Hmn Hmx Cmn Cmx.
  set (x1 := match L, U with Some a, Some b => Some (Z.min a b) | x, _ => x end).
  set (x2 := match L, U with Some a, Some b => Some (Z.max a b) | _, y => y end).
  assert (E' : slice_tuple (CRange r) rel lo hi = Ok (x1, x2)).
  { rewrite E; subst x1 x2; now destruct L, U. }
  rewrite (r_select_unfold _ _ _ _ _ _ E'). cbv zeta. clear E E'.
  set (s1 := if r_step r <? 0 then x2 else x1). set (s2 := if r_step r <? 0 then x1 else x2).
  destruct (r_select_tail_spec r (option_map (fun v => r_raw_index r v true) s1)
    (option_map (fun v => r_raw_index r v false) s2) H) as (out & -> & HV & HP).
  { intros a b Ha Hb.
    destruct s1 as [v1|] eqn:E1; [|discriminate]; destruct s2 as [v2|] eqn:E2; [|discriminate].
    cbn [option_map] in Ha, Hb.
    assert (a = r_raw_index r v1 true) as -> by congruence.
    assert (b = r_raw_index r v2 false) as -> by congruence. clear Ha Hb.
    assert (Hord : (v1 - v2) * Z.sgn (r_step r) <= 0).
    { subst s1 s2 x1 x2. destruct (Z.ltb_spec (r_step r) 0).
      - rewrite Z.sgn_neg by lia. destruct L, U; try congruence; injection E1 as <-; injection E2 as <-; lia.
      - rewrite Z.sgn_pos by lia. destruct L, U; try congruence; injection E1 as <-; injection E2 as <-; lia. }
    set (j := r_raw_index r v2 false).
    apply raw_forward_le; auto.
    assert (HJ : ~ (j + 1 <= r_raw_index r v2 false)) by (subst j; lia).
    rewrite raw_back_ge in HJ by auto. clearbody j.
    set (t := r_start r + (j + 1) * r_step r) in *.
    replace ((v1 - t) * Z.sgn (r_step r))
      with ((v1 - v2) * Z.sgn (r_step r) - (t - v2) * Z.sgn (r_step r)) by ring.
    set (P := (t - v2) * Z.sgn (r_step r)) in *.
    set (Q := (v1 - v2) * Z.sgn (r_step r)) in *. clearbody P Q. lia. }
  exists out; split; [reflexivity|]. unfold keeps_exactly.
  rewrite r_values_prog by auto. rewrite zlen_progression, Z.max_r by lia.
  rewrite filter_prog, positions_where_prog by lia.
  rewrite HV, HP.
  assert (EQ : filter (fun i => (opt_or (option_map (fun v => r_raw_index r v true) s1) 0 <=? i)
      && (i <=? opt_or (option_map (fun v => r_raw_index r v false) s2) (r_len r - 1))) (zrange (r_len r))
    = filter (fun i => between_tol (r_step r) L U (r_start r + i * r_step r)) (zrange (r_len r))).
  { apply filter_ext_in; intros i Hi; apply in_zrange in Hi.
    assert (P1 : forall v, (r_raw_index r v true <=? i) =
       (20000000000 * ((v - (r_start r + i * r_step r)) * Z.sgn (r_step r)) <=? Z.abs (r_step r))).
    { intros v. pose proof (raw_forward_le r v i Hs). lia. }
    assert (P2 : forall v, (i <=? r_raw_index r v false) =
       (20000000000 * (((r_start r + i * r_step r) - v) * Z.sgn (r_step r)) <=? Z.abs (r_step r))).
    { intros v. pose proof (raw_back_ge r v i Hs). lia. }
    subst s1 s2 x1 x2. unfold between_tol.
    destruct (Z.ltb_spec (r_step r) 0).
    - destruct L, U; cbn [option_map opt_or]; rewrite ?P1, ?P2, ?Z.sgn_neg by lia;
        generalize (r_start r + i * r_step r); intros; lia.
    - destruct L, U; cbn [option_map opt_or]; rewrite ?P1, ?P2, ?Z.sgn_pos by lia;
        generalize (r_start r + i * r_step r); intros; lia. }
  rewrite <- EQ. split; reflexivity.
Qed.

Lemma between_tol_exact step lo hi x : Z.abs step < 20000000000 ->
  between_tol step lo hi x = between lo hi x.
Proof. intros H; unfold between_tol, between. destruct lo, hi; lia. Qed.

Lemma filter_ext_eq {A} (f g : A -> bool) l : (forall x, f x = g x) -> filter f l = filter g l.
Proof. intros H; apply filter_ext; auto. Qed.
Lemma keeps_exactly_ext vs f g out : (forall x, f x = g x) ->
  keeps_exactly vs f out -> keeps_exactly vs g out.
Proof.
  intros H [H1 H2]; split.
  - now rewrite <- (filter_ext_eq f g).
  - rewrite H2; f_equal. unfold positions_where. apply filter_ext; intros i.
    destruct (znth vs i); auto.
Qed.
Lemma r_select_exact r rel lo hi : wf_range r -> Z.abs (r_step r) < 20000000000 ->
  exists out, r_select r rel lo hi = Ok out /\
    keeps_exactly (r_values r)
      (between (resolve rel (r_min r) (r_max r) lo) (resolve rel (r_min r) (r_max r) hi)) out.
Proof.
  intros H Hs. destruct (r_select_core r rel lo hi _ _ H eq_refl eq_refl) as (out & E & K).
  exists out; split; auto. eapply keeps_exactly_ext; [|exact K].
  intros; now apply between_tol_exact.
Qed.

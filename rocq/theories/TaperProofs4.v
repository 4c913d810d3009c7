(** Tapering: ranges. *)
From Verif Require Import Base BaseFacts CoordModel CoordSpec CoordProofs CoordProofs2 CoordProofs3 CoordProofs5
  NdModel NdSpec NdProofs FrameModel ChunkModel CmModel CmSpec CmProofs CmProofs3 CmProofs4 CmProofs13 ProcModel ProcProofs
  TaperModel TaperSpec TaperProofs TaperProofs2 TaperProofs3.
From Verif Require ChunkProofs2.
From Coq Require Import Strings.String QArith Qabs Lia ZArith Sorted Lqa.
Local Open Scope Z_scope.
Local Open Scope list_scope.

Lemma znth_rev {V} (l : list V) j : 0 <= j < zlen l -> znth (rev l) j = znth l (zlen l - 1 - j).
Proof.
  revert j. induction l as [|x l IH]; intros j B; [cbn in B; lia|]. cbn [rev]. rewrite zlen_cons in *.
  rewrite znth_app, zlen_rev, !znth_cons. pose proof (zlen_nonneg l).
  destruct (Z.ltb_spec j (zlen l)).
  - rewrite IH by lia. match goal with |- _ = if ?a =? 0 then _ else _ => destruct (Z.eqb_spec a 0); [lia|] end. f_equal; lia.
  - assert (j = zlen l) as -> by lia. rewrite Z.sub_diag.
    match goal with |- _ = if ?a =? 0 then _ else _ => destruct (Z.eqb_spec a 0); [reflexivity|lia] end.
Qed.

Lemma zlen_add_at out lo hi l : zlen (add_at out lo hi l) = zlen out.
Proof. unfold add_at. rewrite zlen_map, ChunkProofs2.zlen_combine, zlen_zrange. pose proof (zlen_nonneg out). lia. Qed.
Lemma znth_add_at out lo hi l i x : znth out i = Some x ->
  znth (add_at out lo hi l) i =
  Some (if (lo <=? i) && (i <? hi) then match znth l (i - lo) with Some y => (x + y)%Q | None => x end else x).
Proof.
  intros E. pose proof (znth_some _ _ _ E) as B. fold (zlen out) in B. unfold add_at.
  rewrite znth_map, ChunkProofs2.znth_combine, znth_zrange, E.
  destruct (Z.leb_spec 0 i), (Z.ltb_spec i (zlen out)); try lia. cbn [andb option_map fst snd].
  destruct ((lo <=? i) && (i <? hi)); [|reflexivity]. destruct (znth l (i - lo)); reflexivity.
Qed.
Lemma znth_repeat_in {V} (v : V) m i : 0 <= i < m -> znth (repeat v (Z.to_nat m)) i = Some v.
Proof.
  intros B. destruct (proj2 (znth_range (repeat v (Z.to_nat m)) i)) as [x X].
  { unfold zlen. rewrite repeat_length. lia. }
  rewrite X. f_equal. apply znth_in in X. apply repeat_spec in X. exact X.
Qed.

(** ** One range *)
Section Set_.
Context (w : Z -> list Q) (Wd : window w) (r : crange).

Lemma curve_up i1 i2 : i1 <= i2 -> exists l, taper_curve w (CRange r) i1 i2 false = Ok l /\
  forall j, 0 <= j < i2 - i1 -> znth l j = znth (w (2 * (i2 - i1) + 1)) j.
Proof.
  intros L. unfold taper_curve. destruct (Z.ltb_spec ((i2 - i1) * 2 + 1) 0); [lia|]. cbn [c_evenly negb].
  replace ((i2 - i1) * 2 + 1) with (2 * (i2 - i1) + 1) by lia.
  destruct (Wd (2 * (i2 - i1) + 1)) as [WL _]; [lia|]. destruct (take_first (w (2 * (i2 - i1) + 1)) (i2 - i1)) as [TL TN]; [lia|].
  eexists. split; [reflexivity|]. exact TN.
Qed.
Lemma curve_down i1 i2 : i1 <= i2 -> exists l, taper_curve w (CRange r) i1 i2 true = Ok l /\
  forall j, 0 <= j < i2 - i1 -> znth l j = znth (w (2 * (i2 - i1) + 1)) (i2 - i1 - 1 - j).
Proof.
  intros L. unfold taper_curve. destruct (Z.ltb_spec ((i2 - i1) * 2 + 1) 0); [lia|]. cbn [c_evenly negb].
  replace ((i2 - i1) * 2 + 1) with (2 * (i2 - i1) + 1) by lia.
  destruct (Wd (2 * (i2 - i1) + 1)) as [WL _]; [lia|]. destruct (take_first (w (2 * (i2 - i1) + 1)) (i2 - i1)) as [TL TN]; [lia|].
  eexists. split; [reflexivity|]. intros j B. rewrite znth_rev by lia. rewrite TL. apply TN. lia.
Qed.
Lemma win_at m j : 0 <= j < m -> exists y, znth (w m) j = Some y /\ (0 <= y <= 1)%Q.
Proof.
  intros B. destruct (Wd m) as [WL WB]; [lia|]. destruct (proj2 (znth_range (w m) j)) as [y Y]; [lia|].
  exists y. split; [exact Y|]. apply WB. eapply znth_in; exact Y.
Qed.

Lemma add_set_ok n i1 i2 i3 i4 out : in_order n (i1, i2, i3, i4) ->
  exists out', add_set w (CRange r) out [i1; i2; i3; i4] = Ok out' /\ zlen out' = zlen out /\
  forall i x, znth out i = Some x -> exists y, znth out' i = Some y /\ (y == x + range_factor w i1 i2 i3 i4 i)%Q.
Proof.
  intros (O1 & O2 & O3 & O4 & O5). unfold add_set.
  destruct (curve_up i1 i2 O2) as (up & -> & Up). cbn [bind]. destruct (curve_down i3 i4 O4) as (dn & -> & Dn). cbn [bind].
  eexists. split; [reflexivity|]. split; [rewrite !zlen_add_at; reflexivity|]. intros i x E.
  eexists. split; [apply znth_add_at, znth_add_at, znth_add_at, E|].
  unfold range_factor.
  destruct ((i1 <=? i) && (i <? i2)) eqn:B1; [|destruct ((i3 <=? i) && (i <? i4)) eqn:B3].
  - destruct ((i3 <=? i) && (i <? i4)) eqn:B3; [lia|]. destruct ((i2 <=? i) && (i <? i3)) eqn:B2; [lia|].
    rewrite Up by lia. destruct (win_at (2 * (i2 - i1) + 1) (i - i1)) as (y & -> & _); [lia|]. reflexivity.
  - destruct ((i2 <=? i) && (i <? i3)) eqn:B2; [lia|].
    rewrite Dn by lia. replace (i4 - i3 - 1 - (i - i3)) with (i4 - 1 - i) by lia.
    destruct (win_at (2 * (i4 - i3) + 1) (i4 - 1 - i)) as (y & -> & _); [lia|]. reflexivity.
  - destruct ((i2 <=? i) && (i <? i3)) eqn:B2.
    + rewrite znth_repeat_in by lia. reflexivity.
    + ring.
Qed.

Lemma range_factor_bound n i1 i2 i3 i4 i : in_order n (i1, i2, i3, i4) -> (0 <= range_factor w i1 i2 i3 i4 i <= 1)%Q.
Proof.
  intros (O1 & O2 & O3 & O4 & O5). unfold range_factor.
  destruct ((i2 <=? i) && (i <? i3)); [split; discriminate|].
  destruct ((i1 <=? i) && (i <? i2)) eqn:B1.
  { destruct (win_at (2 * (i2 - i1) + 1) (i - i1)) as (y & -> & B); [lia|]. exact B. }
  destruct ((i3 <=? i) && (i <? i4)) eqn:B3; [|split; discriminate].
  destruct (win_at (2 * (i4 - i3) + 1) (i4 - 1 - i)) as (y & -> & B); [lia|]. exact B.
Qed.

(** ** Several ranges *)
Definition as_list (s : Z * Z * Z * Z) : list Z := match s with (i1, i2, i3, i4) => [i1; i2; i3; i4] end.
Lemma add_sets n sets : Forall (in_order n) sets -> forall out,
  exists out', fold_left (fun acc s => do o <- acc; add_set w (CRange r) o s) (map as_list sets) (Ok out) = Ok out' /\ zlen out' = zlen out /\
  forall i x, znth out i = Some x -> exists y, znth out' i = Some y /\ (y == x + total w sets i)%Q.
Proof.
  induction 1 as [|[[[i1 i2] i3] i4] sets O F IH]; intros out; cbn [map fold_left].
  - exists out. split; [reflexivity|]. split; [reflexivity|]. intros i x E. exists x. split; [exact E|]. cbn. ring.
  - cbn [bind as_list]. destruct (add_set_ok n i1 i2 i3 i4 out O) as (o1 & -> & L1 & H1).
    destruct (IH o1) as (o2 & -> & L2 & H2). exists o2. split; [reflexivity|]. split; [congruence|]. intros i x E.
    destruct (H1 i x E) as (y & Ey & Q1). destruct (H2 i y Ey) as (z & Ez & Q2). exists z. split; [exact Ez|].
    rewrite Q2, Q1. cbn [total fold_right]. fold (total w sets i). ring.
Qed.

Lemma qmax_spec t : forall x, In (fold_left Qmax' t x) (x :: t) /\ forall y, In y (x :: t) -> (y <= fold_left Qmax' t x)%Q.
Proof.
  induction t as [|z t IH]; intros x; cbn [fold_left].
  - split; [left; reflexivity|]. intros y [<-|[]]. apply Qle_refl.
  - destruct (IH (Qmax' x z)) as [I M]. assert (MX : (x <= Qmax' x z)%Q /\ (z <= Qmax' x z)%Q /\ (Qmax' x z = x \/ Qmax' x z = z)).
    { unfold Qmax'. destruct (Qle_bool x z) eqn:E.
      - apply Qle_bool_iff in E. split; [exact E|]. split; [apply Qle_refl|right; reflexivity].
      - split; [apply Qle_refl|]. split; [|left; reflexivity]. apply Qlt_le_weak, Qnot_le_lt. intros K.
        apply Qle_bool_iff in K. congruence. }
    destruct MX as (M1 & M2 & M3). split.
    + destruct I as [<-|I]; [destruct M3 as [->| ->]; [left|right; left]; reflexivity|right; right; exact I].
    + intros y [<-|[<-|J]]; [| |apply M; right; exact J]; (eapply Qle_trans; [|apply M; left; reflexivity]); assumption.
Qed.

Lemma envelope_ok sets : 1 <= r_len r -> Forall (in_order (r_len r)) sets ->
  exists out, range_envelope w (CRange r) (map as_list sets) false = Ok out /\ zlen out = r_len r /\
  forall i, 0 <= i < r_len r -> exists y, znth out i = Some y /\ (y == total w sets i)%Q.
Proof.
  intros P F. unfold range_envelope. cbn [c_len].
  destruct (add_sets _ _ F (repeat 0%Q (Z.to_nat (r_len r)))) as (out & -> & L & H). cbn [bind].
  exists out. split; [reflexivity|]. split; [rewrite L; unfold zlen; rewrite repeat_length; lia|].
  intros i B. destruct (H i 0%Q (znth_repeat_in _ _ _ B)) as (y & Y & E). exists y. split; [exact Y|]. rewrite E. ring.
Qed.
Lemma envelope_invert sets : 1 <= r_len r -> Forall (in_order (r_len r)) sets ->
  exists out m, range_envelope w (CRange r) (map as_list sets) true = Ok out /\ zlen out = r_len r /\
  (exists i, 0 <= i < r_len r /\ (m == total w sets i)%Q) /\
  (forall i, 0 <= i < r_len r -> (total w sets i <= m)%Q) /\
  forall i, 0 <= i < r_len r -> exists y, znth out i = Some y /\ (y == m - total w sets i)%Q.
Proof.
  intros P F. destruct (envelope_ok sets P F) as (o & E & L & H). unfold range_envelope in E |- *. cbn [c_len] in *.
  destruct (fold_left _ _ _) as [x|]; cbn [bind] in *; [|discriminate]. injection E as ->.
  destruct o as [|x t]; [cbn in L; lia|]. cbn [list_qmax]. destruct (qmax_spec t x) as [I M]. set (m := fold_left Qmax' t x) in *.
  set (o := x :: t) in *.
  assert (LE : forall i, 0 <= i < r_len r -> (total w sets i <= m)%Q).
  { intros i B. destruct (H i B) as (y & Y & Q1). rewrite <- Q1. apply M. eapply znth_in; exact Y. }
  exists (map (fun y => Qabs (y - m)) o), m. split; [reflexivity|]. split; [rewrite zlen_map; exact L|]. split; [|split; [exact LE|]].
  - destruct (in_znth _ _ I) as [i Ei]. pose proof (znth_some _ _ _ Ei) as B. fold (zlen o) in B. rewrite L in B.
    exists i. split; [exact B|]. destruct (H i B) as (y & Y & Q1). rewrite Ei in Y. injection Y as <-. exact Q1.
  - intros i B. destruct (H i B) as (y & Y & Q1). exists (Qabs (y - m)). rewrite znth_map, Y. split; [reflexivity|].
    rewrite Q1. rewrite Qabs_neg; [ring|]. specialize (LE i B). lra.
Qed.
End Set_.

(** ** Which samples the values ask for *)
Lemma first_unique v x i j : first_at_or_after v x i -> first_at_or_after v x j -> i = j.
Proof.
  intros (B1 & L1 & G1) (B2 & L2 & G2). destruct (proj2 (znth_range v i) B1) as [a A]. destruct (proj2 (znth_range v j) B2) as [b B].
  destruct (Z.lt_total i j) as [H|[H|H]]; [|exact H|].
  - specialize (L2 _ _ A H). specialize (G1 _ _ A). lia.
  - specialize (L1 _ _ B H). specialize (G2 _ _ B). lia.
Qed.

Section Asked.
Context (r : crange) (W : wf_range r) (U : 0 < r_step r < 20000000000).
Lemma asked1_ok rel smp v i : asked1 r rel smp v i -> next1 (CRange r) rel smp v = Ok i.
Proof.
  unfold asked1, next1. destruct smp.
  - intros [B ->]. rewrite next_index_samples_spec by (cbn; unfold r_sorted; destruct (Z.leb_spec 0 (r_step r)); [reflexivity|lia]).
    cbn [forallb c_len map]. unfold wrap_index.
    destruct (Z.leb_spec (- r_len r) v), (Z.ltb_spec v (r_len r)); try lia. cbn [andb bind]. destruct (v <? 0); f_equal; lia.
  - intros [B F]. rewrite (rel_values_ok _ rel [v] (r_min r) (r_max r) (W : wf_coord (CRange r)) I (r_min_least r W) (r_max_greatest r W)).
    cbn [map bind]. set (x := if rel then _ else v) in *. 
    destruct (next_index_range r [x] false W) as (o & -> & FF); try lia.
    { intros y [<-|[]]. exact B. }
    inversion FF as [|y k ys ks F1 F2]; subst. cbn [bind]. f_equal. eapply first_unique; eassumption.
Qed.
Lemma asked_ok rel smp l s : asked r rel smp l s -> range_inds (CRange r) rel smp l = Ok (as_list s).
Proof.
  intros [a b i2 i3 A B|o1 o2 o3 o4 i1 i2 i3 i4 A1 A2 A3 A4]; unfold range_inds.
  - change (zlen [Some a; Some b]) with 2. change (zrange 2) with [0; 1]. cbn [Z.eqb orb negb combine map_result snd bind].
    change (2 =? 2) with true. cbn [orb negb].
    rewrite (asked1_ok _ _ _ _ A). cbn [bind]. rewrite (asked1_ok _ _ _ _ B). reflexivity.
  - change (zlen [o1; o2; o3; o4]) with 4. change (zrange 4) with [0; 1; 2; 3]. change (4 =? 2) with false. change (4 =? 4) with true.
    cbn [orb negb combine map_result fst snd].
    assert (X : forall k d o i, asked_or r rel smp d o i -> (if 2 * k <? 4 then 0 else r_len r - 1) = d ->
      match o with Some v => next1 (CRange r) rel smp v | None => Ok (if 2 * k <? 4 then 0 else c_len (CRange r) - 1) end = Ok i).
    { intros k dd o i Ai <-. destruct o as [v|]; [apply asked1_ok; exact Ai|]. cbn in Ai |- *. subst i. reflexivity. }
    rewrite (X 0 0 o1 i1 A1 eq_refl), (X 1 0 o2 i2 A2 eq_refl), (X 2 _ o3 i3 A3 eq_refl), (X 3 _ o4 i4 A4 eq_refl). reflexivity.
Qed.
Lemma asked_all rel smp arg ls sets : sequences arg ls -> Forall2 (asked r rel smp) ls sets ->
  range_sets (CRange r) rel smp arg = Ok (map as_list sets).
Proof.
  intros S F. assert (M : map_result (range_inds (CRange r) rel smp) ls = Ok (map as_list sets)).
  { clear S. induction F as [|l s ls sets A F IH]; [reflexivity|]. cbn [map_result map]. rewrite (asked_ok _ _ _ _ A). cbn [bind].
    rewrite IH. reflexivity. }
  destruct S as [[-> N]|(l & -> & ->)]; cbn [range_sets].
  - destruct ls; [congruence|]. exact M.
  - cbn [map_result] in M. destruct (range_inds (CRange r) rel smp l) as [x|e]; cbn [bind] in *; [|discriminate]. exact M.
Qed.
End Asked.

(** ** taper_range as a whole *)
Section Taper.
Context {A : Type} (mul : A -> Q -> A) (win : string -> option (Z -> list Q)).
Context (p : patch A) (wt : string) (w : Z -> list Q) (ax : nat) (d : string) (r : crange)
  (rel smp : bool) (arg : trarg) (ls : list (list (option Z))) (sets : list (Z * Z * Z * Z)).
Context (W : wf_patch p) (Ww : win wt = Some w) (Wd : window w)
  (D : nth_error (cm_dims (p_cm p)) ax = Some d) (C : assoc d (cm_coords (p_cm p)) = Some (M1 (CRange r)))
  (U : 0 < r_step r < 20000000000) (S : sequences arg ls) (F : Forall2 (asked r rel smp) ls sets)
  (O : Forall (in_order (r_len r)) sets).

Lemma tr_wf : wf_range r.
Proof. apply (wf_vals _ (wp_cm _ W) _ _ C). Qed.
Lemma tr_run inv env : range_envelope w (CRange r) (map as_list sets) inv = Ok env -> zlen env = r_len r ->
  exists q, pt_taper_range mul win p wt inv rel smp [(d, arg)] = Ok q /\
    changed_along p q ax (fun i x => mul x (match znth env i with Some y => y | None => 0%Q end)).
Proof.
  intros E L. unfold pt_taper_range. rewrite (one_dim_ok _ _ _ _ D). cbn [bind fst snd].
  unfold axis_of. rewrite (index_of_nth _ _ _ (wf_dims _ (wp_cm _ W)) D). cbn [bind]. rewrite C.
  replace (c_sorted (CRange r)) with true by (cbn; unfold r_sorted; destruct (Z.leb_spec 0 (r_step r)); [reflexivity|lia]).
  cbn [orb negb]. rewrite (asked_all r tr_wf U _ _ _ _ _ S F). cbn [bind]. rewrite Ww, E. cbn [bind].
  pose proof (shape_axis p ax d _ W D C) as SA. cbn [c_len] in SA.
  destruct tr_wf as (_ & P & _).
  destruct (scale_spec mul (p_data p) ax (r_len r) (mkSlice None None None) 0 (r_len r) env (wp_nd _ W) SA) as (a & Ea & Ch); try lia.
  { rewrite simple_slice_positions by (try discriminate; lia). cbn [opt_or]. f_equal.
    rewrite (filter_ext _ (fun i => (0 <=? i) && (i <=? r_len r - 1))) by (intros; lia). rewrite filter_interval by lia. do 2 f_equal; lia. }
  rewrite Ea. cbn [bind]. pose proof Ch as (Sh & Wn & _).
  destruct (new_patch_ok (p_cm p) a (wp_cm _ W) Wn (wp_some _ W)) as [En _].
  { rewrite Sh. apply (wp_shape _ W). }
  rewrite En. eexists. split; [reflexivity|]. split; [reflexivity|]. cbn [p_data].
  eapply changed_ext; [exact SA|exact Ch|]. intros i x B. unfold scaled. destruct (Z.leb_spec 0 i), (Z.ltb_spec i (r_len r)); try lia.
  cbn [andb]. rewrite Z.sub_0_r. destruct (proj2 (znth_range env i)) as [y ->]; [lia|]. reflexivity.
Qed.

Lemma range_keeps : exists q f, pt_taper_range mul win p wt false rel smp [(d, arg)] = Ok q /\
  changed_along p q ax (fun i x => mul x (f i)) /\ forall i, 0 <= i < r_len r -> (f i == total w sets i)%Q.
Proof.
  destruct (envelope_ok w Wd r sets) as (env & E & L & H); [apply tr_wf|exact O|].
  destruct (tr_run _ _ E L) as (q & Eq & Ch). exists q, (fun i => match znth env i with Some y => y | None => 0%Q end).
  split; [exact Eq|]. split; [exact Ch|]. intros i B. destruct (H i B) as (y & -> & Q1). exact Q1.
Qed.
Lemma range_inverts : exists q f m, pt_taper_range mul win p wt true rel smp [(d, arg)] = Ok q /\
  changed_along p q ax (fun i x => mul x (f i)) /\
  (exists i, 0 <= i < r_len r /\ (m == total w sets i)%Q) /\
  (forall i, 0 <= i < r_len r -> (total w sets i <= m)%Q) /\
  forall i, 0 <= i < r_len r -> (f i == m - total w sets i)%Q.
Proof.
  destruct (envelope_invert w Wd r sets) as (env & m & E & L & X & M & H); [apply tr_wf|exact O|].
  destruct (tr_run _ _ E L) as (q & Eq & Ch). exists q, (fun i => match znth env i with Some y => y | None => 0%Q end), m.
  split; [exact Eq|]. split; [exact Ch|]. split; [exact X|]. split; [exact M|].
  intros i B. destruct (H i B) as (y & -> & Q1). exact Q1.
Qed.
End Taper.

(** With one range that keeps something, inverting takes one minus the factor. *)
Lemma one_max w n i1 i2 i3 i4 m : window w -> in_order n (i1, i2, i3, i4) -> i2 < i3 ->
  (exists i, 0 <= i < n /\ (m == total w [(i1, i2, i3, i4)] i)%Q) ->
  (forall i, 0 <= i < n -> (total w [(i1, i2, i3, i4)] i <= m)%Q) -> (m == 1)%Q.
Proof.
  intros Wd O L (i & B & E) M. pose proof O as (O1 & O2 & O3 & O4 & O5).
  assert (T : forall j, (total w [(i1, i2, i3, i4)] j == range_factor w i1 i2 i3 i4 j)%Q) by (intros j; cbn [total fold_right]; ring).
  pose proof (range_factor_bound w Wd n i1 i2 i3 i4 i O) as [_ U]. rewrite T in E. specialize (M i2 ltac:(lia)). rewrite T in M.
  unfold range_factor in M at 1. destruct (Z.leb_spec i2 i2), (Z.ltb_spec i2 i3); try lia. cbn [andb] in M. lra.
Qed.

(** What taper_range refuses. *)
Section Refused.
Context {A : Type} (mul : A -> Q -> A) (win : string -> option (Z -> list Q)).
Context (p : patch A) (wt : string) (w : Z -> list Q) (ax : nat) (d : string) (r : crange) (inv rel smp : bool).
Context (W : wf_patch p) (Ww : win wt = Some w)
  (D : nth_error (cm_dims (p_cm p)) ax = Some d) (C : assoc d (cm_coords (p_cm p)) = Some (M1 (CRange r)))
  (U : 0 < r_step r < 20000000000).
Lemma tr_start arg : pt_taper_range mul win p wt inv rel smp [(d, arg)] =
  do sets <- range_sets (CRange r) rel smp arg;
  do env <- range_envelope w (CRange r) sets inv;
  do a <- scale_slice mul (p_data p) ax (mkSlice None None None) env;
  new_patch (p_cm p) a.
Proof.
  unfold pt_taper_range. rewrite (one_dim_ok _ _ _ _ D). cbn [bind fst snd].
  unfold axis_of. rewrite (index_of_nth _ _ _ (wf_dims _ (wp_cm _ W)) D). cbn [bind]. rewrite C.
  replace (c_sorted (CRange r)) with true by (cbn; unfold r_sorted; destruct (Z.leb_spec 0 (r_step r)); [reflexivity|lia]).
  cbn [orb negb]. rewrite Ww. reflexivity.
Qed.
Lemma range_wrong_length l : zlen l <> 2 -> zlen l <> 4 ->
  pt_taper_range mul win p wt inv rel smp [(d, TOne l)] = Err ParameterError.
Proof.
  intros N2 N4. rewrite tr_start. cbn [range_sets]. unfold range_inds.
  destruct (Z.eqb_spec (zlen l) 2), (Z.eqb_spec (zlen l) 4); try contradiction. reflexivity.
Qed.
Lemma range_nothing : pt_taper_range mul win p wt inv rel smp [(d, TMany [])] = Err ParameterError.
Proof. rewrite tr_start. reflexivity. Qed.
Lemma range_backwards l i1 i2 i3 i4 : asked r rel smp l (i1, i2, i3, i4) -> i2 < i1 \/ i4 < i3 ->
  pt_taper_range mul win p wt inv rel smp [(d, TOne l)] = Err ValueError.
Proof.
  intros Hl B. rewrite tr_start. cbn [range_sets].
  rewrite (asked_ok r (wf_vals _ (wp_cm _ W) _ _ C) U _ _ _ _ Hl). cbn [bind as_list].
  unfold range_envelope. cbn [fold_left bind]. unfold add_set, taper_curve. cbn [c_evenly negb].
  destruct (Z.ltb_spec ((i2 - i1) * 2 + 1) 0); [reflexivity|]. cbn [bind].
  destruct (Z.ltb_spec ((i4 - i3) * 2 + 1) 0); [reflexivity|lia].
Qed.
End Refused.

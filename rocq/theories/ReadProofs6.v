(** Facts behind ReadProps.v: the SEGY and Sintela readers. *)
From Verif Require Import Base BaseFacts CoordModel CoordSpec CoordProofs CoordProofs2 CoordProofs3
  CoordProofs4 CoordProofs5 NdModel MergeProofs6 ReadModel ReadSpec ReadProofs ReadProofs2 ReadProofs3 ReadProofs4 ReadProofs5.
From Coq Require Import ZifyBool.
Ltac Zify.zify_post_hook ::= Z.div_mod_to_equations.

(** ** Coordinates that select exactly *)
Definition good_coord (c : coord) (vs : list Z) : Prop := forall b, exists out,
  select_opt c b = Ok out /\ keeps_exactly vs (wanted b) out /\
  c_len (fst out) = zlen (filter (wanted b) vs).

Lemma represents_one c w : zlen w <= 1 -> represents c w -> c_values c = map Some w.
Proof.
  intros L [R1 [R2 _]]. destruct w as [|x [|y t]].
  - apply zlen_zero. exact R1.
  - destruct (c_values c) as [|a [|b t]].
    + discriminate R1.
    + cbn in R2 |- *. congruence.
    + rewrite !zlen_cons in R1. pose proof (zlen_nonneg t). rewrite (@zlen_nil Z) in R1. lia.
  - rewrite !zlen_cons in L. pose proof (zlen_nonneg t). lia.
Qed.

Lemma good_one k x : good_coord (CMono k [x]) [x].
Proof.
  intros [[lo hi]|].
  - cbn [select_opt]. assert (A : ascending [x]).
    { unfold ascending. cbn. tauto. }
    destruct (m_select_spec k [x] false lo hi x x) as [out [E [K1 K2]]]; [discriminate|left; exact A|reflexivity|reflexivity|].
    exists out. split; [exact E|].
    set (keep := between (resolve false x x lo) (resolve false x x hi)) in *.
    assert (Ek : forall y, keep y = wanted (Some (lo, hi)) y) by (intro y; unfold keep, wanted; destruct lo, hi; reflexivity).
    assert (V : c_values (fst out) = map Some (filter keep [x])).
    { apply represents_one; [|exact K1]. cbn [filter]. destruct (keep x); cbn; lia. }
    assert (K : keeps_exactly [x] keep out) by (split; [exact V|exact K2]).
    split; [eapply keeps_exactly_ext; [|exact K]; intro y; apply Ek|].
    rewrite honest_len.
    + rewrite V, zlen_map. f_equal. apply filter_ext. exact Ek.
    + eapply (select_honest (CMono k [x])); [left; exact A|exact E].
  - cbn [select_opt]. eexists. split; [reflexivity|]. split; [|reflexivity].
    split; [reflexivity|]. vm_compute. reflexivity.
Qed.

Lemma good_even c vs : even_coord c vs -> good_coord c vs.
Proof. intros H b. apply select_even; exact H. Qed.

Lemma prog_even k a s n : fair_step s -> 2 <= n -> exists c, get_coord_data k (progression a s n) = Ok c /\ even_coord c (progression a s n).
Proof.
  intros [Hs1 Hs2] Hn. rewrite get_coord_even by assumption. eexists. split; [reflexivity|].
  set (rr := mkRange k a (a + s * n) s n).
  assert (Wr : wf_range rr) by (unfold wf_range, rr; cbn; repeat split; lia).
  exists rr. split; [reflexivity|]. split; [exact Wr|]. split; [split; assumption|].
  rewrite r_values_prog by exact Wr. reflexivity.
Qed.

Lemma zrange_prog n : zrange n = progression 0 1 n.
Proof. unfold progression. rewrite <- (map_id (zrange n)) at 1. apply map_ext. intro; lia. Qed.

(** ** SEGY *)
Definition at1 (t : list Z) (i : Z) : Z := match znth t i with Some x => x | None => 0 end.

Lemma list_at t : t = map (at1 t) (zrange (zlen t)).
Proof. symmetry. apply (row_items (zlen t) t eq_refl). Qed.

Lemma segy_read_ok f time channel : segy_ok f ->
  let times := progression (sg_start f) (1000 * sg_interval f) (sg_count f) in
  let chans := zrange (zlen (sg_traces f)) in
  filter (wanted channel) chans <> [] ->
  exists out, segy_read f time channel = Ok out /\
    part_of times chans (of_columns (sg_count f) (sg_traces f)) time channel out.
Proof.
  intros [Hi Hc Hne Ht] times chans Hsel. unfold segy_read, segy_coords.
  set (n := sg_count f) in *. set (m := zlen (sg_traces f)) in *.
  assert (Hm : 1 <= m).
  { unfold m. destruct (sg_traces f) as [|x l]; [congruence|]. rewrite zlen_cons. pose proof (zlen_nonneg l). lia. }
  assert (Et0 : map (fun i => sg_start f + sg_interval f * ns_per_us * i) (zrange n) = times).
  { unfold times, progression. apply map_ext. intro i. unfold ns_per_us. lia. }
  rewrite Et0. destruct (prog_even KTime (sg_start f) (1000 * sg_interval f) n) as [tc [Etc Htc]].
  { unfold fair_step. lia. } { exact Hc. }
  fold times in Etc, Htc. rewrite Etc. cbn [bind]. fold chans.
  assert (Ech : exists cc, get_coord_data KInt chans = Ok cc /\ good_coord cc chans).
  { destruct (Z.eq_dec m 1) as [E1|E1].
    - unfold chans. rewrite E1. change (zrange 1) with [0]. eexists. split; [reflexivity|apply good_one].
    - unfold chans. rewrite zrange_prog. destruct (prog_even KInt 0 1 m) as [c [Ec Hcc]]; [unfold fair_step; lia|lia|].
      exists c. split; [exact Ec|apply good_even; exact Hcc]. }
  destruct Ech as [cc [Ecc Hcc]]. rewrite Ecc. cbn [bind fst snd].
  destruct (good_even _ _ Htc time) as [ts [Es [[Tv Tp] Tl]]]. rewrite Es. cbn [bind].
  destruct (Hcc channel) as [cs [Ecs [[Kv Kp] Kl]]]. rewrite Ecs. cbn [bind].
  assert (Lc : zlen chans = m) by (unfold chans; rewrite zlen_zrange; lia).
  assert (Lt : zlen times = n) by (unfold times; rewrite zlen_progression; lia).
  set (K := kept (wanted channel) chans (sg_traces f)).
  assert (EK : np_index (sg_traces f) (snd cs) = Some K).
  { unfold np_index. fold m. rewrite <- Lc, Kp. apply gather_kept. exact Lc. }
  rewrite EK.
  assert (HK : forall t, In t K -> zlen t = n) by (intros t Hin; apply Ht; eapply kept_In; exact Hin).
  rewrite (traverse_map _ (kept (wanted time) times)).
  2:{ intros t Hin. unfold np_index. rewrite (HK t Hin), <- Lt, Tp. apply gather_kept. rewrite (HK t Hin). exact Lt. }
  set (idx := kept (wanted time) times (zrange n)).
  assert (Lz : zlen times = zlen (zrange n)) by (rewrite zlen_zrange; lia).
  set (k := zlen (filter (wanted time) times)).
  assert (Lidx : zlen idx = k) by (unfold idx; rewrite zlen_kept by exact Lz; reflexivity).
  assert (Cut : forall t, In t K -> kept (wanted time) times t = map (at1 t) idx).
  { intros t Hin. pose proof (list_at t) as Q. rewrite (HK t Hin) in Q. rewrite Q at 1.
    rewrite kept_map. reflexivity. }
  assert (LK : zlen K = zlen (filter (wanted channel) chans)) by (unfold K; apply zlen_kept; exact Lc).
  assert (NK : K <> []).
  { intro E. rewrite E in LK. cbn in LK. apply Hsel. apply zlen_zero. symmetry. exact LK. }
  assert (St : stack_columns (map (kept (wanted time) times) K) =
     Ok (mkGrid (zlen (filter (wanted channel) chans))
          (map (kept (wanted channel) chans) (kept (wanted time) times (of_columns n (sg_traces f)))))).
  { assert (L0 : forall t, In t (map (kept (wanted time) times) K) -> zlen t = k).
    { intros t Hin. apply in_map_iff in Hin. destruct Hin as [t0 [<- Hin]]. rewrite Cut, zlen_map by exact Hin. exact Lidx. }
    assert (S1 : forall l, (forall t, In t l -> zlen t = k) -> l <> [] ->
       stack_columns l = Ok (mkGrid (zlen l) (map (fun i => map (fun t => item t i) l) (zrange k)))).
    { intros l Hl Nl. destruct l as [|t0 tl]; [congruence|]. unfold stack_columns.
      rewrite (Hl t0 (or_introl eq_refl)).
      replace (forallb (fun t => zlen t =? k) (t0 :: tl)) with true; [reflexivity|].
      symmetry. apply forallb_forall. intros x Hx. rewrite (Hl x Hx). apply Z.eqb_refl. }
    rewrite S1; [|exact L0|intro E; apply NK; destruct K; [reflexivity|discriminate]].
    rewrite zlen_map, LK. repeat f_equal.
    unfold of_columns. rewrite kept_map. fold idx. rewrite map_map.
    apply znth_ext_len; [rewrite !zlen_map, zlen_zrange; unfold k in *; pose proof (zlen_nonneg (filter (wanted time) times)); lia|].
    intros j Hj. rewrite zlen_map, zlen_zrange in Hj. rewrite !znth_map, znth_zrange.
    destruct (Z.leb_spec 0 j); [|lia]. destruct (Z.ltb_spec j k); [|lia]. cbn [andb option_map].
    destruct (proj2 (znth_range idx j)) as [i Ei]; [lia|]. rewrite Ei. cbn [option_map]. f_equal.
    rewrite kept_map. fold K. rewrite map_map. apply map_ext_in. intros t Hin.
    rewrite Cut by exact Hin. unfold item. rewrite znth_map, Ei. reflexivity. }
  rewrite St. cbn [bind].
  apply (finish times chans (of_columns n (sg_traces f)) time channel); try assumption; [|reflexivity].
  unfold of_columns. rewrite zlen_map. exact Lz.
Qed.

(** No channel selected. *)
Lemma segy_read_none f time channel : segy_ok f ->
  filter (wanted channel) (zrange (zlen (sg_traces f))) = [] ->
  segy_read f time channel = Err ValueError.
Proof.
  intros [Hi Hc Hne Ht] Hsel. unfold segy_read, segy_coords.
  set (n := sg_count f) in *. set (m := zlen (sg_traces f)) in *. set (chans := zrange m) in *.
  set (times := progression (sg_start f) (1000 * sg_interval f) n).
  assert (Hm : 1 <= m).
  { unfold m. destruct (sg_traces f) as [|x l]; [congruence|]. rewrite zlen_cons. pose proof (zlen_nonneg l). lia. }
  assert (Et0 : map (fun i => sg_start f + sg_interval f * ns_per_us * i) (zrange n) = times).
  { unfold times, progression. apply map_ext. intro i. unfold ns_per_us. lia. }
  rewrite Et0. destruct (prog_even KTime (sg_start f) (1000 * sg_interval f) n) as [tc [Etc Htc]].
  { unfold fair_step. lia. } { exact Hc. }
  fold times in Etc, Htc. rewrite Etc. cbn [bind].
  assert (Ech : exists cc, get_coord_data KInt chans = Ok cc /\ good_coord cc chans).
  { destruct (Z.eq_dec m 1) as [E1|E1].
    - unfold chans. rewrite E1. change (zrange 1) with [0]. eexists. split; [reflexivity|apply good_one].
    - unfold chans. rewrite zrange_prog. destruct (prog_even KInt 0 1 m) as [c [Ec Hcc]]; [unfold fair_step; lia|lia|].
      exists c. split; [exact Ec|apply good_even; exact Hcc]. }
  destruct Ech as [cc [Ecc Hcc]]. rewrite Ecc. cbn [bind fst snd].
  destruct (good_even _ _ Htc time) as [ts [Es [[Tv Tp] Tl]]]. rewrite Es. cbn [bind].
  destruct (Hcc channel) as [cs [Ecs [[Kv Kp] Kl]]]. rewrite Ecs. cbn [bind].
  assert (Lc : zlen chans = m) by (unfold chans; rewrite zlen_zrange; lia).
  unfold np_index at 1. fold m. rewrite <- Lc, Kp.
  assert (P : positions_where (wanted channel) chans = []).
  { apply zlen_zero. rewrite zlen_positions_where, Hsel. reflexivity. }
  rewrite P. reflexivity.
Qed.

(** Writing and reading back. *)
Lemma segy_round r nch rows f : wf_range r -> 2 <= r_len r -> 3 < r_step r < 19999999000 -> 1 <= nch ->
  width nch rows -> zlen rows = r_len r -> segy_write r nch rows = Ok f ->
  exists rd, segy_read f None None = Ok (Some rd) /\
    shows rd (progression (r_min r / 1000000000 * 1000000000) (1000 * round_half_even (r_step r) 1000) (r_len r))
             (zrange nch) rows /\
    Z.abs (1000 * round_half_even (r_step r) 1000 - r_step r) <= 3.
Proof.
  intros W Hl Hs Hn Wd Lr. unfold segy_write. set (us := round_half_even (r_step r) ns_per_us).
  destruct (Z.ltb_spec 3 (Z.abs (us * ns_per_us - r_step r))) as [|Hus]; [discriminate|].
  intro E. injection E as E. unfold ns_per_us in Hus.
  set (f0 := mkSegy (r_min r / ns_per_s * ns_per_s) us (r_len r)
              (map (fun c => map (fun row => item row c) rows) (zrange nch))) in *.
  assert (Lt : zlen (sg_traces f0) = nch) by (cbn; rewrite zlen_map, zlen_zrange; lia).
  assert (Ok0 : segy_ok f0).
  { constructor.
    - cbn. lia.
    - exact Hl.
    - intro E0. rewrite E0 in Lt. cbn in Lt. lia.
    - cbn. intros t Hin. apply in_map_iff in Hin. destruct Hin as [c [<- _]]. rewrite zlen_map. exact Lr. }
  assert (Rows : of_columns (sg_count f0) (sg_traces f0) = rows).
  { cbn [f0 sg_count sg_traces]. unfold of_columns. rewrite <- Lr.
    apply znth_ext_len; [rewrite zlen_map, zlen_zrange; pose proof (zlen_nonneg rows); lia|].
    intros i Hi. rewrite zlen_map, zlen_zrange in Hi. rewrite znth_map, znth_zrange.
    destruct (Z.leb_spec 0 i); [|lia]. destruct (Z.ltb_spec i (zlen rows)); [|lia]. cbn [andb option_map].
    destruct (proj2 (znth_range rows i)) as [row Er]; [lia|]. rewrite Er. f_equal.
    rewrite map_map. rewrite <- (row_items nch row) by (apply Wd; eapply znth_in; exact Er).
    apply map_ext. intro c. rewrite znth_map, Er. reflexivity. }
  destruct (segy_read_ok f0 None None Ok0) as [out [Eo Po]].
  { rewrite Lt. intro E0. assert (F : filter (wanted None) (zrange nch) = zrange nch) by (apply filter_all; reflexivity).
    rewrite F in E0. apply (f_equal (@zlen Z)) in E0. rewrite zlen_zrange in E0. cbn in E0. lia. }
  rewrite <- E, Eo. rewrite Lt, Rows in Po. unfold part_of in Po.
  rewrite !(filter_all (wanted None)) in Po by reflexivity.
  set (times := progression (sg_start f0) (1000 * sg_interval f0) (sg_count f0)) in *.
  assert (Lti : zlen times = zlen rows) by (unfold times; rewrite zlen_progression; cbn; lia).
  destruct out as [rd|].
  - destruct Po as [_ [_ S]]. exists rd. split; [reflexivity|]. split; [|fold ns_per_us; fold us; unfold ns_per_us; lia].
    rewrite (kept_true times rows) in S by exact Lti.
    replace (map (kept (wanted None) (zrange nch)) rows) with rows in S; [exact S|].
    rewrite <- (map_id rows) at 1. apply map_ext_in. intros row Hin. symmetry. apply kept_true.
    rewrite (Wd row Hin), zlen_zrange. lia.
  - exfalso. destruct Po as [Po|Po]; apply (f_equal (@zlen Z)) in Po.
    + rewrite Lti in Po. cbn in Po. lia.
    + rewrite zlen_zrange in Po. cbn in Po. lia.
Qed.

(** ** Sintela binary *)
Lemma sintela_ok header ns nch ps : 0 <= header -> 0 < ns -> 0 < nch ->
  (forall p, In p ps -> zlen (fst p) = header /\ zlen (snd p) = ns /\ width nch (snd p)) ->
  sintela_data header ns nch (concat (map packet_words ps)) = Ok (mkGrid nch (concat (map snd ps))).
Proof.
  intros Hh Hns Hn H. unfold sintela_data.
  destruct (Z.ltb_spec header 0); [lia|]. destruct (Z.leb_spec ns 0); [lia|]. destruct (Z.leb_spec nch 0); [lia|].
  cbn [orb]. set (pk := header + ns * nch). assert (Hpk : 0 < pk) by (unfold pk; nia).
  assert (W : width pk (map packet_words ps)).
  { intros row Hin. apply in_map_iff in Hin. destruct Hin as [p [<- Hin]]. destruct (H p Hin) as [J1 [J2 J3]].
    unfold packet_words. rewrite zlen_app, (concat_len nch), J1, J2 by exact J3. reflexivity. }
  pose proof (reshape_concat pk _ Hpk W) as R. unfold reshape_rows in R.
  destruct (Z.leb_spec pk 0); [lia|].
  destruct (negb (zlen (concat (map packet_words ps)) mod pk =? 0)); [discriminate|].
  injection R as R.
  assert (B : forall l, map (fun b => skipn (Z.to_nat header) (firstn (Z.to_nat pk) (skipn (Z.to_nat (b * pk)) (concat (map packet_words ps))))) l
     = map (skipn (Z.to_nat header)) (map (fun i => firstn (Z.to_nat pk) (skipn (Z.to_nat (i * pk)) (concat (map packet_words ps)))) l)).
  { intro l. rewrite map_map. reflexivity. }
  rewrite B, R. rewrite map_map.
  rewrite (map_ext_in _ (fun p => concat (snd p))).
  - replace (concat (map (fun p : list Z * list (list Z) => concat (snd p)) ps)) with (concat (concat (map snd ps))).
    + apply reshape_concat; [lia|]. intros row Hin. apply in_concat in Hin. destruct Hin as [rows [Hr Hrow]].
      apply in_map_iff in Hr. destruct Hr as [p [<- Hp]]. apply (H p Hp). exact Hrow.
    + clear. induction ps as [|p t IH]; [reflexivity|]. cbn. rewrite concat_app, IH. reflexivity.
  - intros p Hp. unfold packet_words. destruct (H p Hp) as [J1 _].
    rewrite skipn_app. replace (Z.to_nat header) with (length (fst p)) by (unfold zlen in J1; lia).
    rewrite skipn_all, Nat.sub_diag. reflexivity.
Qed.

Lemma sintela_cut header ns nch words : 0 <= header -> 0 < ns -> 0 < nch ->
  (exists g, sintela_data header ns nch words = Ok g) -> zlen words mod (header + ns * nch) = 0.
Proof.
  intros Hh Hns Hn [g E]. revert E. unfold sintela_data.
  destruct (Z.ltb_spec header 0); [lia|]. destruct (Z.leb_spec ns 0); [lia|]. destruct (Z.leb_spec nch 0); [lia|].
  cbn [orb]. destruct (Z.eqb_spec (zlen words mod (header + ns * nch)) 0); [intros; assumption|cbn [negb]; discriminate].
Qed.

(** ** A Febus file *)
Lemma read_febus_ok zs ns dist : Forall2 zone_ok zs ns ->
  exists outs, read_febus zs None dist = Ok (somes outs) /\
    Forall2 (fun zn out => part_of (zone_times (fst zn) (snd zn)) (zone_dists (fst zn))
                             (zone_rows (fst zn) (snd zn)) None dist out) (combine zs ns) outs.
Proof.
  induction 1 as [|z n zs ns Hz _ IH]; [exists []; split; [reflexivity|constructor]|].
  destruct IH as [outs [E P]]. destruct (read_zone_all z n dist Hz) as [out [Eo Po]].
  exists (out :: outs). cbn [read_febus]. rewrite Eo. cbn [bind]. rewrite E. cbn [bind]. split.
  - destruct out; reflexivity.
  - cbn [combine]. constructor; [exact Po|exact P].
Qed.

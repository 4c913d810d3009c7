(** Querying the index, with and without the cache. *)
From Verif Require Import Base BaseFacts FrameModel FrameSpec FrameProofs FrameProofs2 FrameProofs3 FrameProofs4
  FrameProofs5 IndexModel IndexSpec ChunkProofs2.
From Coq Require Import Strings.String Lia ZifyBool.
Local Open Scope Z_scope.

Lemma kernel_query_spec lo hi a b : kernel_query lo hi a b = true <->
  (lo - second < a < hi + second) \/ (lo - second < b < hi + second) \/ (a < lo - second /\ hi + second < b).
Proof. unfold kernel_query. rewrite !Bool.orb_true_iff, !Bool.andb_true_iff, !Z.ltb_lt. tauto. Qed.

Lemma kernel_query_miss lo hi a b : a <= hi -> lo <= b ->
  (kernel_query lo hi a b = false <->
   a <= lo - second /\ hi + second <= b /\ (a = lo - second \/ b = hi + second)).
Proof.
  intros H1 H2. assert (second > 0) by reflexivity.
  rewrite <- Bool.not_true_iff_false, kernel_query_spec. generalize dependent second. intros. lia.
Qed.

Lemma max_min_times_spec t lo hi : max_min_times t = Ok (lo, hi) ->
  lo = default_time small_time (fst t) /\ hi = default_time large_time (snd t) /\ lo <= hi.
Proof.
  unfold max_min_times. destruct (Z.ltb_spec (default_time large_time (snd t)) (default_time small_time (fst t)));
    intros E; [discriminate|]. assert (Ok (default_time small_time (fst t), default_time large_time (snd t)) = Ok (lo, hi)) as E' by exact E.
  inversion E'. subst. auto.
Qed.

Lemma filter_combine_zrange {A} (f : A -> bool) (l : list A) k :
  map snd (filter (fun p => f (snd p)) (combine (map (fun i => i + k) (zrange (zlen l))) l)) = filter f l.
Proof.
  revert k. induction l as [|x l IH]; intros k; [reflexivity|].
  rewrite zrange_cons by (rewrite zlen_cons; pose proof (zlen_nonneg l); lia).
  rewrite zlen_cons. replace (1 + zlen l - 1) with (zlen l) by lia.
  cbn [map combine filter snd]. rewrite map_map.
  replace (map (fun x => x + 1 + k) (zrange (zlen l))) with (map (fun i => i + (1 + k)) (zrange (zlen l)))
    by (apply map_ext; intros; lia).
  destruct (f x); cbn [map snd]; now rewrite IH.
Qed.
Lemma get_index_plain tbl lo hi h :
  (forall k v, In (k, v) h -> k <> "start"%string /\ k <> "stop"%string) ->
  get_index tbl lo hi h = filter (fun r => kernel_query lo hi (row_min r) (row_max r)) tbl.
Proof.
  intros H. unfold get_index.
  assert (A : forall k, k = "start"%string \/ k = "stop"%string -> assoc k h = None).
  { intros k Hk. induction h as [|[k' v] h IH]; [reflexivity|]. cbn [assoc].
    destruct (String.eqb_spec k k') as [->|].
    - destruct (H k' v (or_introl eq_refl)). tauto.
    - apply IH. intros. eapply H. right; eauto. }
  assert (B : forall i, in_rows h i = true).
  { intros i. unfold in_rows, hdf_bound. rewrite !A by auto. reflexivity. }
  rewrite <- (filter_combine_zrange _ tbl 0).
  replace (map (fun i => i + 0) (zrange (zlen tbl))) with (zrange (zlen tbl))
    by (rewrite <- (map_id (zrange (zlen tbl))) at 1; apply map_ext; intros; lia).
  f_equal. apply filter_ext. intros p. now rewrite B.
Qed.

Lemma time_not_suffixed base suf : suf = "_max"%string \/ suf = "_min"%string -> "time"%string <> append base suf.
Proof.
  intros Hs E. destruct base as [|c base].
  - destruct Hs; subst; discriminate.
  - apply (f_equal String.length) in E. rewrite slen_app in E. destruct Hs; subst; cbn in E; lia.
Qed.
Lemma plain_time : plain_key "time"%string.
Proof.
  intros suf a b Hs E [base Hb]. now apply time_not_suffixed in Hb.
Qed.

Lemma filter_filter {A} (p q : A -> bool) l : filter p (filter q l) = filter (fun x => q x && p x) l.
Proof. induction l as [|x l IH]; cbn; auto. destruct (q x); cbn; [destruct (p x)|]; now rewrite ?IH. Qed.

Lemma covers_row r s e : covers r s e -> row_min r = s /\ row_max r = e.
Proof. intros [H1 H2]. unfold row_min, row_max, int_cell, val in *. now rewrite H1, H2. Qed.

Lemma trim_index_spec cols rows lo hi kw out :
  index_table cols rows -> filter_keywords cols kw -> lo <= hi ->
  trim_index cols rows lo hi kw = Ok out ->
  exists P, out = filter P rows /\ forall r, In r rows -> (P r = true <-> answers cols lo hi kw r).
Proof.
  intros (Hmin & Hmax & Hnt & Hrows) Hkw Hlh H. unfold trim_index in H.
  destruct (filter_df _ _ _ _) as [m|] eqn:E in H; [|discriminate]. cbn [bind] in H.
  apply filter_df_rows in E.
  2:{ intros k v [Hin|Hin] Hc; [injection Hin as <- _; apply plain_time|]. now apply (Hkw k v Hin). }
  destruct E as (P & -> & HP). rewrite keep_rows_filter, filter_filter in H. injection H as <-.
  eexists. split; [reflexivity|]. intros r Hr. cbn beta.
  destruct (Hrows r Hr) as (s & e & Hc). destruct (covers_row _ _ _ Hc) as [-> ->].
  assert (Ht : meets cols r "time" (QColl [ICell (VInt lo); ICell (VInt hi)]) <-> (s <= hi /\ lo <= e)).
  { unfold meets. destruct Hc as [Hc1 Hc2]. split.
    - intros (_ & _ & _ & M). 
      destruct (M Hnt) with (a := ICell (VInt lo)) (b := ICell (VInt hi)) as (s' & e' & S1 & S2 & S3 & S4); auto.
      + intros base. apply time_not_suffixed. auto.
      + intros base. apply time_not_suffixed. auto.
      + cbn in S1, S2. rewrite Hc1 in S1. rewrite Hc2 in S2. injection S1 as <-. injection S2 as <-.
        specialize (S3 _ eq_refl). specialize (S4 _ eq_refl). lia.
    - intros [L1 L2]. split; [tauto|]. split; [|split].
      + intros _ base Hb. apply time_not_suffixed in Hb; [contradiction|auto].
      + intros _ base Hb. apply time_not_suffixed in Hb; [contradiction|auto].
      + intros _ _ _ _ _ a b Eab. injection Eab as <- <-. exists s, e. split; [auto|]. split; [auto|].
        split; intros x ->; lia. }
  assert (Sec : second > 0) by reflexivity.
  rewrite Bool.andb_true_iff, Bool.negb_true_iff, Bool.orb_false_iff, !Z.leb_gt. split.
  - intros [Hpre HPr].
    assert (Hin0 : In r (filter (fun r => negb ((hi + second <=? row_min r) || (row_max r <=? lo - second))) rows)).
    { apply filter_In. split; auto. destruct (covers_row _ _ _ Hc) as [-> ->].
        rewrite Bool.negb_true_iff, Bool.orb_false_iff, !Z.leb_gt. auto. }
    rewrite (HP r Hin0) in HPr.
    split.
    + exists s, e. split; auto. apply Ht. apply HPr. now left.
    + intros k v Hin. apply HPr. now right.
  - intros [(s' & e' & Hc' & L1 & L2) Hk].
    assert (s' = s /\ e' = e) as [-> ->].
    { destruct (covers_row _ _ _ Hc), (covers_row _ _ _ Hc'). lia. }
    assert (Pre : s < hi + second /\ lo - second < e) by lia. split; [auto|].
    apply HP.
    + apply filter_In. split; auto. destruct (covers_row _ _ _ Hc) as [-> ->].
      rewrite Bool.negb_true_iff, Bool.orb_false_iff, !Z.leb_gt. auto.
    + intros k v [Hin|Hin]; [injection Hin as <- <-; now apply Ht|auto].
Qed.

(** ** The cache *)
Lemma zlen_set_slot {A} (l : list A) i x : zlen (set_slot l i x) = zlen l.
Proof.
  unfold set_slot. rewrite zlen_map, zlen_combine, zlen_zrange. pose proof (zlen_nonneg l). lia.
Qed.
Lemma znth_set_slot {A} (l : list A) i x j :
  znth (set_slot l i x) j = if (j =? i) && (0 <=? i) && (i <? zlen l) then Some x else znth l j.
Proof.
  unfold set_slot. rewrite znth_map, znth_combine, znth_zrange.
  destruct (Z.leb_spec 0 j), (Z.ltb_spec j (zlen l)); cbn [andb].
  - destruct (proj2 (znth_range l j)) as [y Hy]; [lia|]. rewrite Hy. cbn [option_map fst snd].
    destruct (Z.eqb_spec j i) as [->|]; cbn [andb]; auto.
    destruct (Z.leb_spec 0 i); [|lia]. destruct (Z.ltb_spec i (zlen l)); [|lia]. reflexivity.
  - replace (znth l j) with (@None A) by (symmetry; apply znth_none; lia). cbn [option_map].
    destruct (Z.eqb_spec j i) as [->|]; cbn [andb]; auto.
    destruct (Z.leb_spec 0 i); cbn [andb]; auto. destruct (Z.ltb_spec i (zlen l)); auto; lia.
  - replace (znth l j) with (@None A) by (symmetry; apply znth_none; lia). cbn [option_map].
    destruct (Z.eqb_spec j i) as [->|]; cbn [andb]; auto. destruct (Z.leb_spec 0 i); cbn [andb]; auto; lia.
  - replace (znth l j) with (@None A) by (symmetry; apply znth_none; lia). cbn [option_map].
    destruct (Z.eqb_spec j i) as [->|]; cbn [andb]; auto. destruct (Z.leb_spec 0 i); cbn [andb]; auto; lia.
Qed.
Lemma in_set_slot {A} (l : list A) i x y : In y (set_slot l i x) -> y = x \/ In y l.
Proof.
  intros H. apply in_znth in H. destruct H as [j Hj]. rewrite znth_set_slot in Hj.
  destruct ((j =? i) && (0 <=? i) && (i <? zlen l)); [left; congruence|].
  right. eapply znth_in; eauto.
Qed.

(** Every cached entry is what the table would give now. *)
Definition cache_fresh (tbl : list frow) (c : cache) : Prop :=
  forall e, In (Some e) (c_slots c) ->
    e_rows e = get_index tbl (e_t1 e) (e_t2 e) (e_kw e) /\ forall k v, In (k, v) (e_kw e) -> hdf_option k.

Lemma cell_same_spec a b : cell_same a b = true <-> a = b.
Proof.
  destruct a, b; cbn; try (split; congruence).
  - rewrite Z.eqb_eq. split; congruence.
  - rewrite String.eqb_eq. split; congruence.
Qed.
Lemma list_same_spec {A} (eqb : A -> A -> bool) (H : forall a b, eqb a b = true <-> a = b) a :
  forall b, list_same eqb a b = true <-> a = b.
Proof.
  induction a as [|x a IH]; intros [|y b]; cbn; try (split; congruence).
  rewrite Bool.andb_true_iff, H, IH. split; [intros [-> ->]; auto|]. intros E. injection E as -> ->. auto.
Qed.
Lemma item_same_spec a b : item_same a b = true <-> a = b.
Proof. destruct a, b; cbn; try (split; congruence). rewrite cell_same_spec. split; congruence. Qed.
Lemma qval_same_spec a b : qval_same a b = true <-> a = b.
Proof.
  destruct a, b; cbn; try (split; congruence).
  - rewrite cell_same_spec. split; congruence.
  - rewrite (list_same_spec _ item_same_spec). split; congruence.
Qed.
Lemma kwargs_same_spec a b : kwargs_same a b = true <-> a = b.
Proof.
  apply list_same_spec. intros [k v] [k' v']. cbn. rewrite Bool.andb_true_iff, String.eqb_eq, qval_same_spec.
  split; [intros [-> ->]; auto|]. intros E. injection E as -> ->. auto.
Qed.

Lemma cache_lookup_spec c lo hi kw rows : cache_lookup c lo hi kw = Some rows ->
  exists e, In (Some e) (c_slots c) /\ e_t1 e <= lo /\ hi <= e_t2 e /\ e_kw e = kw /\ e_rows e = rows.
Proof.
  unfold cache_lookup. destruct (find _ _) as [[e|]|] eqn:F; try discriminate.
  intros H. injection H as <-. apply find_some in F. destruct F as [Hin Hh]. cbn in Hh.
  rewrite !Bool.andb_true_iff, !Z.leb_le, kwargs_same_spec in Hh. exists e. tauto.
Qed.

Lemma cache_fresh_empty tbl n : cache_fresh tbl (empty_cache n).
Proof. intros e H. apply in_map_iff in H. destruct H as (? & ? & _). discriminate. Qed.
Lemma cache_fresh_query cols tbl c q : proper_query cols q -> cache_fresh tbl c ->
  cache_fresh tbl (snd (get_contents cols tbl c q)).
Proof.
  intros [_ Hq] H. unfold get_contents. destruct (max_min_times (q_time q)) as [[lo hi]|]; [|exact H].
  destruct (cache_lookup c lo hi (q_kw q)); [exact H|]. cbn [snd].
  intros e He. cbn in He. apply in_set_slot in He. destruct He as [He|He]; [|auto].
  injection He as ->. cbn. auto.
Qed.
Lemma cache_fresh_clear tbl c : cache_fresh tbl (clear_cache c).
Proof. intros e H. apply in_map_iff in H. destruct H as (? & ? & _). discriminate. Qed.
Lemma cache_fresh_run cols l : forall s, own_history cols l -> cache_fresh (x_tbl s) (x_cache s) ->
  cache_fresh (x_tbl (ixrun cols s l)) (x_cache (ixrun cols s l)).
Proof.
  induction l as [|o l IH]; intros s Hl H; [exact H|]. cbn [ixrun fold_left].
  apply IH; [intros o' Ho'; apply Hl; now right|].
  specialize (Hl o (or_introl eq_refl)). destruct o as [q|[|r rows]|rows]; cbn [ixstep x_tbl x_cache].
  - now apply cache_fresh_query.
  - exact H.
  - apply cache_fresh_clear.
  - destruct Hl.
Qed.

Lemma index_table_filter cols tbl p : index_table cols tbl -> index_table cols (filter p tbl).
Proof.
  intros (A & B & C & D). repeat split; auto. intros r Hr. apply filter_In in Hr. now apply D.
Qed.

(** A lookup that misses the cache. *)
Lemma get_contents_miss cols tbl c q lo hi out c' :
  index_table cols tbl -> filter_keywords cols (q_kw q) -> q_hdf q = [] ->
  max_min_times (q_time q) = Ok (lo, hi) ->
  cache_lookup c lo hi (q_kw q) = None ->
  get_contents cols tbl c q = (Ok out, c') ->
  exists P, out = filter P tbl /\
    forall r, In r tbl -> (P r = true <-> answers cols lo hi (q_kw q) r /\ ~ on_edge lo hi r).
Proof.
  intros Ht Hk Hh Em El H. unfold get_contents in H. rewrite Em, El in H.
  assert (Hg : get_index tbl lo hi (q_hdf q) = filter (fun r => kernel_query lo hi (row_min r) (row_max r)) tbl)
    by (apply get_index_plain; rewrite Hh; intros ? ? []).
  rewrite Hg in H.
  assert (H' : trim_index cols (filter (fun r => kernel_query lo hi (row_min r) (row_max r)) tbl) lo hi (q_kw q) = Ok out) by congruence.
  apply trim_index_spec in H'; auto using index_table_filter.
  2:{ apply max_min_times_spec in Em. tauto. }
  destruct H' as (P & -> & HP). rewrite filter_filter. eexists. split; [reflexivity|].
  intros r Hr. cbn beta. rewrite Bool.andb_true_iff.
  destruct (proj2 (proj2 (proj2 Ht)) r Hr) as (s & e & Hc). destruct (covers_row _ _ _ Hc) as [E1 E2].
  split.
  - intros [K Q]. pose proof (proj1 (HP r (proj2 (filter_In _ _ _) (conj Hr K))) Q) as Q'. split; [auto|].
    destruct Q' as [(s' & e' & Hc' & L1 & L2) _].
    intros (s2 & e2 & Hc2 & M). destruct (covers_row _ _ _ Hc') as [F1 F2]. destruct (covers_row _ _ _ Hc2) as [G1 G2].
    rewrite F1, F2 in K. assert (kernel_query lo hi s' e' = false); [|congruence].
    apply kernel_query_miss; auto. lia.
  - intros [A B]. assert (K : kernel_query lo hi (row_min r) (row_max r) = true).
    { destruct (kernel_query lo hi (row_min r) (row_max r)) eqn:K; auto. exfalso. apply B.
      destruct A as [(s' & e' & Hc' & L1 & L2) _]. destruct (covers_row _ _ _ Hc') as [F1 F2].
      rewrite F1, F2 in K. apply kernel_query_miss in K; auto. exists s', e'. auto. }
    split; [auto|]. apply HP; auto. apply filter_In. auto.
Qed.

(** A lookup answered by a fresh cache. *)
Lemma hdf_disjoint cols kw : filter_keywords cols kw -> (forall k v, In (k, v) kw -> hdf_option k) -> kw = [].
Proof.
  intros H1 H2. destruct kw as [|[k v] kw]; auto. exfalso.
  destruct (H1 k v (or_introl eq_refl)) as [N _]. apply N. eapply H2. left; reflexivity.
Qed.
Lemma get_contents_hit cols tbl c q lo hi rows out c' :
  index_table cols tbl -> proper_query cols q -> cache_fresh tbl c ->
  max_min_times (q_time q) = Ok (lo, hi) ->
  cache_lookup c lo hi (q_kw q) = Some rows ->
  get_contents cols tbl c q = (Ok out, c') ->
  q_kw q = [] /\ c' = c /\
  exists P, out = filter P tbl /\
    (forall r, In r tbl -> P r = true -> answers cols lo hi (q_kw q) r) /\
    (forall r, In r tbl -> answers cols lo hi (q_kw q) r -> ~ sticks_out lo hi r -> P r = true).
Proof.
  intros Ht [Hk _] Hf Em El H. unfold get_contents in H. rewrite Em, El in H.
  apply cache_lookup_spec in El. destruct El as (e & He & T1 & T2 & Ek & <-).
  destruct (Hf e He) as [Er Eh]. rewrite Ek in Eh.
  assert (Q : q_kw q = []) by (eapply hdf_disjoint; eauto).
  split; [auto|]. split; [congruence|].
  rewrite Q in Ek. rewrite Ek in Er. rewrite get_index_plain in Er by (intros ? ? []).
  rewrite Er in H.
  assert (H' : trim_index cols (filter (fun r => kernel_query (e_t1 e) (e_t2 e) (row_min r) (row_max r)) tbl) lo hi (q_kw q) = Ok out) by congruence.
  apply trim_index_spec in H'; auto using index_table_filter.
  2:{ apply max_min_times_spec in Em. tauto. }
  destruct H' as (P & -> & HP). rewrite filter_filter. eexists. split; [reflexivity|]. split.
  - intros r Hr HPr. apply Bool.andb_true_iff in HPr. destruct HPr as [K Q']. apply (HP r (proj2 (filter_In _ _ _) (conj Hr K))). exact Q'.
  - intros r Hr A B. apply Bool.andb_true_iff.
    assert (K : kernel_query (e_t1 e) (e_t2 e) (row_min r) (row_max r) = true).
    { destruct (kernel_query (e_t1 e) (e_t2 e) (row_min r) (row_max r)) eqn:K; auto. exfalso. apply B.
      destruct A as [(s' & e' & Hc' & L1 & L2) _]. destruct (covers_row _ _ _ Hc') as [F1 F2].
      rewrite F1, F2 in K. apply kernel_query_miss in K; [|lia|lia]. exists s', e'. split; [auto|]. lia. }
    split; [auto|]. apply HP; auto. apply filter_In. auto.
Qed.

Lemma edge_sticks_out lo hi r : on_edge lo hi r -> sticks_out lo hi r.
Proof. intros (s & e & ? & ? & ? & _). exists s, e. auto. Qed.

(** After any history of this indexer. *)
Lemma get_contents_history cols tbl0 size l q lo hi out :
  own_history cols l -> proper_query cols q -> q_hdf q = [] ->
  let s := ixrun cols (mkIx tbl0 (empty_cache size)) l in
  index_table cols (x_tbl s) ->
  max_min_times (q_time q) = Ok (lo, hi) ->
  fst (get_contents cols (x_tbl s) (x_cache s) q) = Ok out ->
  exists P, out = filter P (x_tbl s) /\
    (forall r, In r (x_tbl s) -> P r = true -> answers cols lo hi (q_kw q) r) /\
    (forall r, In r (x_tbl s) -> answers cols lo hi (q_kw q) r -> ~ sticks_out lo hi r -> P r = true).
Proof.
  intros Hl Hq Hh s Ht Em Hg.
  assert (Hf : cache_fresh (x_tbl s) (x_cache s)) by (apply cache_fresh_run; auto; apply cache_fresh_empty).
  destruct (get_contents cols (x_tbl s) (x_cache s) q) as [res c'] eqn:G. cbn in Hg. subst res.
  destruct (cache_lookup (x_cache s) lo hi (q_kw q)) as [rows|] eqn:El.
  - destruct (get_contents_hit _ _ _ _ _ _ _ _ _ Ht Hq Hf Em El G) as (_ & _ & H). exact H.
  - destruct Hq as [Hk _]. destruct (get_contents_miss _ _ _ _ _ _ _ _ Ht Hk Hh Em El G) as (P & -> & HP).
    exists P. split; [auto|]. split.
    + intros r Hr H. now apply HP.
    + intros r Hr A B. apply HP; auto. split; auto. intros E. now apply B, edge_sticks_out.
Qed.

Lemma filter_ext_in' {A} (p q : A -> bool) l : (forall x, In x l -> (p x = true <-> q x = true)) -> filter p l = filter q l.
Proof.
  intros H. apply filter_ext_in. intros x Hx. specialize (H x Hx). destruct (p x), (q x); intuition congruence.
Qed.

(** With no row reaching beyond both ends, the cache cannot be noticed. *)
Lemma get_contents_cache_transparent cols tbl0 size l q lo hi out out' c :
  own_history cols l -> proper_query cols q -> q_hdf q = [] ->
  let s := ixrun cols (mkIx tbl0 (empty_cache size)) l in
  index_table cols (x_tbl s) ->
  max_min_times (q_time q) = Ok (lo, hi) ->
  (forall r, In r (x_tbl s) -> ~ sticks_out lo hi r) ->
  fst (get_contents cols (x_tbl s) (x_cache s) q) = Ok out ->
  cache_lookup c lo hi (q_kw q) = None ->
  fst (get_contents cols (x_tbl s) c q) = Ok out' ->
  out = out'.
Proof.
  intros Hl Hq Hh s Ht Em Hn G1 Hc G2.
  destruct (get_contents_history _ _ _ _ _ _ _ _ Hl Hq Hh Ht Em G1) as (P & -> & H1 & H2).
  fold s in H1, H2.
  destruct (get_contents cols (x_tbl s) c q) as [res c'] eqn:G. cbn in G2. subst res.
  destruct Hq as [Hk _]. destruct (get_contents_miss _ _ _ _ _ _ _ _ Ht Hk Hh Em Hc G) as (P' & -> & HP').
  apply filter_ext_in'. intros r Hr. split.
  - intros H. apply HP'; auto. split; [auto|]. intros E. apply (Hn r Hr). now apply edge_sticks_out.
  - intros H. apply HP' in H; auto. apply H2; auto. tauto.
Qed.

(** The ring of slots. *)
Lemma set_cache_spec c e : 0 <= c_pos c < zlen (c_slots c) ->
  let c' := set_cache c e in
  zlen (c_slots c') = zlen (c_slots c) /\ 0 <= c_pos c' < zlen (c_slots c') /\
  c_pos c' = (c_pos c + 1) mod zlen (c_slots c) /\
  znth (c_slots c') (c_pos c') = Some (Some e) /\
  forall j, j <> c_pos c' -> znth (c_slots c') j = znth (c_slots c) j.
Proof.
  intros H c'. subst c'. unfold set_cache. cbn [c_slots c_pos]. rewrite zlen_set_slot.
  assert (N : next_pos c = (c_pos c + 1) mod zlen (c_slots c) /\ 0 <= next_pos c < zlen (c_slots c)).
  { unfold next_pos. destruct (Z.eqb_spec (c_pos c) (zlen (c_slots c) - 1)) as [E|E].
    - rewrite E. replace (zlen (c_slots c) - 1 + 1) with (zlen (c_slots c)) by lia. rewrite Z.mod_same by lia. lia.
    - rewrite Z.mod_small by lia. lia. }
  destruct N as [N1 N2]. split; [auto|]. split; [auto|]. split; [auto|]. split.
  - rewrite znth_set_slot, Z.eqb_refl. destruct (Z.leb_spec 0 (next_pos c)); [|lia].
    destruct (Z.ltb_spec (next_pos c) (zlen (c_slots c))); [|lia]. reflexivity.
  - intros j Hj. rewrite znth_set_slot. destruct (Z.eqb_spec j (next_pos c)); [contradiction|]. reflexivity.
Qed.

Lemma cache_hit_exists c lo hi kw e : In (Some e) (c_slots c) -> e_t1 e <= lo -> hi <= e_t2 e -> e_kw e = kw ->
  exists rows, cache_lookup c lo hi kw = Some rows.
Proof.
  intros He T1 T2 K. unfold cache_lookup. destruct (find _ _) as [[e'|]|] eqn:F; eauto.
  - apply find_some in F. destruct F as [_ F]. discriminate.
  - exfalso. eapply find_none in F; eauto. cbn in F.
    rewrite (proj2 (kwargs_same_spec _ _) K) in F. lia.
Qed.
Lemma cache_slots_valid cols q tbl c : 0 <= c_pos c < zlen (c_slots c) ->
  let c' := snd (get_contents cols tbl c q) in
  zlen (c_slots c') = zlen (c_slots c) /\ 0 <= c_pos c' < zlen (c_slots c').
Proof.
  intros H c'. subst c'. unfold get_contents. destruct (max_min_times (q_time q)) as [[lo hi]|]; [|auto].
  destruct (cache_lookup c lo hi (q_kw q)); [auto|]. cbn [snd].
  destruct (set_cache_spec c (mkEntry lo hi (q_hdf q) (get_index tbl lo hi (q_hdf q))) H) as (A & B & _). auto.
Qed.
(** Asking again without keywords is answered from the cache. *)
Lemma get_contents_repeat cols tbl c q lo hi : 0 <= c_pos c < zlen (c_slots c) ->
  max_min_times (q_time q) = Ok (lo, hi) -> q_kw q = [] -> q_hdf q = [] ->
  let c' := snd (get_contents cols tbl c q) in
  exists rows, cache_lookup c' lo hi [] = Some rows /\
    (cache_lookup c lo hi [] = None -> forall q' lo' hi', q_kw q' = [] -> lo <= lo' -> hi' <= hi ->
       exists rows', cache_lookup c' lo' hi' [] = Some rows').
Proof.
  intros Hp Em Hk Hh c'. subst c'. unfold get_contents. rewrite Em, Hk, Hh.
  destruct (cache_lookup c lo hi []) as [rows|] eqn:El; cbn [snd].
  - exists rows. split; [auto|]. discriminate.
  - destruct (set_cache_spec c (mkEntry lo hi [] (get_index tbl lo hi [])) Hp) as (_ & _ & _ & A & _).
    apply znth_in in A.
    destruct (cache_hit_exists _ lo hi [] _ A) as [rows Hrows]; cbn; try lia; auto.
    exists rows. split; [exact Hrows|]. intros _ q' lo' hi' _ L1 L2.
    eapply cache_hit_exists; eauto.
Qed.
(** A query with filter keywords is never answered from the cache. *)
Lemma get_contents_keywords_miss cols tbl0 size l q lo hi :
  own_history cols l -> proper_query cols q -> q_kw q <> [] ->
  let s := ixrun cols (mkIx tbl0 (empty_cache size)) l in
  cache_lookup (x_cache s) lo hi (q_kw q) = None.
Proof.
  intros Hl [Hq _] Hk s.
  assert (Hf : cache_fresh (x_tbl s) (x_cache s)) by (apply cache_fresh_run; auto; apply cache_fresh_empty).
  destruct (cache_lookup (x_cache s) lo hi (q_kw q)) as [rows|] eqn:El; auto. exfalso. apply Hk.
  apply cache_lookup_spec in El. destruct El as (e & He & _ & _ & Ek & _).
  destruct (Hf e He) as [_ Eh]. rewrite Ek in Eh. eapply hdf_disjoint; eauto.
Qed.

(** Sorting any spool, splitting, chunked spools, contents. *)
From Verif Require Import Base BaseFacts CoordModel CoordSpec FrameModel ChunkModel FrameSpec FrameProofs FrameProofs2
  FrameProofs3 FrameProofs5 CmProofs SpoolModel SpoolSpec SpoolProofs SpoolProofs2 SpoolProofs3 SpoolProofs5.
From Verif Require ChunkProofs4.
From Coq Require Import Strings.String Lia Sorting.Permutation Sorting.Sorted.
Local Open Scope Z_scope.
Local Open Scope list_scope.

(** ** Sorting *)

Lemma dd_map (h : part -> part) l : forall seen,
  (forall a b, In a (l ++ seen) -> In b (l ++ seen) -> part_eqb (h a) (h b) = part_eqb a b) ->
  drop_dups (map h seen) (map h l) = map h (drop_dups seen l).
Proof.
  induction l as [|x l IH]; intros seen H; cbn [drop_dups map]; auto.
  assert (existsb (part_eqb (h x)) (map h seen) = existsb (part_eqb x) seen) as ->.
  { assert (G : forall y, In y seen -> part_eqb (h x) (h y) = part_eqb x y).
    { intros y Hy. apply H; [left; auto|right; apply in_or_app; auto]. }
    clear -G. induction seen as [|y t IHt]; cbn; auto. rewrite G by (left; auto). f_equal. apply IHt. intros; apply G; right; auto. }
  destruct (existsb _ seen).
  - apply IH. intros a b Ha Hb. apply H; right; auto.
  - cbn [map]. f_equal. rewrite <- IH; [reflexivity|].
    intros a b Ha Hb. apply H; (apply in_app_or in Ha, Hb; cbn [In] in Ha, Hb; cbn; rewrite !in_app_iff; tauto).
Qed.

Lemma filter_relabel labels ins j lb : NoDup labels -> znth labels j = Some lb ->
  filter (cur_is j) (map (relabel labels) ins) = map (relabel labels) (filter (cur_is lb) ins).
Proof.
  intros N Z. induction ins as [|r ins IH]; cbn; auto. rewrite IH.
  assert (cur_is j (relabel labels r) = cur_is lb r) as ->; [|destruct (cur_is lb r); auto].
  apply Bool.eq_iff_eq_true. rewrite !cur_is_spec. unfold relabel. cbn [n_cur].
  destruct (n_cur r) as [c|]; [|split; discriminate]. split.
  - intros H. apply position_spec in H. congruence.
  - intros [= ->]. now apply position_nth.
Qed.

Lemma map_result_join_relabel src h rows : (forall r, n_src (h r) = n_src r) ->
  map_result (join_one src) (map h rows) =
  match map_result (join_one src) rows with
  | Ok l => Ok (map (map (fun x => (h (fst x), snd x))) l)
  | Err e => Err e
  end.
Proof.
  intros E. induction rows as [|r rows IH]; cbn [map map_result]; auto.
  unfold join_one at 1 3. rewrite E. destruct (filter _ src) as [|y t]; auto. cbn [bind].
  rewrite IH. destruct (map_result (join_one src) rows); auto. cbn [bind map fst snd]. rewrite map_map. reflexivity.
Qed.

Lemma join_fst src r l x : join_one src r = Ok l -> In x l -> fst x = r.
Proof.
  unfold join_one. destruct (filter _ src) as [|y t]; [discriminate|]. intros E H.
  assert (l = map (fun z => (r, snd z)) (y :: t)) as -> by congruence.
  apply in_map_iff in H as (z & <- & _). reflexivity.
Qed.
Lemma joined_cur s lb l x : joined s lb = Ok l -> In x l -> n_cur (fst x) = Some lb /\ In (fst x) (sp_ins s).
Proof.
  unfold joined. destruct (filter (cur_is lb) (sp_ins s)) as [|r t] eqn:F; [discriminate|]. rewrite <- F.
  destruct (map_result _ _) as [ll|] eqn:M; [|discriminate]. cbn [bind]. intros [= <-] H.
  apply in_concat in H as (q & Hq & Hx).
  destruct (ChunkProofs4.map_result_in _ _ _ _ M Hq) as (r0 & Hr & Hj).
  apply filter_In in Hr as [Hr Hc]. rewrite (join_fst _ _ _ _ Hj Hx). split; auto. now apply cur_is_spec.
Qed.

Theorem sort_parts argsort s attr s' : valid_argsort argsort -> sp_sort argsort s attr = Ok s' ->
  exists ps, Permutation ps (zrange (sp_len s)) /\ sp_len s' = sp_len s /\
  forall j p, znth ps j = Some p ->
    option_map snd (znth (sp_df s') j) = option_map snd (znth (sp_df s) p) /\
    sp_parts s' j = do l <- sp_parts s p; Ok (map (with_cur j) l).
Proof.
  intros VA H. unfold sp_sort in H.
  destruct (sort_column s attr) as [col|] eqn:C; [|discriminate]. cbn [bind] in H.
  destruct (ints_of _) as [keys|] eqn:K; [|discriminate].
  destruct (gather (sp_df s) (argsort keys)) as [rows|] eqn:G; [|discriminate].
  destruct (dup_labels _) eqn:D; [discriminate|]. injection H as <-.
  apply dup_labels_false in D. apply ints_of_spec in K.
  destruct (VA keys) as (P & _).
  assert (Lk : zlen keys = zlen (sp_df s)).
  { rewrite <- (zlen_map VInt keys), <- K. unfold column. now rewrite !zlen_map. }
  rewrite Lk in P.
  assert (Lr : zlen rows = zlen (sp_df s)).
  { apply gather_some_len in G. rewrite G. unfold zlen at 1. rewrite (Permutation_length P).
    change (zlen (zrange (zlen (sp_df s))) = zlen (sp_df s)). rewrite zlen_zrange.
    pose proof (zlen_nonneg (sp_df s)). lia. }
  assert (Lz : zlen (zrange (zlen rows)) = zlen rows) by (rewrite zlen_zrange; pose proof (zlen_nonneg rows); lia).
  exists (argsort keys). split; auto. split.
  { unfold sp_len. cbn [sp_df]. rewrite zlen_combine; rewrite zlen_map; auto. }
  intros j p Hj. apply items_at_gather in G. destruct (Forall2_znth _ _ _ G _ _ Hj) as ([lb row] & Y1 & Y2).
  pose proof (znth_some _ _ _ Y1) as Rj. pose proof (znth_some _ _ _ Y2) as Rp.
  assert (Zd : znth (combine (zrange (zlen rows)) (map snd rows)) j = Some (j, row)).
  { apply znth_combine. split.
    - rewrite znth_zrange. destruct ((0 <=? j) && (j <? zlen rows)) eqn:B; auto. apply Bool.andb_false_iff in B. lia.
    - rewrite znth_map, Y1. reflexivity. }
  cbn [sp_df]. rewrite Zd, Y2. split; auto.
  rewrite (sp_parts_joined _ j j row) by (auto; lia). rewrite (sp_parts_joined s p lb row) by (auto; lia).
  pose proof (joined_cur s lb) as JC.
  unfold joined at 1. cbn [sp_ins sp_src].
  assert (Zl : znth (map fst rows) j = Some lb) by (rewrite znth_map, Y1; reflexivity).
  rewrite (filter_relabel _ _ _ _ D Zl).
  unfold joined at 1. unfold joined in JC. destruct (filter (cur_is lb) (sp_ins s)) as [|r0 t0] eqn:F; auto.
  cbn [map]. change (relabel (map fst rows) r0 :: map (relabel (map fst rows)) t0) with (map (relabel (map fst rows)) (r0 :: t0)).
  rewrite (map_result_join_relabel (sp_src s) (relabel (map fst rows))) by reflexivity.
  destruct (map_result (join_one (sp_src s)) (r0 :: t0)) as [ll|]; auto. cbn [bind] in *. f_equal.
  assert (JC' := fun x => JC (List.concat ll) x eq_refl). clear JC.
  rewrite <- concat_map.
  assert (E : forall x, In x (List.concat ll) -> (relabel (map fst rows) (fst x), snd x) = with_cur j x).
  { intros x Hx. destruct (JC' x Hx) as [Hc _]. unfold with_cur, relabel. rewrite Hc.
    now rewrite (position_nth _ _ _ D Zl). }
  match goal with |- dedup ?m = _ => replace m with (map (with_cur j) (List.concat ll)) by (symmetry; apply map_ext_in; exact E) end.
  unfold dedup. rewrite zlen_map. destruct (10 <? zlen (List.concat ll)); auto.
  change (@nil part) with (map (with_cur j) []). rewrite dd_map; auto.
  intros a b Ha Hb. rewrite app_nil_r in Ha, Hb. destruct (JC' a Ha) as [Ca _], (JC' b Hb) as [Cb _].
  unfold part_eqb, with_cur. cbn [fst snd n_cur n_row]. rewrite Ca, Cb. cbn [opt_eqb]. now rewrite !Z.eqb_refl.
Qed.

Lemma sort_refuses argsort s attr :
  (~ In attr (sp_cols s) /\ ~ In (append attr "_min") (sp_cols s) -> sp_sort argsort s attr = Err IndexError) /\
  (valid_argsort argsort -> forall col keys, sort_column s attr = Ok col ->
     column (map snd (sp_df s)) col = map VInt keys -> ~ NoDup (map fst (sp_df s)) ->
     sp_sort argsort s attr = Err ValueError).
Proof.
  split.
  - intros [A B]. unfold sp_sort, sort_column.
    rewrite (proj2 (mem_false attr (sp_cols s)) A), (proj2 (mem_false _ (sp_cols s)) B). reflexivity.
  - intros VA col keys C K N. unfold sp_sort. rewrite C. cbn [bind]. rewrite K.
    assert (ints_of (map VInt keys) = Some keys) as -> by (clear; induction keys; cbn; [auto|now rewrite IHkeys]).
    destruct (VA keys) as (P & _).
    assert (Lk : zlen keys = zlen (sp_df s)).
    { rewrite <- (zlen_map VInt keys), <- K. unfold column. now rewrite !zlen_map. }
    rewrite Lk in P.
    assert (exists rows, gather (sp_df s) (argsort keys) = Some rows) as [rows G].
    { apply gather_ok. intros i Hi. apply (Permutation_in _ P) in Hi. now apply in_zrange in Hi. }
    rewrite G. destruct (dup_labels (map fst rows)) eqn:D; auto. apply dup_labels_false in D.
    exfalso. apply N. eapply Permutation_NoDup; [|exact D]. apply Permutation_map. symmetry.
    eapply gather_perm; eauto.
Qed.

(** ** Splitting *)
Lemma slice_ok s sl ps : sourced s -> slice_positions (sp_len s) sl = Some ps -> exists s', sp_slice s sl = Ok s'.
Proof.
  intros Hs P. unfold sp_slice, np_index, indexer_positions. unfold sp_len in P. rewrite P.
  assert (exists df, gather (sp_df s) ps = Some df) as [df ->].
  { apply gather_ok. intros i Hi. eapply slice_positions_in_range; eauto using zlen_nonneg. }
  destruct (loc _ _) as [src|e] eqn:L; cbn [bind]; eauto.
  assert (e = KeyError) as ->.
  { clear -L. unfold loc in L. revert L. generalize (map n_src (filter (in_index df) (sp_ins s))). intros l.
    destruct (map_result _ l) as [|e'] eqn:M; cbn [bind]; [discriminate|]. intros [= <-].
    revert M. induction l as [|k l IH]; cbn; [discriminate|]. destruct (filter _ (sp_src s)); cbn; [congruence|].
    destruct (map_result _ l); cbn; [discriminate|]. auto. }
  apply loc_refuses in L as (k & Hk & Hn). exfalso. apply Hn.
  apply in_map_iff in Hk as (r & <- & Hr). apply filter_In in Hr as [Hr _]. now apply Hs.
Qed.


Lemma znth_skipn {A} (l : list A) a i : 0 <= a -> 0 <= i -> znth (skipn (Z.to_nat a) l) i = znth l (a + i).
Proof.
  intros Ha Hi. unfold znth. rewrite (proj2 (Z.ltb_ge i 0)), (proj2 (Z.ltb_ge (a + i) 0)) by lia.
  rewrite Z2Nat.inj_add by lia. generalize (Z.to_nat a), (Z.to_nat i). clear. intros m. revert l.
  induction m as [|m IH]; intros l n; cbn; auto. destruct l; cbn; [now destruct n|apply IH].
Qed.

Lemma simple_positions n a b : 0 <= a <= n -> a <= b ->
  slice_positions n (mkSlice (Some a) (Some b) None) = Some (map (fun i => a + i) (zrange (Z.min n b - a))).
Proof.
  intros Ha Hb. rewrite simple_slice_positions; [|lia|intros x [= <-]; lia|intros x [= <-]; lia].
  f_equal. cbn [opt_or]. apply zsorted_ext.
  - apply zsorted_filter, zsorted_zrange.
  - apply zsorted_map_mono; [intros; lia|apply zsorted_zrange].
  - intros x. rewrite filter_In, in_map_iff, in_zrange. split.
    + intros [H1 H2]. exists (x - a). rewrite in_zrange. lia.
    + intros (y & <- & H). rewrite in_zrange in H. lia.
Qed.

Lemma gather_segment {A} (l : list A) a m : 0 <= a -> 0 <= m -> a + m <= zlen l ->
  gather l (map (fun i => a + i) (zrange m)) = Some (firstn (Z.to_nat m) (skipn (Z.to_nat a) l)).
Proof.
  intros Ha Hm Hl. assert (exists r, gather l (map (fun i => a + i) (zrange m)) = Some r) as [r G].
  { apply gather_ok. intros i Hi. apply in_map_iff in Hi as (j & <- & Hj). apply in_zrange in Hj. lia. }
  rewrite G. f_equal. apply znth_ext. intros i. rewrite (gather_znth _ _ _ G), znth_map, znth_zrange, znth_firstn.
  destruct (Z.ltb_spec i m), (Z.leb_spec 0 i); cbn [andb option_map]; auto.
  - rewrite znth_skipn by lia. reflexivity.
  - unfold znth. rewrite (proj2 (Z.ltb_lt i 0)) by lia. reflexivity.
Qed.

Lemma slice_piece s a b : sourced s -> 0 <= a <= sp_len s -> a <= b ->
  exists p, sp_slice s (mkSlice (Some a) (Some b) None) = Ok p /\
    sp_df p = firstn (Z.to_nat (Z.min (sp_len s) b - a)) (skipn (Z.to_nat a) (sp_df s)) /\
    sp_len p = Z.min (sp_len s) b - a.
Proof.
  intros Hs Ha Hb. pose proof (simple_positions (sp_len s) a b Ha Hb) as P.
  destruct (slice_ok _ _ _ Hs P) as [p E]. exists p. split; auto.
  destruct (slice_shape _ _ _ E) as (ps & df & src & P' & G & _ & ->). rewrite P in P'. injection P' as <-.
  unfold sp_len in *. cbn [sp_df]. split.
  - rewrite gather_segment in G by lia. now injection G.
  - rewrite (gather_some_len _ _ _ G), zlen_map, zlen_zrange. lia.
Qed.

Lemma split_run_spec s step : sourced s -> 0 < step -> forall fuel start,
  0 <= start -> sp_len s - start <= Z.of_nat fuel * step ->
  exists pieces, split_run fuel s start step = Some (Ok pieces) /\
    (forall i p, znth pieces i = Some p ->
       sp_slice s (mkSlice (Some (start + i * step)) (Some (start + (i + 1) * step)) None) = Ok p /\
       0 < sp_len p /\ sp_len p = Z.min step (sp_len s - (start + i * step))) /\
    List.concat (map sp_df pieces) = skipn (Z.to_nat start) (sp_df s) /\
    sp_len s - start <= zlen pieces * step /\ (0 < zlen pieces -> (zlen pieces - 1) * step < sp_len s - start).
Proof.
  intros Hs Hp. induction fuel as [|fuel IH]; intros start H0 Hf; cbn [split_run].
  - rewrite (proj2 (Z.ltb_ge start (sp_len s))) by lia. exists []. split; auto.
    split; [intros i p; now rewrite znth_nil|]. cbn [map List.concat]. change (zlen (@nil spool)) with 0. split; [|lia].
    rewrite skipn_all2; auto. unfold sp_len, zlen in Hf. lia.
  - destruct (Z.ltb_spec start (sp_len s)) as [Hlt|Hge].
    + destruct (slice_piece s start (start + step) Hs) as (p & E & Ed & El); [lia|lia|].
      rewrite E. destruct (IH (start + step)) as (pieces & R & Q & C & L1 & L2); [lia|lia|].
      rewrite R. exists (p :: pieces). split; auto. split; [|split; [|]].
      * intros i q. rewrite znth_cons. destruct (Z.eqb_spec i 0) as [->|Hi].
        -- intros [= <-]. replace (start + 0 * step) with start by lia. replace (start + (0 + 1) * step) with (start + step) by lia.
           rewrite El. split; auto. lia.
        -- intros Hz. destruct (Q _ _ Hz) as [Q1 Q2].
           replace (start + i * step) with (start + step + (i - 1) * step) by lia.
           replace (start + (i + 1) * step) with (start + step + (i - 1 + 1) * step) by lia. auto.
      * cbn [map List.concat]. rewrite C, Ed. set (n := sp_len s) in *.
        replace (skipn (Z.to_nat (start + step)) (sp_df s)) with (skipn (Z.to_nat (Z.min n (start + step) - start)) (skipn (Z.to_nat start) (sp_df s))).
        { apply firstn_skipn. }
        assert (SK : forall (A : Type) (l : list A) x y, skipn x (skipn y l) = skipn (y + x) l).
        { clear. intros A l x y. revert l. induction y as [|y IHy]; intros l; cbn; auto. destruct l; cbn; [now rewrite skipn_nil|apply IHy]. }
        rewrite SK. destruct (Z.le_ge_cases (start + step) n).
        -- f_equal. lia.
        -- rewrite !skipn_all2; auto; unfold n, sp_len, zlen in *; lia.
      * rewrite zlen_cons. pose proof (zlen_nonneg pieces). split; [nia|]. intros _.
        destruct (Z.eq_dec (zlen pieces) 0) as [Ez|Ez]; [rewrite Ez; lia|]. specialize (L2 ltac:(lia)). nia.
    + exists []. split; auto. split; [intros i p; now rewrite znth_nil|]. cbn [map List.concat]. change (zlen (@nil spool)) with 0.
      split; [|lia]. rewrite skipn_all2; auto. unfold sp_len, zlen in Hge. lia.
Qed.

Lemma split_run_more s step : forall fuel start r, split_run fuel s start step = Some r ->
  forall fuel', (fuel <= fuel')%nat -> split_run fuel' s start step = Some r.
Proof.
  induction fuel as [|fuel IH]; intros start r H fuel' Hf; cbn [split_run] in H.
  - destruct (start <? sp_len s) eqn:E; [discriminate|]. destruct fuel'; cbn [split_run]; now rewrite E.
  - destruct fuel' as [|fuel']; [lia|]. cbn [split_run]. destruct (start <? sp_len s); auto.
    destruct (sp_slice s _) as [p|e]; auto.
    destruct (split_run fuel s (start + step) step) as [q|] eqn:R; [|discriminate].
    rewrite (IH _ _ R fuel') by lia. auto.
Qed.

Lemma split_never s size count step : split_step (sp_len s) size count = Ok step -> step <= 0 -> 0 < sp_len s ->
  sourced s -> forall fuel, sp_split fuel s size count = None.
Proof.
  intros E Hs Hn Hsrc fuel. unfold sp_split. rewrite E. 
  assert (G : forall start, start <= 0 -> split_run fuel s start step = None); [|apply G; lia].
  induction fuel as [|fuel IH]; intros start H0; cbn [split_run];
    rewrite (proj2 (Z.ltb_lt start (sp_len s))) by lia; auto.
  assert (exists ps, slice_positions (sp_len s) (mkSlice (Some start) (Some (start + step)) None) = Some ps) as [ps P].
  { unfold slice_positions, slice_indices. cbn [sl_step sl_start sl_stop]. cbn. eauto. }
  destruct (slice_ok _ _ _ Hsrc P) as [p ->]. rewrite IH by lia. reflexivity.
Qed.

(** Entries of sub-spools of any spool (chunked ones included), and splitting. *)
From Verif Require Import Base BaseFacts CoordModel CoordSpec FrameModel ChunkModel FrameSpec FrameProofs FrameProofs2
  FrameProofs3 FrameProofs5 CmProofs SpoolModel SpoolSpec SpoolProofs SpoolProofs2 SpoolProofs3.
From Coq Require Import Strings.String Lia Sorting.Permutation Sorting.Sorted.
Local Open Scope Z_scope.
Local Open Scope list_scope.

(** The joined table of one entry. *)
Definition joined (s : spool) (lb : Z) : result (list part) :=
  match filter (cur_is lb) (sp_ins s) with
  | [] => Err AssertionError
  | rows => do parts <- map_result (join_one (sp_src s)) rows; Ok (List.concat parts)
  end.
Definition dedup (l : list part) : list part := if 10 <? zlen l then drop_dups [] l else l.

Lemma sp_parts_joined s i lb row : 0 <= i -> znth (sp_df s) i = Some (lb, row) ->
  sp_parts s i = do l <- joined s lb; Ok (dedup l).
Proof.
  intros Hi Z. unfold sp_parts, joined. rewrite (proj2 (Z.leb_le 0 i)) by auto.
  unfold wrap_index. rewrite (proj2 (Z.ltb_ge i 0)) by auto. rewrite Z. cbn [fst].
  destruct (filter _ _) as [|r t]; auto.
  destruct (map_result _ _); auto.
Qed.

(** ** Arrays *)
Lemma array_parts s ix s' ps j p : sp_array s ix = Ok s' -> indexer_positions (sp_len s) ix = Some ps ->
  znth ps j = Some p -> sp_parts s' j = sp_parts s p.
Proof.
  intros H Hp Hj. unfold sp_array, np_index in H. unfold sp_len in Hp. rewrite Hp in H.
  destruct (gather (sp_df s) ps) as [df|] eqn:G; [|destruct ix; discriminate]. injection H as <-.
  pose proof (gather_znth _ _ _ G) as Gz. pose proof (znth_some _ _ _ Hj) as Rj.
  assert (exists x, znth df j = Some x) as [[lb row] Hx].
  { apply znth_range. now rewrite (gather_some_len _ _ _ G). }
  assert (znth (sp_df s) p = Some (lb, row)) as Hz.
  { apply items_at_gather in G. destruct (Forall2_znth _ _ _ G _ _ Hj) as (y & Y1 & Y2). congruence. }
  pose proof (znth_some _ _ _ Hz).
  rewrite (sp_parts_joined _ j lb row) by (auto; lia).
  rewrite (sp_parts_joined s p lb row) by (auto; lia). reflexivity.
Qed.
Lemma array_len s ix s' ps : sp_array s ix = Ok s' -> indexer_positions (sp_len s) ix = Some ps ->
  sp_len s' = zlen ps.
Proof.
  intros H Hp. unfold sp_array, np_index in H. unfold sp_len in Hp. rewrite Hp in H.
  destruct (gather (sp_df s) ps) as [df|] eqn:G; [|destruct ix; discriminate]. injection H as <-.
  now rewrite <- (gather_some_len _ _ _ G).
Qed.
Lemma array_ok s ix : (exists ps, indexer_positions (sp_len s) ix = Some ps) <-> exists s', sp_array s ix = Ok s'.
Proof.
  unfold sp_array, np_index, sp_len. split.
  - intros [ps Hp]. rewrite Hp.
    assert (exists df, gather (sp_df s) ps = Some df) as [df ->]; [|eauto].
    apply gather_ok. intros i Hi. eapply indexer_positions_in_range; eauto using zlen_nonneg.
  - intros [s' H]. destruct (indexer_positions _ _); eauto. destruct ix; discriminate.
Qed.

(** ** Slices *)
Lemma slice_shape s sl s' : sp_slice s sl = Ok s' ->
  exists ps df src, slice_positions (sp_len s) sl = Some ps /\ gather (sp_df s) ps = Some df /\
    loc (sp_src s) (map n_src (filter (in_index df) (sp_ins s))) = Ok src /\
    s' = mkSpool (sp_cols s) df (sp_icols s) (filter (in_index df) (sp_ins s)) (sp_scols s) src (sp_sel s).
Proof.
  intros H. unfold sp_slice, np_index, indexer_positions in H. unfold sp_len.
  destruct (slice_positions (zlen (sp_df s)) sl) as [ps|]; [|discriminate].
  destruct (gather (sp_df s) ps) as [df|] eqn:G; [|discriminate].
  destruct (loc _ _) as [src|] eqn:L; [|discriminate]. cbn [bind] in H. injection H as <-. eauto 10.
Qed.

Lemma filter_filter_in df (ins : list irow) lb row : In (lb, row) df ->
  filter (cur_is lb) (filter (in_index df) ins) = filter (cur_is lb) ins.
Proof.
  intros H. induction ins as [|r ins IH]; cbn; auto.
  destruct (in_index df r) eqn:E; cbn; [now rewrite IH|].
  rewrite IH. destruct (cur_is lb r) eqn:C; auto.
  exfalso. apply cur_is_spec in C. assert (in_index df r = true) by (apply in_index_spec; exists (lb, row); auto). congruence.
Qed.

Fixpoint countz (k : Z) (l : list Z) : nat :=
  match l with [] => O | x :: t => if x =? k then S (countz k t) else countz k t end.

Lemma loc_filter src : NoDup (map fst src) -> forall labels out k f, loc src labels = Ok out -> In (k, f) src ->
  filter (fun x => fst x =? k) out = repeat (k, f) (countz k labels).
Proof.
  intros N labels out k f H Hk. unfold loc in H.
  destruct (map_result _ labels) as [ll|] eqn:E; cbn [bind] in H; [|discriminate]. injection H as <-.
  revert ll E. induction labels as [|l labels IH]; intros ll E; cbn in E; [now injection E as <-|].
  destruct (filter (fun x => fst x =? l) src) as [|y t] eqn:F; [discriminate|]. cbn in E.
  destruct (map_result _ labels) as [ll'|] eqn:E'; [|discriminate]. cbn in E. injection E as <-.
  assert (In y src /\ fst y = l) as [Hy Hl].
  { assert (In y (filter (fun x => fst x =? l) src)) as Z by (rewrite F; left; auto).
    apply filter_In in Z as [Z1 Z2]. split; auto. now apply Z.eqb_eq in Z2. }
  destruct y as [l0 g]. cbn in Hl. subst l0. rewrite (filter_label _ _ _ N Hy) in F. injection F as <-.
  cbn [List.concat app filter fst countz]. rewrite (IH _ eq_refl).
  destruct (l =? k) eqn:Q; auto. apply Z.eqb_eq in Q. subst l. cbn [repeat]. f_equal.
  pose proof (filter_label _ _ _ N Hy) as F1. rewrite (filter_label _ _ _ N Hk) in F1. congruence.
Qed.

Lemma countz_unique k l : NoDup l -> In k l -> countz k l = 1%nat.
Proof.
  induction 1 as [|x l Hn N IH]; cbn; [easy|]. intros [->|H].
  - rewrite Z.eqb_refl. f_equal. clear -Hn. induction l as [|y l IH]; cbn; auto.
    destruct (y =? k) eqn:E; [apply Z.eqb_eq in E; subst; exfalso; apply Hn; left; auto|].
    apply IH. intros X. apply Hn. right; auto.
  - destruct (x =? k) eqn:E; auto. apply Z.eqb_eq in E. subst. easy.
Qed.


Lemma map_result_join src rows : NoDup (map fst src) -> (forall r, In r rows -> In (n_src r) (map fst src)) ->
  exists g, (forall r, In r rows -> In (n_src r, g r) src) /\
    map_result (join_one src) rows = Ok (map (fun r => [(r, g r)]) rows).
Proof.
  intros N H. 
  set (g := fun r => match filter (fun x : Z * frow => fst x =? n_src r) src with x :: _ => snd x | [] => mkRow [] false end).
  assert (Hg : forall r, In r rows -> In (n_src r, g r) src /\ join_one src r = Ok [(r, g r)]).
  { intros r Hr. apply H in Hr. apply in_map_iff in Hr as ([k f] & E & Hx). cbn in E. subst k.
    unfold g, join_one. rewrite (filter_label _ _ _ N Hx). cbn. auto. }
  exists g. split; [intros; now apply Hg|].
  clear H. induction rows as [|r rows IH]; cbn [map_result]; auto.
  rewrite (proj2 (Hg r (or_introl eq_refl))). cbn [bind]. rewrite IH by (intros; apply Hg; right; auto). reflexivity.
Qed.

Lemma map_result_join_rep src src' rows m : NoDup (map fst src) ->
  (forall r, In r rows -> In (n_src r) (map fst src)) ->
  (forall k f, In (k, f) src -> In k (map n_src rows) -> filter (fun x => fst x =? k) src' = repeat (k, f) (m k)) ->
  (forall r, In r rows -> m (n_src r) <> O) ->
  exists g, (forall r, In r rows -> In (n_src r, g r) src) /\
    map_result (join_one src) rows = Ok (map (fun r => [(r, g r)]) rows) /\
    map_result (join_one src') rows = Ok (map (fun r => repeat (r, g r) (m (n_src r))) rows).
Proof.
  intros N H Hf Hm. destruct (map_result_join src rows N H) as (g & G1 & G2). exists g. split; auto. split; auto.
  clear G2 H. induction rows as [|r rows IH]; cbn [map_result map]; auto.
  unfold join_one at 1. rewrite (Hf _ _ (G1 r (or_introl eq_refl))) by (left; auto).
  specialize (Hm r (or_introl eq_refl)) as Hm0.
  destruct (repeat (n_src r, g r) (m (n_src r))) eqn:E.
  { destruct (m (n_src r)); [easy|discriminate]. }
  rewrite <- E. cbn [bind]. rewrite IH.
  - cbn [bind]. do 2 f_equal. generalize (m (n_src r)). intros q. induction q; cbn; congruence.
  - intros k f Hk Hin. apply Hf; auto. right; auto.
  - intros; apply Hm; right; auto.
  - intros; apply G1; right; auto.
Qed.

Definition uses (s : spool) (l : Z) : Z := zlen (filter (fun r => n_src r =? l) (sp_ins s)).
Lemma countz_uses ins k : Z.of_nat (countz k (map n_src ins)) = zlen (filter (fun r => n_src r =? k) ins).
Proof.
  induction ins as [|r ins IH]; cbn [map countz filter]; auto. destruct (n_src r =? k); auto.
  rewrite zlen_cons. lia.
Qed.

Lemma slice_general s sl s' j : NoDup (map fst (sp_src s)) -> sourced s -> sp_slice s sl = Ok s' ->
  exists ps, slice_positions (sp_len s) sl = Some ps /\ sp_len s' = zlen ps /\
  forall p lb row, znth ps j = Some p -> znth (sp_df s) p = Some (lb, row) ->
    znth (sp_df s') j = Some (lb, row) /\
    match joined s lb with
    | Ok l => sp_parts s p = Ok (dedup l) /\
        sp_parts s' j = Ok (dedup (flat_map (fun x => repeat x (Z.to_nat (uses s' (n_src (fst x))))) l)) /\
        (forall x, In x l -> 1 <= uses s' (n_src (fst x)))
    | Err e => sp_parts s p = Err e /\ sp_parts s' j = Err e
    end.
Proof.
  intros N Hs H. destruct (slice_shape _ _ _ H) as (ps & df & src & P & G & L & ->).
  exists ps. split; auto. split; [symmetry; now rewrite <- (gather_some_len _ _ _ G)|].
  intros p lb row Hj Hz. cbn [sp_df].
  assert (Hd : znth df j = Some (lb, row)).
  { apply items_at_gather in G. destruct (Forall2_znth _ _ _ G _ _ Hj) as (y & Y1 & Y2). congruence. }
  split; auto. pose proof (znth_some _ _ _ Hz) as Rz. pose proof (znth_some _ _ _ Hd) as Rd.
  rewrite (sp_parts_joined s p lb row) by (auto; lia).
  rewrite (sp_parts_joined _ j lb row) by (cbn [sp_df]; auto; lia).
  unfold joined. cbn [sp_ins sp_src].
  rewrite (filter_filter_in df _ lb row) by (eapply znth_in; eauto).
  destruct (filter (cur_is lb) (sp_ins s)) as [|r0 rows0] eqn:F; cbn [bind]; [auto|].
  rewrite <- F. set (rows := filter (cur_is lb) (sp_ins s)) in *. clear F r0 rows0.
  assert (HR : forall r, In r rows -> In r (filter (in_index df) (sp_ins s))).
  { intros r Hr. unfold rows in Hr. rewrite <- (filter_filter_in df _ lb row) in Hr by (eapply znth_in; eauto).
    apply filter_In in Hr. tauto. }
  destruct (map_result_join_rep (sp_src s) src rows (fun k => countz k (map n_src (filter (in_index df) (sp_ins s))))) as (g & G1 & G2 & G3); auto.
  - intros r Hr. apply Hs. apply HR in Hr. apply filter_In in Hr. tauto.
  - intros k f Hk _. apply (loc_filter _ N _ _ _ _ L Hk).
  - intros r Hr E. apply HR in Hr. pose proof (countz_uses (filter (in_index df) (sp_ins s)) (n_src r)) as Q.
    rewrite E in Q. cbn in Q. symmetry in Q. apply zlen_zero in Q.
    assert (In r (filter (fun r0 => n_src r0 =? n_src r) (filter (in_index df) (sp_ins s)))) as X
      by (apply filter_In; split; auto; apply Z.eqb_refl).
    rewrite Q in X. destruct X.
  - rewrite G2, G3. cbn [bind]. split; auto. split.
    + do 2 f_equal. clear. induction rows as [|r rows IH]; cbn [map List.concat flat_map app fst]; auto.
      rewrite IH. f_equal. f_equal. unfold uses. cbn [sp_ins]. rewrite <- countz_uses. now rewrite Nat2Z.id.
    + intros x Hx. apply in_concat in Hx as (l & Hl & Hx). apply in_map_iff in Hl as (r & <- & Hr).
      destruct Hx as [<-|[]]. cbn [fst]. unfold uses. cbn [sp_ins].
      assert (In r (filter (fun r0 => n_src r0 =? n_src r) (filter (in_index df) (sp_ins s)))) as X
        by (apply filter_In; split; auto; apply Z.eqb_refl).
      destruct (filter _ (filter _ _)); [destruct X|]. rewrite zlen_cons. pose proof (zlen_nonneg l). lia.
Qed.

(** No source used by two instructions: slices are exact. *)
Lemma slice_exact s sl s' : NoDup (map fst (sp_src s)) -> NoDup (map n_src (sp_ins s)) -> sourced s ->
  sp_slice s sl = Ok s' ->
  exists ps, slice_positions (sp_len s) sl = Some ps /\ sp_len s' = zlen ps /\
  forall j p, znth ps j = Some p -> sp_parts s' j = sp_parts s p.
Proof.
  intros N NI Hs H. destruct (slice_shape _ _ _ H) as (ps & df & src & P & G & L & E').
  exists ps. split; auto.
  assert (Hlen : sp_len s' = zlen ps) by (rewrite E'; symmetry; now rewrite <- (gather_some_len _ _ _ G)).
  split; auto. intros j p Hj.
  destruct (slice_general s sl s' j N Hs H) as (ps' & P' & _ & K). rewrite P in P'. injection P' as <-.
  assert (exists x, znth (sp_df s) p = Some x) as [[lb row] Hz].
  { apply znth_range. apply (slice_positions_in_range _ _ _ (zlen_nonneg _) P). eapply znth_in; eauto. }
  destruct (K p lb row Hj Hz) as [_ K']. destruct (joined s lb) as [l|e]; [|destruct K'; congruence].
  destruct K' as (K1 & K2 & K3). rewrite K1, K2. do 2 f_equal.
  assert (U : forall x, In x l -> Z.to_nat (uses s' (n_src (fst x))) = 1%nat).
  { intros x Hx. specialize (K3 x Hx). unfold uses in *. rewrite <- countz_uses in *.
    rewrite Nat2Z.id. rewrite E'. cbn [sp_ins].
    apply countz_unique; [now apply NoDup_map_filter'|].
    rewrite E' in K3. cbn [sp_ins] in K3. clear -K3.
    induction (map n_src (filter (in_index df) (sp_ins s))) as [|y q IH]; cbn in *; [lia|].
    destruct (y =? n_src (fst x)) eqn:E; [left; now apply Z.eqb_eq|right; auto]. }
  clear -U. induction l as [|x l IH]; cbn [flat_map]; auto. rewrite U by (left; auto). cbn. f_equal.
  apply IH. intros; apply U; right; auto.
Qed.

(** One source per entry: the samples are the same even if sources are shared. *)
Lemma repeat_flat {A} (x : A) n : List.concat (repeat [x] n) = repeat x n.
Proof. induction n; cbn; congruence. Qed.

Lemma cells_eqb_refl l : cells_eqb l l = true.
Proof.
  induction l as [|[q v] l IH]; cbn; auto. rewrite String.eqb_refl, IH.
  destruct v; cbn; auto; [now rewrite Z.eqb_refl|now rewrite String.eqb_refl].
Qed.
Lemma frow_eqb_refl r : frow_eqb r r = true.
Proof. unfold frow_eqb. rewrite cells_eqb_refl. destruct (f_mod r); auto. Qed.
Lemma part_eqb_refl x : part_eqb x x = true.
Proof.
  unfold part_eqb. rewrite !frow_eqb_refl. destruct (n_cur (fst x)); cbn; auto. now rewrite Z.eqb_refl.
Qed.
Lemma drop_dups_repeat x n seen : existsb (part_eqb x) seen = true -> drop_dups seen (repeat x n) = [].
Proof. intros H. induction n; cbn; auto. now rewrite H. Qed.
Lemma dedup_repeat x n : (0 < n)%nat -> exists m, (0 < m)%nat /\ dedup (repeat x n) = repeat x m.
Proof.
  intros H. unfold dedup. destruct (10 <? zlen (repeat x n)); [|eauto].
  exists 1%nat. split; auto. destruct n; [lia|]. cbn. now rewrite drop_dups_repeat by (cbn; now rewrite part_eqb_refl).
Qed.
Lemma opt_cell_eqb_refl c : opt_cell_eqb c c = true.
Proof. destruct c; cbn; auto; [apply Z.eqb_refl|apply String.eqb_refl]. Qed.
Lemma samples_repeat {D} k (load : frow -> list (Z * D)) s i x m : (0 < m)%nat ->
  sp_parts s i = Ok (repeat x m) -> sp_samples k load s i = Ok (load_part k load x).
Proof.
  intros Hm E. unfold sp_samples. rewrite E. cbn [bind]. destruct m; [lia|]. cbn [repeat].
  assert (forallb (same_limits k x) (repeat x m) = true) as ->; auto.
  clear. induction m; cbn [repeat forallb]; auto. rewrite IHm. unfold same_limits. now rewrite !opt_cell_eqb_refl.
Qed.

Lemma slice_single {D} k (load : frow -> list (Z * D)) s sl s' ps j p lb row r :
  NoDup (map fst (sp_src s)) -> sourced s -> sp_slice s sl = Ok s' ->
  slice_positions (sp_len s) sl = Some ps -> znth ps j = Some p ->
  znth (sp_df s) p = Some (lb, row) -> filter (cur_is lb) (sp_ins s) = [r] ->
  exists f, In (n_src r, f) (sp_src s) /\
  sp_samples k load s p = Ok (load_part k load (r, f)) /\
  sp_samples k load s' j = sp_samples k load s p.
Proof.
  intros N Hs H P Hj Hz F.
  destruct (slice_general s sl s' j N Hs H) as (ps' & P' & _ & K). rewrite P in P'. injection P' as <-.
  destruct (K p lb row Hj Hz) as [_ K'].
  assert (Hr : In r (sp_ins s)).
  { assert (In r (filter (cur_is lb) (sp_ins s))) as X by (rewrite F; left; auto). apply filter_In in X. tauto. }
  pose proof (Hs r Hr) as Hsrc. apply in_map_iff in Hsrc as ([q f] & E & Hf). cbn in E. subst q.
  assert (El : joined s lb = Ok [(r, f)]).
  { unfold joined. rewrite F. cbn [map_result]. unfold join_one. rewrite (filter_label _ _ _ N Hf). reflexivity. }
  rewrite El in K'. destruct K' as (K1 & K2 & K3).
  exists f. split; auto.
  rewrite (samples_repeat k load s p (r, f) 1) by (auto; exact K1).
  split; auto. cbn [flat_map] in K2. rewrite app_nil_r in K2.
  destruct (dedup_repeat (r, f) (Z.to_nat (uses s' (n_src (fst (r, f)))))) as (m & Hm & Em).
  { specialize (K3 (r, f) (or_introl eq_refl)). lia. }
  eapply samples_repeat; [exact Hm|]. rewrite K2. cbn [fst]. f_equal. exact Em.
Qed.

(** Facts about cutting labelled arrays. *)
From Verif Require Import Base BaseFacts CoordModel CoordSpec CoordProofs CoordProofs2 CoordProofs3
  CoordProofs4 CoordProofs5 NdModel ReadModel ReadSpec.

Lemma kept_all {A} labels (xs : list A) keep : zlen labels = zlen xs ->
  (forall x, In x labels -> keep x = true) -> kept keep labels xs = xs.
Proof.
  unfold kept; revert xs; induction labels as [|l t IH]; intros [|x xs] H Hk;
    rewrite ?zlen_cons, ?zlen_nil in H; try (pose proof (zlen_nonneg xs); lia);
    try (pose proof (zlen_nonneg t); lia); [reflexivity|].
  cbn. rewrite (Hk l (or_introl eq_refl)). cbn. f_equal. apply IH; [lia|intros; apply Hk; right; auto].
Qed.

Lemma kept_self keep labels : kept keep labels labels = filter keep labels.
Proof. unfold kept; induction labels as [|l t IH]; [reflexivity|]. cbn. destruct (keep l); cbn; rewrite IH; reflexivity. Qed.

Lemma kept_map {A B} (f : A -> B) keep labels xs :
  kept keep labels (map f xs) = map f (kept keep labels xs).
Proof.
  unfold kept; revert xs; induction labels as [|l t IH]; intros [|x xs]; try reflexivity.
  cbn. destruct (keep l); cbn; rewrite IH; reflexivity.
Qed.

Lemma kept_In {A} keep labels (xs : list A) x : In x (kept keep labels xs) -> In x xs.
Proof.
  unfold kept; intro H; apply in_map_iff in H; destruct H as [[a b] [E H]]; cbn in E; subst.
  apply filter_In in H; destruct H as [H _]. eapply in_combine_r; eauto.
Qed.

Lemma zlen_kept {A} keep labels (xs : list A) : zlen labels = zlen xs ->
  zlen (kept keep labels xs) = zlen (filter keep labels).
Proof.
  unfold kept; revert xs; induction labels as [|l t IH]; intros [|x xs] H;
    rewrite ?zlen_cons, ?zlen_nil in H; try (pose proof (zlen_nonneg xs); lia);
    try (pose proof (zlen_nonneg t); lia); [reflexivity|].
  cbn [combine filter fst]. destruct (keep l); cbn [map]; rewrite ?zlen_cons, IH by lia; reflexivity.
Qed.

(** Picking by position where the label is kept. *)
Lemma gather_kept {A} keep labels (xs : list A) : zlen labels = zlen xs ->
  gather xs (positions_where keep labels) = Some (kept keep labels xs).
Proof.
  intro H. set (l := combine labels xs).
  assert (Hl : zlen l = zlen xs).
  { unfold l, zlen in *. rewrite combine_length. lia. }
  assert (Hp : positions_where keep labels = positions_where (fun p => keep (fst p)) l).
  { unfold positions_where. rewrite Hl, <- H.
    apply filter_ext_in. intros i Hi. apply in_zrange in Hi.
    destruct (proj2 (znth_range l i)) as [[a b] E]; [lia|]. rewrite E.
    assert (E1 : znth (map fst l) i = Some a) by (rewrite znth_map, E; reflexivity).
    assert (E2 : map fst l = labels).
    { unfold l. clear - H. revert xs H; induction labels as [|l0 t IH]; intros [|x xs] H;
        rewrite ?zlen_cons, ?zlen_nil in H; try (pose proof (zlen_nonneg xs); lia);
        try (pose proof (zlen_nonneg t); lia); [reflexivity|]. cbn. f_equal. apply IH; lia. }
    rewrite E2 in E1. rewrite E1. reflexivity. }
  rewrite Hp. unfold kept. fold l.
  assert (E3 : xs = map snd l).
  { unfold l. clear - H. revert xs H; induction labels as [|l0 t IH]; intros [|x xs] H;
      rewrite ?zlen_cons, ?zlen_nil in H; try (pose proof (zlen_nonneg xs); lia);
      try (pose proof (zlen_nonneg t); lia); [reflexivity|]. cbn. f_equal. apply IH; lia. }
  rewrite E3 at 1. rewrite gather_map, gather_positions_where. reflexivity.
Qed.

Lemma traverse_map {A B} (f : A -> option B) g l :
  (forall x, In x l -> f x = Some (g x)) -> traverse f l = Some (map g l).
Proof.
  induction l as [|x t IH]; intro H; [reflexivity|]. cbn.
  rewrite (H x (or_introl eq_refl)), IH by (intros; apply H; right; auto). reflexivity.
Qed.

Lemma znth_skipn {A} (l : list A) a i : 0 <= a -> 0 <= i ->
  znth (skipn (Z.to_nat a) l) i = znth l (a + i).
Proof.
  intros Ha Hi. unfold znth. destruct (Z.ltb_spec i 0); [lia|]. destruct (Z.ltb_spec (a + i) 0); [lia|].
  replace (Z.to_nat (a + i)) with (Z.to_nat a + Z.to_nat i)%nat by lia.
  generalize (Z.to_nat a) (Z.to_nat i). intros n m; revert l; induction n as [|n IH]; intros [|x l]; cbn;
    try reflexivity; [destruct m; reflexivity|apply IH].
Qed.

Lemma zlen_skipn {A} (l : list A) a : 0 <= a -> zlen (skipn (Z.to_nat a) l) = Z.max 0 (zlen l - a).
Proof. intro. unfold zlen. rewrite skipn_length. lia. Qed.
Lemma zlen_firstn {A} (l : list A) a : 0 <= a -> zlen (firstn (Z.to_nat a) l) = Z.min a (zlen l).
Proof. intro. unfold zlen. rewrite firstn_length. lia. Qed.

Lemma gather_interval {A} (l : list A) a m : 0 <= a -> 0 <= m -> a + m <= zlen l ->
  gather l (map (fun k => a + k) (zrange m)) = Some (firstn (Z.to_nat m) (skipn (Z.to_nat a) l)).
Proof.
  intros Ha Hm H.
  destruct (gather_ok l (map (fun k => a + k) (zrange m))) as [r Hr].
  { intros i Hi. apply in_map_iff in Hi; destruct Hi as [k [<- Hk]]. apply in_zrange in Hk. lia. }
  rewrite Hr. f_equal. apply znth_ext_len.
  - rewrite (gather_some_len _ _ _ Hr), zlen_map, zlen_zrange, zlen_firstn, zlen_skipn by lia. lia.
  - intros i Hi. rewrite (gather_some_len _ _ _ Hr), zlen_map, zlen_zrange in Hi.
    rewrite (gather_znth _ _ _ Hr), znth_map, znth_zrange.
    destruct (Z.leb_spec 0 i); [|lia]. destruct (Z.ltb_spec i m); [|lia]. cbn.
    rewrite znth_firstn. destruct (Z.ltb_spec i m); [|lia].
    rewrite znth_skipn by lia. reflexivity.
Qed.

Lemma slice_interval n a b : 0 <= a -> a <= b -> b <= n ->
  indexer_positions n (simple_slice (Some a) (Some b)) = Some (map (fun k => a + k) (zrange (b - a))).
Proof.
  intros Ha Hab Hb. unfold simple_slice; cbn [indexer_positions].
  rewrite simple_slice_positions; [|lia|intros x E; injection E as <-; lia|intros x E; injection E as <-; lia].
  f_equal. cbn [opt_or]. apply zsorted_ext.
  - apply zsorted_filter, zsorted_zrange.
  - apply zsorted_map_mono; [intros; lia|apply zsorted_zrange].
  - intro x. rewrite filter_In, in_zrange, in_map_iff. split.
    + intros [H1 H2]. exists (x - a). split; [lia|]. apply in_zrange. lia.
    + intros [k [<- Hk]]. apply in_zrange in Hk. lia.
Qed.

Lemma slice_index {A} (l : list A) a b : 0 <= a -> a <= b -> b <= zlen l ->
  np_index l (simple_slice (Some a) (Some b)) =
  Some (firstn (Z.to_nat (b - a)) (skipn (Z.to_nat a) l)).
Proof.
  intros Ha Hab Hb. unfold np_index. rewrite slice_interval by lia. apply gather_interval; lia.
Qed.

Lemma full_index {A} (l : list A) : np_index l (simple_slice None None) = Some l.
Proof.
  unfold np_index.
  rewrite full_slice_positions by apply zlen_nonneg. apply gather_zrange.
Qed.

(** ** Selecting on an even coordinate *)
Lemma positions_true {A} (p : A -> bool) l : (forall x, p x = true) -> positions_where p l = zrange (zlen l).
Proof.
  intro H. unfold positions_where. rewrite (filter_ext_in _ (fun _ => true)).
  - induction (zrange (zlen l)); cbn; congruence.
  - intros i Hi. apply in_zrange in Hi. destruct (proj2 (znth_range l i) Hi) as [x E]. rewrite E. apply H.
Qed.

Lemma honest_len c : honest c -> c_len c = zlen (c_values c).
Proof.
  destruct c as [r|k v|k v|n]; cbn [honest c_len c_values]; intro H; rewrite ?zlen_map; try reflexivity.
  - symmetry; apply zlen_r_values; exact H.
  - unfold zlen. rewrite repeat_length. lia.
Qed.

Lemma select_even c vs b : even_coord c vs ->
  exists out, select_opt c b = Ok out /\ keeps_exactly vs (wanted b) out /\
              c_len (fst out) = zlen (filter (wanted b) vs).
Proof.
  intros (r & -> & Hr & [Hs1 Hs2] & <-).
  assert (L : forall out, c_values (fst out) = map Some (filter (wanted b) (r_values r)) -> honest (fst out) ->
              c_len (fst (out : coord * indexer)) = zlen (filter (wanted b) (r_values r))).
  { intros out E H. rewrite honest_len, E, zlen_map by exact H. reflexivity. }
  destruct b as [[lo hi]|]; cbn [select_opt c_select].
  - destruct (r_select_exact r false lo hi Hr Hs2) as [out [E K]]. exists out. split; [exact E|].
    assert (K' : keeps_exactly (r_values r) (wanted (Some (lo, hi))) out).
    { eapply keeps_exactly_ext; [|exact K]. intro x. unfold wanted. destruct lo, hi; reflexivity. }
    split; [exact K'|]. apply L; [apply K'|]. eapply (select_honest (CRange r)); [exact Hr|exact E].
  - eexists; split; [reflexivity|].
    assert (E : forall l : list Z, filter (wanted None) l = l) by (induction l; cbn; congruence).
    assert (K : keeps_exactly (r_values r) (wanted None) (CRange r, simple_slice None None)).
    { unfold keeps_exactly; cbn [fst snd c_values]. rewrite E. split; [reflexivity|].
      rewrite full_slice_positions by apply zlen_nonneg. rewrite positions_true; reflexivity. }
    split; [exact K|]. apply L; [apply K|exact Hr].
Qed.

(** ** Reshaping *)
Lemma concat_len m rows : width m rows -> zlen (concat rows) = zlen rows * m.
Proof.
  induction rows as [|r t IH]; intro W; cbn [concat]; [reflexivity|].
  rewrite zlen_app, zlen_cons, IH, (W r) by (try (left; reflexivity); intros x Hx; apply W; right; exact Hx). lia.
Qed.

Lemma reshape_concat m rows : 0 < m -> width m rows -> reshape_rows m (concat rows) = Ok (mkGrid m rows).
Proof.
  intros Hm W. unfold reshape_rows. destruct (Z.leb_spec m 0); [lia|].
  rewrite (concat_len m rows W), Z.mod_mul, Z.div_mul by lia. cbn [Z.eqb negb].
  repeat f_equal. apply znth_ext_len; [rewrite zlen_map, zlen_zrange; pose proof (zlen_nonneg rows); lia|].
  intros i Hi. rewrite zlen_map, zlen_zrange in Hi. rewrite znth_map, znth_zrange.
  destruct (Z.leb_spec 0 i); [|lia]. destruct (Z.ltb_spec i (zlen rows)); [|lia]. cbn [andb option_map].
  clear -W Hm Hi. revert i Hi W. induction rows as [|r t IH]; intros i Hi W.
  - cbn in Hi; lia.
  - rewrite znth_cons. assert (Hr : zlen r = m) by (apply W; left; auto).
    assert (Hn : length r = Z.to_nat m) by (unfold zlen in Hr; lia).
    destruct (Z.eqb_spec i 0).
    + subst i. cbn [concat skipn Z.mul Z.to_nat]. rewrite firstn_app, Hn, Nat.sub_diag. cbn.
      rewrite app_nil_r, <- Hn, firstn_all. reflexivity.
    + rewrite zlen_cons in Hi. cbn [concat]. rewrite skipn_app.
      rewrite skipn_all2 by (rewrite Hn; nia). cbn [app].
      replace (Z.to_nat (i * m) - length r)%nat with (Z.to_nat ((i - 1) * m)) by (rewrite Hn; nia).
      apply IH; [lia|]. intros x Hx; apply W; right; auto.
Qed.

(** ** Cutting a grid *)
Lemma g_index_kept labels_t labels_d kt kd g rix cix :
  zlen labels_t = zlen (g_rows g) -> zlen labels_d = g_cols g -> width (g_cols g) (g_rows g) ->
  indexer_positions (zlen labels_t) rix = Some (positions_where kt labels_t) ->
  indexer_positions (zlen labels_d) cix = Some (positions_where kd labels_d) ->
  g_index g rix cix = Ok (mkGrid (zlen (filter kd labels_d))
                            (map (kept kd labels_d) (kept kt labels_t (g_rows g)))).
Proof.
  intros Ht Hd W Er Ec. unfold g_index, np_index.
  rewrite <- Ht, Er, gather_kept, <- Hd, Ec by exact Ht.
  rewrite (traverse_map _ (kept kd labels_d)).
  - rewrite zlen_positions_where. reflexivity.
  - intros row Hrow. apply gather_kept. rewrite Hd. symmetry. apply W. eapply kept_In; eauto.
Qed.

Lemma filter_nil_len {A} (p : A -> bool) l : zlen (filter p l) = 0 -> filter p l = [].
Proof. apply zlen_zero. Qed.

(** The end of every reader: no patch for an empty part, else the patch. *)
Lemma finish times dists rows time dist (t d : coord) (g : grid) :
  zlen times = zlen rows ->
  c_values t = map Some (filter (wanted time) times) -> c_len t = zlen (filter (wanted time) times) ->
  c_values d = map Some (filter (wanted dist) dists) -> c_len d = zlen (filter (wanted dist) dists) ->
  g = mkGrid (zlen (filter (wanted dist) dists))
        (map (kept (wanted dist) dists) (kept (wanted time) times rows)) ->
  exists out, (if g_size g =? 0 then Ok None else do rd <- new_reading t d g; Ok (Some rd)) = Ok out /\
              part_of times dists rows time dist out.
Proof.
  intros Hlen Et Lt Ed Ld Eg.
  assert (Hrows : zlen (g_rows g) = zlen (filter (wanted time) times)).
  { rewrite Eg; cbn [g_rows]. rewrite zlen_map, zlen_kept by exact Hlen. reflexivity. }
  unfold g_size. rewrite Hrows, Eg; cbn [g_cols].
  destruct (Z.eqb_spec (zlen (filter (wanted time) times) * zlen (filter (wanted dist) dists)) 0) as [Z0|Z0].
  - exists None; split; [reflexivity|]. unfold part_of.
    destruct (Z.eq_mul_0 (zlen (filter (wanted time) times)) (zlen (filter (wanted dist) dists))) as [H _].
    destruct (H Z0) as [H0|H0]; apply zlen_zero in H0; auto.
  - rewrite <- Eg. unfold new_reading. rewrite Hrows, (f_equal g_cols Eg); cbn [g_cols].
    rewrite Lt, Ld, !Z.eqb_refl. cbn [andb bind].
    exists (Some (mkReading t d g)). split; [reflexivity|].
    unfold part_of. repeat split.
    + intro H; rewrite H in Z0; apply Z0; reflexivity.
    + intro H; rewrite H in Z0; apply Z0. rewrite zlen_nil. lia.
    + exact Et.
    + exact Ed.
    + cbn [rd_data]. rewrite Eg. reflexivity.
    + cbn [rd_data]. rewrite Eg. reflexivity.
Qed.

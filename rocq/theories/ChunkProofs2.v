From Verif Require Import Base BaseFacts CoordModel CoordSpec CoordProofs CoordProofs2 CoordProofs3
  ChunkModel ChunkSpec ChunkProofs.
From Coq Require Import ZifyBool Sorting.Permutation Sorting.Sorted.
Ltac Zify.zify_post_hook ::= Z.div_mod_to_equations.

(** ** Sampling groups *)
Lemma zlen_split_flags l : forall p, zlen (split_flags p l) = zlen l.
Proof. induction l as [|s l IH]; intros p; cbn [split_flags]; auto. now rewrite !zlen_cons, IH. Qed.
Lemma split_flags_znth l : forall p k, 0 < k ->
  znth (split_flags p l) k =
  match znth l (k - 1), znth l k with Some a, Some b => Some (sampling_split a b) | _, _ => None end.
Proof.
  induction l as [|s l IH]; intros p k Hk; cbn [split_flags]; [now rewrite !znth_nil|].
  rewrite !znth_cons. destruct (Z.eqb_spec k 0); [lia|]. destruct (Z.eqb_spec (k - 1) 0) as [E|N].
  - assert (k - 1 = 0) as -> by lia. destruct l as [|b l]; cbn; auto.
  - rewrite IH by lia. reflexivity.
Qed.


Lemma sampling_spec argsort steps : valid_argsort argsort -> positive_steps steps ->
  let args := argsort (null_last steps) in
  let groups := sampling_groups argsort steps in
  zlen groups = zlen steps /\
  exists sorted, gather steps args = Some sorted /\ Permutation sorted steps /\
    forall i j p q x y, 0 <= i <= j -> znth args i = Some p -> znth args j = Some q ->
      znth groups p = Some x -> znth groups q = Some y ->
      x <= y /\ (x = y <-> forall k, i < k <= j -> ~ step_jump sorted k).
Proof.
  intros V Pos args groups.
  assert (LN : zlen (null_last steps) = zlen steps) by (unfold null_last; now rewrite zlen_map).
  destruct (V (null_last steps)) as [PA _]. rewrite LN in PA. fold args in PA.
  destruct (gather_ok steps args) as [sorted G].
  { intros i Hi. apply (Permutation_in _ PA) in Hi. now apply in_zrange in Hi. }
  assert (P : Permutation sorted steps).
  { eapply gather_Permutation; [exact PA|exact G|apply gather_zrange]. }
  unfold groups, sampling_groups. fold args. rewrite G.
  set (fl := split_flags (last sorted None) sorted).
  assert (LA : zlen args = zlen steps).
  { unfold zlen. rewrite (Permutation_length PA).
    change (zlen (zrange (zlen steps)) = zlen steps). rewrite zlen_zrange. pose proof (zlen_nonneg steps); lia. }
  assert (LS : zlen sorted = zlen steps) by (unfold zlen; now rewrite (Permutation_length P)).
  destruct (unsort_spec args (cumsum 0 fl) (zlen steps) PA) as [U1 U2].
  { unfold fl. now rewrite zlen_cumsum, zlen_split_flags, LS, LA. }
  { apply zlen_nonneg. }
  split; auto. exists sorted. split; auto. split; auto.
  intros i j p q x y Hij Hp Hq Hx Hy. rewrite (U2 _ _ Hp) in Hx. rewrite (U2 _ _ Hq) in Hy.
  destruct (cumsum_same fl 0 i j x y Hij Hx Hy) as [L E]. split; auto. rewrite E. clear E.
  apply znth_some in Hy. rewrite zlen_cumsum in Hy. unfold fl in *. rewrite zlen_split_flags in Hy.
  assert (Pos' : forall k s, znth sorted k = Some (Some s) -> 0 < s).
  { intros k s H. apply Pos. eapply Permutation_in; [exact P|]. eapply znth_in; eauto. }
  split; intros H k Hk; specialize (H k Hk).
  - rewrite split_flags_znth in H by lia. intros (a & b & _ & Ha & Hb & J). rewrite Ha, Hb in H.
    assert (H' : sampling_split (Some a) (Some b) = false) by congruence. clear H; rename H' into H.
    unfold sampling_split in H. specialize (Pos' _ _ Hb). rewrite (proj2 (Z.ltb_lt 0 b)) in H by lia. lia.
  - rewrite split_flags_znth by lia.
    destruct (proj2 (znth_range sorted (k - 1)) ltac:(lia)) as [a Ha].
    destruct (proj2 (znth_range sorted k) ltac:(lia)) as [b Hb]. rewrite Ha, Hb. f_equal.
    destruct a as [a|], b as [b|]; auto. unfold sampling_split. specialize (Pos' _ _ Hb).
    destruct (Z.ltb_spec 0 b); [|lia]. destruct (Z.ltb_spec b (20 * (b - a))); auto.
    exfalso; apply H. exists a, b. repeat split; auto; lia.
Qed.

(** ** Labels *)
Lemma label_eqb_spec a b : label_eqb a b = true <-> a = b.
Proof.
  destruct a as [[a1 a2] a3], b as [[b1 b2] b3]. cbn. rewrite !andb_true_iff, !Z.eqb_eq.
  split; [intros [[-> ->] ->]; auto|intros [= -> -> ->]; auto].
Qed.

Lemma znth_combine {A B} (a : list A) : forall (b : list B) i,
  znth (combine a b) i = match znth a i, znth b i with Some x, Some y => Some (x, y) | _, _ => None end.
Proof.
  induction a as [|x a IH]; intros [|y b] i; cbn [combine]; rewrite ?znth_nil; auto.
  - destruct (znth (x :: a) i); auto.
  - rewrite !znth_cons. destruct (i =? 0); auto.
Qed.
Lemma zlen_combine {A B} (a : list A) (b : list B) : zlen (combine a b) = Z.min (zlen a) (zlen b).
Proof. unfold zlen. rewrite combine_length. lia. Qed.

Lemma labels_spec argsort c rows : valid_argsort argsort -> 0 < c_tol_den c -> positive_steps (map g_step rows) ->
  zlen (group_labels argsort c rows) = zlen rows /\
  forall i r, znth rows i = Some r ->
    exists s t, znth (sampling_groups argsort (map g_step rows)) i = Some s /\
      znth (continuity_groups argsort (c_tol_num c) (c_tol_den c) rows) i = Some t /\
      znth (group_labels argsort c rows) i = Some (s, g_key r, t).
Proof.
  intros V Hd Pos. destruct (sampling_spec argsort (map g_step rows) V Pos) as [L1 _].
  destruct (continuity_spec argsort (c_tol_num c) (c_tol_den c) rows V Hd) as [L2 _].
  rewrite zlen_map in L1. unfold group_labels. split.
  - rewrite zlen_map, !zlen_combine. lia.
  - intros i r Hr. pose proof (znth_some _ _ _ Hr) as B.
    destruct (proj2 (znth_range (sampling_groups argsort (map g_step rows)) i) ltac:(lia)) as [s Hs].
    destruct (proj2 (znth_range (continuity_groups argsort (c_tol_num c) (c_tol_den c) rows) i) ltac:(lia)) as [t Ht].
    exists s, t. rewrite znth_map, !znth_combine, Hs, Hr, Ht. auto.
Qed.

Lemma unique_labels_in seen l x : In x (unique_labels seen l) <-> In x l /\ ~ In x seen.
Proof.
  revert seen; induction l as [|y l IH]; intros seen; cbn [unique_labels]; [cbn; tauto|].
  destruct (existsb (label_eqb y) seen) eqn:E.
  - rewrite IH. cbn. apply existsb_exists in E as (z & Hz & Ez). apply label_eqb_spec in Ez as <-.
    split; [tauto|]. intros [[<-|H] N]; tauto.
  - cbn [In]. rewrite IH. cbn [In]. assert (~ In y seen).
    { intros H. assert (existsb (label_eqb y) seen = true) by (apply existsb_exists; exists y; split; auto; now apply label_eqb_spec).
      congruence. }
    split.
    + intros [<-|[H1 H2]]; tauto.
    + intros [[<-|H1] H2]; auto. assert (y = x \/ y <> x) as [->|] by (destruct y as [[? ?] ?], x as [[? ?] ?]; repeat decide equality); auto.
      right. tauto.
Qed.
Lemma unique_labels_NoDup l : forall seen, NoDup (unique_labels seen l).
Proof.
  induction l as [|y l IH]; intros seen; cbn [unique_labels]; [constructor|].
  destruct (existsb (label_eqb y) seen); auto. constructor; auto.
  rewrite unique_labels_in. cbn; tauto.
Qed.

Lemma rows_with_in {A} lab labels (rows : list A) r :
  In r (rows_with lab labels rows) <-> exists i, znth labels i = Some lab /\ znth rows i = Some r.
Proof.
  unfold rows_with. rewrite in_map_iff. split.
  - intros ([l r'] & <- & H). apply filter_In in H as [H E]. cbn in E. apply label_eqb_spec in E as <-.
    apply in_znth in H as [i Hi]. rewrite znth_combine in Hi. exists i.
    destruct (znth labels i), (znth rows i); try discriminate. injection Hi as <- <-. auto.
  - intros (i & H1 & H2). exists (lab, r). split; auto. apply filter_In. split.
    + eapply znth_in with (i := i). now rewrite znth_combine, H1, H2.
    + cbn. now apply label_eqb_spec.
Qed.

Lemma rows_with_all {A} lab labels (rows : list A) : zlen labels = zlen rows ->
  (forall x, In x labels -> x = lab) -> rows_with lab labels rows = rows.
Proof.
  unfold rows_with. revert rows; induction labels as [|x labels IH]; intros [|r rows] L H; cbn; auto.
  - rewrite zlen_cons, zlen_nil in L. pose proof (zlen_nonneg rows); lia.
  - rewrite (H x) by (cbn; auto). rewrite (proj2 (label_eqb_spec lab lab)) by auto. cbn. f_equal.
    apply IH; [rewrite !zlen_cons in L; lia|]. intros; apply H; cbn; auto.
Qed.
Lemma unique_all lab l : l <> [] -> (forall x, In x l -> x = lab) -> unique_labels [] l = [lab].
Proof.
  intros N H. assert (forall l, (forall x, In x l -> x = lab) -> forall seen, In lab seen -> unique_labels seen l = []) as U.
  { clear; induction l as [|x l IH]; intros H seen Hs; cbn; auto.
    assert (existsb (label_eqb x) seen = true) as ->.
    { apply existsb_exists. exists lab. split; auto. apply label_eqb_spec. apply H; cbn; auto. }
    apply IH; auto. intros; apply H; cbn; auto. }
  destruct l as [|x l]; [congruence|]. cbn. rewrite (H x) by (cbn; auto). f_equal.
  apply U; [|cbn; auto]. intros; apply H; cbn; auto.
Qed.

(** ** Samples *)
Lemma in_progression a s n x : In x (progression a s n) <-> exists i, 0 <= i < n /\ x = a + i * s.
Proof.
  unfold progression. rewrite in_map_iff. split; intros (i & H1 & H2).
  - exists i. apply in_zrange in H2. auto.
  - exists i. rewrite in_zrange. auto.
Qed.
Lemma in_samples s r x : 0 < s -> In x (seg_samples s r) <-> g_min r <= x <= g_max r /\ (s | x - g_min r).
Proof.
  intros Hs. unfold seg_samples. rewrite in_progression. split.
  - intros (i & Hi & ->). split; [|exists i; lia].
    assert (i <= (g_max r - g_min r) / s) by lia.
    assert (s * ((g_max r - g_min r) / s) <= g_max r - g_min r) by (apply Z.mul_div_le; lia). nia.
  - intros [H [k Hk]]. exists k. split; [|lia]. split; [nia|].
    assert (k <= (g_max r - g_min r) / s) by (apply Z.div_le_lower_bound; lia). lia.
Qed.
Lemma grid_shift base s a x : on_grid base s a -> ((s | x - a) <-> on_grid base s x).
Proof.
  unfold on_grid. intros [p Hp]. split; intros [q Hq].
  - exists (p + q). lia.
  - exists (q - p). lia.
Qed.
Lemma in_grid_seg base s r x : 0 < s -> on_grid base s (g_min r) ->
  In x (seg_samples s r) <-> g_min r <= x <= g_max r /\ on_grid base s x.
Proof. intros Hs G. rewrite in_samples by auto. now rewrite (grid_shift base s (g_min r) x G). Qed.
Lemma zsorted_progression a s n : 0 < s -> zsorted (progression a s n).
Proof. intros Hs. unfold progression. apply zsorted_map_mono; [intros; nia|apply zsorted_zrange]. Qed.

(** ** Overlap removal *)
Lemma trim_in base s : 0 < s -> forall rows prev,
  Forall (grid_seg base s) (prev :: rows) -> weakly_staggered (prev :: rows) ->
  zsorted (concat (map (seg_samples s) (trim_from prev rows))) /\
  forall x, In x (concat (map (seg_samples s) (trim_from prev rows))) <->
    g_max prev < x /\ exists r, In r rows /\ In x (seg_samples s r).
Proof.
  intros Hs. induction rows as [|r t IH]; intros prev F W; cbn [trim_from map concat].
  - split; [constructor|]. intros x; split; [intros []|intros (_ & r & [] & _)].
  - inversion F as [|? ? Gp F1]; subst. inversion F1 as [|? ? Gr F2]; subst.
    destruct W as [[W1 W2] W3]. destruct (IH r F1 W3) as [S I].
    destruct Gp as (Ps & Pmin & Pmax & Ple), Gr as (Rs & Rmin & Rmax & Rle).
    set (start := if g_min r <=? g_max prev then g_max prev + step_or_zero (g_step prev) else g_min r).
    set (r' := mkSeg _ start _ _ _ _ _ _).
    assert (Gst : on_grid base s start).
    { unfold start. rewrite Ps. cbn. destruct (g_min r <=? g_max prev); auto.
      destruct Pmax as [k Hk]. exists (k + 1). lia. }
    assert (I' : forall x, In x (seg_samples s r') <-> In x (seg_samples s r) /\ g_max prev < x).
    { intros x. rewrite (in_grid_seg base s r'), (in_grid_seg base s r) by auto.
      unfold r', start. cbn [g_min g_max]. rewrite Ps. cbn [step_or_zero].
      destruct (Z.leb_spec (g_min r) (g_max prev)); split; intros H'; try lia.
      - destruct H' as [H1 H2]. repeat split; auto; lia.
      - destruct H' as [[H1 H2] H3]. repeat split; auto; try lia.
        destruct H2 as [k Hk], Pmax as [m Hm]. assert (m < k) by nia. nia.
      - destruct H' as [H1 H2]; repeat split; auto; lia.
      - destruct H' as [[H1 H2] H3]; repeat split; auto; lia. }
    split.
    + apply zsorted_app; auto.
      * apply zsorted_progression; auto.
      * intros x y Hx Hy. apply I' in Hx as [Hx _]. apply in_samples in Hx as [Hx _]; auto.
        apply I in Hy as [Hy _]. lia.
    + intros x. rewrite in_app_iff, I', I. split.
      * intros [[H1 H2]|[H1 (r2 & H2 & H3)]].
        -- split; auto. exists r; cbn; auto.
        -- split; [lia|]. exists r2; cbn; auto.
      * intros [H1 (r2 & [<-|H2] & H3)]; [auto|].
        destruct (Z_lt_ge_dec (g_max r) x) as [L|G]; [right; split; auto; exists r2; auto|].
        left. split; auto.
        assert (Gr2 : grid_seg base s r2) by (rewrite Forall_forall in F2; auto).
        destruct Gr2 as (_ & M2 & _ & _).
        apply (in_grid_seg base s r2) in H3 as [B3 G3]; auto.
        apply (in_grid_seg base s r); auto. split; auto. split; [|lia].
        assert (g_min r <= g_min r2); [|lia].
        clear - W3 H2. revert r W3 H2. induction t as [|r0 t IHt]; intros r W3 H2; [destruct H2|].
        destruct W3 as [[A B] W3]. destruct H2 as [<-|H2]; auto.
        specialize (IHt r0 W3 H2). lia.
Qed.

Lemma remove_overlaps_spec base s rows : 0 < s -> Forall (grid_seg base s) rows -> weakly_staggered rows ->
  ascending (concat (map (seg_samples s) (remove_overlaps rows))) /\
  forall x, In x (concat (map (seg_samples s) (remove_overlaps rows))) <->
            In x (concat (map (seg_samples s) rows)).
Proof.
  intros Hs F W. destruct rows as [|r t]; [cbn; split; auto; tauto|].
  destruct (trim_in base s Hs t r F W) as [S I]. cbn [remove_overlaps map concat].
  inversion F as [|? ? Gr F2]; subst. destruct Gr as (Rs & Rmin & Rmax & Rle). split.
  - apply zsorted_ascending. apply zsorted_app; auto; [apply zsorted_progression; auto|].
    intros x y Hx Hy. apply in_samples in Hx as [Hx _]; auto. apply I in Hy as [Hy _]. lia.
  - intros x. rewrite !in_app_iff, I, in_concat. split.
    + intros [H|[H1 (r2 & H2 & H3)]]; auto. right. exists (seg_samples s r2). split; auto. now apply in_map.
    + intros [H|(l & Hl & Hx)]; auto. apply in_map_iff in Hl as (r2 & <- & H2).
      destruct (Z_lt_ge_dec (g_max r) x) as [L|G]; [right; split; auto; exists r2; auto|]. left.
      assert (Gr2 : grid_seg base s r2) by (rewrite Forall_forall in F2; auto).
      destruct Gr2 as (_ & M2 & _ & _). apply (in_grid_seg base s r2) in Hx as [B3 G3]; auto.
      apply (in_grid_seg base s r); auto. split; auto. split; [|lia].
      assert (g_min r <= g_min r2); [|lia].
      clear - W H2. revert r W H2. induction t as [|r0 t IHt]; intros r W3 H2; [destruct H2|].
      destruct W3 as [[A B] W3]. destruct H2 as [<-|H2]; auto. specialize (IHt r0 W3 H2). lia.
Qed.

(** Row by row: only the start moves, and only to just past the previous end. *)
Lemma trim_fields rows : forall prev,
  Forall2 (fun r r' => g_idx r' = g_idx r /\ g_max r' = g_max r /\ g_step r' = g_step r /\
                       g_key r' = g_key r /\ g_dims r' = g_dims r /\ g_rest r' = g_rest r /\
                       g_mod r' = g_mod r || negb (g_min r' =? g_min r)) rows (trim_from prev rows).
Proof. induction rows as [|r t IH]; intros prev; cbn [trim_from]; constructor; cbn; auto 10. Qed.
Lemma remove_overlaps_fields rows :
  Forall2 (fun r r' => g_idx r' = g_idx r /\ g_max r' = g_max r /\ g_step r' = g_step r /\
                       g_key r' = g_key r /\ g_dims r' = g_dims r /\ g_rest r' = g_rest r /\
                       g_mod r' = g_mod r || negb (g_min r' =? g_min r)) rows (remove_overlaps rows).
Proof.
  destruct rows as [|r t]; cbn; constructor; [|apply trim_fields].
  repeat split. now rewrite Z.eqb_refl, orb_false_r.
Qed.

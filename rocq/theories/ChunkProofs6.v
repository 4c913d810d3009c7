(** Proofs about chunking, part 6: group steps, warnings, sample estimates. *)
From Verif Require Import Base BaseFacts CoordModel CoordSpec CoordProofs CoordProofs2 CoordProofs3 CoordProofs5
  ChunkModel ChunkSpec ChunkProofs ChunkProofs2 ChunkProofs3 ChunkProofs4 ChunkProofs5.
From Coq Require Import ZifyBool Sorting.Permutation Sorting.Sorted Lia ZArith.
Ltac Zify.zify_post_hook ::= Z.div_mod_to_equations.

Lemma validate_ok c : validate_chunker c = Ok tt <->
  match c_value c with
  | Some v => 0 < v
  | None => c_keep c = false /\ or0 (c_overlap c) = 0
  end.
Proof.
  unfold validate_chunker. destruct (c_value c) as [v|].
  - destruct (Z.leb_spec v 0); split; intros; auto; (discriminate || lia).
  - destruct (c_keep c); cbn; [split; [discriminate|intros [? _]; discriminate]|].
    destruct (c_overlap c) as [o|]; cbn; [|tauto].
    destruct (Z.eqb_spec o 0); cbn; split; intros; auto; [discriminate|lia].
Qed.
Lemma validate_cases c : validate_chunker c = Ok tt \/ validate_chunker c = Err ParameterError.
Proof. unfold validate_chunker. destruct (c_value c); [destruct (_ <=? _)|destruct (_ || _)]; auto. Qed.

(** ** Steps *)
Lemma some_steps_all l s : (forall x, In x l -> x = Some s) -> some_steps l = map (fun _ => s) l.
Proof.
  unfold some_steps. induction l as [|x l IH]; intros H; cbn; auto. rewrite (H x) by (cbn; auto). cbn.
  f_equal. apply IH. intros; apply H; cbn; auto.
Qed.
Lemma znth_np_sort_in l i x : znth (np_sort l) i = Some x -> In x l.
Proof. intros H. apply in_np_sort. eapply znth_in; eauto. Qed.
Lemma zlen_np_sort l : zlen (np_sort l) = zlen l.
Proof. unfold zlen. now rewrite (Permutation_length (np_sort_perm l)). Qed.
Lemma middle_all l s : l <> [] -> (forall x, In x l -> x = Some s) -> middle_step l = Some s.
Proof.
  intros NE H. unfold middle_step. rewrite (some_steps_all l s H).
  assert (0 < zlen l). { destruct l; [congruence|]. rewrite zlen_cons. pose proof (zlen_nonneg l). lia. }
  destruct (proj2 (znth_range (np_sort (map (fun _ => s) l)) ((zlen l - 1) / 2))) as [x Hx].
  { rewrite zlen_np_sort, zlen_map. lia. }
  rewrite Hx. apply znth_np_sort_in in Hx. apply in_map_iff in Hx as (y & <- & _). reflexivity.
Qed.
(** The advertised step is the lower median of the steps. *)
Lemma middle_median l : (forall x, In x l -> x <> None) -> l <> [] ->
  exists s, middle_step l = Some s /\ In (Some s) l /\
    2 * zlen (filter (fun x => x <? s) (some_steps l)) < zlen l /\
    zlen l <= 2 * zlen (filter (fun x => x <=? s) (some_steps l)).
Proof.
  intros H NE. assert (L : zlen (some_steps l) = zlen l /\ forall x, In x (some_steps l) <-> In (Some x) l).
  { clear NE. unfold some_steps. induction l as [|[x|] l IH]; cbn [flat_map app].
    - split; auto. cbn. tauto.
    - destruct IH as [A B]; [intros; apply H; cbn; auto|]. rewrite !zlen_cons, A. split; auto. intros y.
      cbn [In]. rewrite B. split; intros [E|E]; auto; left; congruence.
    - exfalso. apply (H None); cbn; auto. }
  destruct L as [L I]. unfold middle_step.
  assert (0 < zlen l). { destruct l; [congruence|]. rewrite zlen_cons. pose proof (zlen_nonneg l). lia. }
  set (m := (zlen l - 1) / 2). destruct (proj2 (znth_range (np_sort (some_steps l)) m)) as [s Hs].
  { rewrite zlen_np_sort, L. unfold m. lia. }
  rewrite Hs. exists s. split; auto. split; [apply I; eapply znth_np_sort_in; eauto|].
  assert (PF : forall p, zlen (filter p (some_steps l)) = zlen (filter p (np_sort (some_steps l)))).
  { intros p. unfold zlen. now rewrite (Permutation_length (filter_Permutation p _ _ (np_sort_perm (some_steps l)))). }
  rewrite !PF. pose proof (np_sort_sorted (some_steps l)) as SS. set (w := np_sort (some_steps l)) in *.
  assert (LW : zlen w = zlen l) by (unfold w; rewrite zlen_np_sort; auto).
  assert (G : forall v, StronglySorted Z.le v -> forall j x, znth v j = Some x ->
            zlen (filter (fun y => y <? x) v) <= j /\ j < zlen (filter (fun y => y <=? x) v)).
  { clear. intros v S. induction S as [|y v S IH F]; intros j x Hj; [now rewrite znth_nil in Hj|].
    rewrite znth_cons in Hj. cbn [filter]. rewrite Forall_forall in F. destruct (Z.eqb_spec j 0) as [->|Nj].
    - injection Hj as ->. rewrite (proj2 (Z.ltb_ge x x)), (proj2 (Z.leb_le x x)) by lia.
      rewrite filter_none; [rewrite zlen_nil, zlen_cons; pose proof (zlen_nonneg (filter (fun y => y <=? x) v)); lia|].
      intros z Hz. specialize (F z Hz). lia.
    - assert (Hb := znth_some _ _ _ Hj). destruct (IH _ _ Hj) as [A B].
      assert (y <= x) by (apply F; eapply znth_in; eauto).
      rewrite (proj2 (Z.leb_le y x)) by lia. rewrite zlen_cons.
      destruct (y <? x); rewrite ?zlen_cons; lia. }
  destruct (G w SS m s Hs) as [A B]. unfold m in *. lia.
Qed.

Lemma group_step_even argsort snap rows s : valid_argsort argsort -> rows <> [] ->
  (forall r, In r rows -> g_step r = Some s) ->
  (snap = true \/ zlen rows < 2 -> group_step argsort snap rows = Some s) /\
  (forall ordered, Permutation ordered rows -> staggered ordered ->
     (forall i a b, znth ordered i = Some a -> znth ordered (i + 1) = Some b -> g_min b - g_max a = s) ->
     group_step argsort snap rows = Some s).
Proof.
  intros V NE H. assert (HS : forall x, In x (map g_step rows) -> x = Some s).
  { intros x Hx. apply in_map_iff in Hx as (r & <- & Hr). auto. }
  assert (M : middle_step (map g_step rows) = Some s) by (apply middle_all; [destruct rows; cbn; congruence|auto]).
  unfold group_step. rewrite M. split.
  - intros [->|L]; [reflexivity|]. rewrite (proj2 (Z.ltb_lt _ _) L), Bool.orb_true_r. reflexivity.
  - intros ordered P S B. destruct (_ || _); auto.
    rewrite (take_rows_staggered argsort rows ordered V P S). rewrite (some_steps_all _ s HS), zlen_map, Z.eqb_refl. cbn [andb].
    assert (A : forall z, In z (map (fun _ : option Z => s) (map g_step rows) ++
       map (fun p => fst p - snd p) (combine (map g_min (tl ordered)) (map g_max ordered))) -> z = s).
    { intros z Hz. apply in_app_or in Hz as [Hz|Hz].
      - apply in_map_iff in Hz as (? & <- & _). reflexivity.
      - apply in_map_iff in Hz as ([x y] & <- & Hp). destruct (in_znth _ _ Hp) as (i & Hi).
        rewrite znth_combine in Hi. destruct (znth (map g_min (tl ordered)) i) eqn:E1; [|discriminate].
        destruct (znth (map g_max ordered) i) eqn:E2; [|discriminate]. rewrite znth_map in E1, E2.
        destruct (znth (tl ordered) i) as [b|] eqn:E3; [|discriminate].
        destruct (znth ordered i) as [a|] eqn:E4; [|discriminate]. cbn in E1, E2.
        cbn. assert (x = g_min b) by congruence. assert (y = g_max a) by congruence. subst x y. apply (B i a b); auto.
        assert (0 <= i) by (apply znth_some in E4; lia).
        destruct ordered as [|o t]; [now rewrite znth_nil in E4|]. rewrite znth_cons.
        rewrite (proj2 (Z.eqb_neq (i + 1) 0)) by lia. now replace (i + 1 - 1) with i by lia. }
    set (all := _ ++ _) in *. assert (CM : close_to_median (np_sort all) = true).
    { assert (NA : np_sort all <> []).
      { intros E. apply (f_equal zlen) in E. rewrite zlen_np_sort in E. unfold all in E. rewrite zlen_app, !zlen_map, zlen_nil in E.
        pose proof (zlen_nonneg (map (fun p : Z * Z => fst p - snd p) (combine (map g_min (tl ordered)) (map g_max ordered)))).
        rewrite zlen_map in *. destruct rows; [congruence|]. rewrite zlen_cons in E. pose proof (zlen_nonneg rows). lia. }
      assert (A' : forall z, In z (np_sort all) -> z = s) by (intros z Hz; apply A; now apply in_np_sort).
      revert NA A'. generalize (np_sort all) as w. intros w NA A'. unfold close_to_median. destruct w as [|w0 w]; [congruence|].
      assert (T : twice_median (w0 :: w) = 2 * s).
      { unfold twice_median. assert (NT : forall k, (k < length (w0 :: w))%nat -> nth k (w0 :: w) 0 = s).
        { intros k Hk. apply A'. now apply nth_In. }
        destruct (Nat.even _) eqn:EV; rewrite ?NT; try lia.
        all: cbn [length] in *; try (apply Nat.div_lt_upper_bound; lia).
        pose proof (Nat.div_lt (Datatypes.S (length w)) 2 ltac:(lia) ltac:(lia)); lia. }
      rewrite T. apply forallb_forall. intros z Hz. rewrite (A' z Hz). lia. }
    rewrite CM. reflexivity.
Qed.

Lemma group_step_gap argsort rows a b : valid_argsort argsort -> 2 <= zlen rows ->
  (exists s, forall r, In r rows -> g_step r = Some s /\ 0 < s) ->
  forall ordered, Permutation ordered rows -> staggered ordered ->
  (exists i, znth ordered i = Some a /\ znth ordered (i + 1) = Some b) ->
  (forall s, g_step a = Some s -> 2 * s <= g_min b - g_max a) ->
  group_step argsort false rows = None.
Proof.
  intros V L [s H] ordered P S (i & Ha & Hb) G.
  unfold group_step. rewrite (proj2 (Z.ltb_ge _ _) L). cbn [orb].
  rewrite (take_rows_staggered argsort rows ordered V P S).
  set (all := some_steps (map g_step rows) ++ _).
  assert (I1 : In s (np_sort all)).
  { apply in_np_sort. apply in_or_app. left. rewrite (some_steps_all _ s).
    - destruct rows; [cbn in L; lia|]. cbn. auto.
    - intros x Hx. apply in_map_iff in Hx as (r & <- & Hr). now apply H. }
  assert (I2 : In (g_min b - g_max a) (np_sort all)).
  { apply in_np_sort. apply in_or_app. right. apply in_map_iff. exists (g_min b, g_max a). split; auto.
    assert (0 <= i) by (apply znth_some in Ha; lia).
    apply (znth_in _ i). rewrite znth_combine, !znth_map, Ha.
    destruct ordered as [|o t]; [now rewrite znth_nil in Ha|]. rewrite znth_cons in Hb.
    rewrite (proj2 (Z.eqb_neq (i + 1) 0)) in Hb by lia. replace (i + 1 - 1) with i in Hb by lia. cbn [tl]. now rewrite Hb. }
  assert (Hs : 0 < s /\ 2 * s <= g_min b - g_max a).
  { assert (In a rows) as Ia by (eapply Permutation_in; [exact P|eapply znth_in; eauto]).
    destruct (H a Ia) as [E ?]. split; auto. }
  destruct (close_to_median (np_sort all)) eqn:C; [exfalso|now rewrite Bool.andb_false_r].
  apply close_to_median_spec in C as (_ & m2 & C). pose proof (C _ I1) as X. pose proof (C _ I2) as Y. unfold near_half in *. lia.
Qed.

(** ** The warning *)
Lemma merge_warning_spec argsort c rows : valid_argsort argsort -> 0 < c_tol_den c -> positive_steps (map g_step rows) ->
  merge_warning argsort c rows = true <->
  3 * c_tol_den c < 2 * c_tol_num c /\
  exists i j lab x y, znth (group_labels argsort c rows) i = Some lab /\ znth (group_labels argsort c rows) j = Some lab /\
    znth (continuity_groups argsort 3 2 rows) i = Some x /\ znth (continuity_groups argsort 3 2 rows) j = Some y /\ x <> y.
Proof.
  intros V Hd PS. destruct (labels_spec argsort c rows V Hd PS) as [LL _].
  destruct (continuity_spec argsort 3 2 rows V ltac:(lia)) as [LC _].
  unfold merge_warning. set (labels := group_labels argsort c rows) in *.
  set (df := continuity_groups argsort 3 2 rows) in *.
  rewrite Bool.andb_true_iff, Z.ltb_lt, existsb_exists. split; intros [T X]; split; auto.
  - destruct X as (lab & Hl & Hne). apply unique_labels_in in Hl as [Hl _].
    assert (NE : rows_with lab labels df <> []) by (apply rows_with_nonempty; auto; lia).
    destruct (min_of_least _ NE) as [A _], (max_of_greatest _ NE) as [B _].
    apply rows_with_in in A as (i & A1 & A2), B as (j & B1 & B2).
    exists i, j, lab, (min_of (rows_with lab labels df)), (max_of (rows_with lab labels df)). repeat split; auto. lia.
  - destruct X as (i & j & lab & x & y & A1 & B1 & A2 & B2 & N). exists lab. split.
    + apply unique_labels_in. split; auto. eapply znth_in; eauto.
    + assert (IX : In x (rows_with lab labels df)) by (apply rows_with_in; eauto).
      assert (IY : In y (rows_with lab labels df)) by (apply rows_with_in; eauto).
      assert (NE : rows_with lab labels df <> []) by (intros E; rewrite E in IX; destruct IX).
      destruct (min_of_least _ NE) as [_ A], (max_of_greatest _ NE) as [_ B].
      pose proof (A x IX). pose proof (A y IY). pose proof (B x IX). pose proof (B y IY). lia.
Qed.

(** ** Sample estimate *)
Definition row_limits (r : seg) : Z * Z * option Z := (g_min r, g_max r, g_step r).
Lemma estimate_grid base s rows : 0 < s -> Forall (grid_seg base s) rows ->
  estimate_samples (map row_limits rows) = Some (zlen (concat (map (seg_samples s) rows))).
Proof.
  intros Hs F. unfold estimate_samples. rewrite map_map. induction F as [|r rows G F IH]; [reflexivity|].
  cbn [map fold_right]. rewrite IH. clear IH. destruct G as (E & G1 & G2 & L). unfold row_limits at 1. rewrite E.
  rewrite (proj2 (Z.eqb_neq s 0)) by lia.
  assert (D : (s | g_max r - g_min r)).
  { replace (g_max r - g_min r) with ((g_max r - base) - (g_min r - base)) by lia. now apply Z.divide_sub_r. }
  destruct D as [q Q]. rewrite Q, rhe_exact by lia. assert (0 <= q) by nia.
  rewrite (proj2 (Z.ltb_ge (q + 1) 0)) by lia. f_equal. cbn [concat]. rewrite zlen_app. f_equal.
  unfold seg_samples. rewrite zlen_progression, Q, Z.div_mul by lia. lia.
Qed.
Lemma estimate_some rows n : estimate_samples rows = Some n ->
  forall mn mx st, In (mn, mx, st) rows -> exists s, st = Some s /\ s <> 0 /\ 0 <= round_half_even (mx - mn) s + 1.
Proof.
  unfold estimate_samples. revert n. induction rows as [|[[a b] c] rows IH]; intros n E mn mx st H; [destruct H|].
  cbn [map fold_right] in E. destruct c as [s|]; [|discriminate].
  destruct (Z.eqb_spec s 0); [discriminate|]. destruct (fold_right _ _ _) as [k|] eqn:K in E; [|discriminate].
  destruct (Z.ltb_spec (round_half_even (b - a) s + 1) 0); [discriminate|].
  destruct H as [H|H]; [|eapply IH; eauto]. injection H as <- <- <-. exists s. auto.
Qed.

(** ** Merging a spool with one group key *)
Lemma merge_one_key {D} argsort c base s key rows (load : Z -> list (Z * D)) (f : Z -> D) :
  valid_argsort argsort -> validate_chunker c = Ok tt -> c_value c = None ->
  0 < s -> 0 < c_tol_den c -> c_tol_num c < 2 * c_tol_den c -> rows <> [] ->
  Forall (grid_seg base s) rows -> (forall r, In r rows -> g_key r = key) ->
  (exists ordered, Permutation ordered rows /\ staggered ordered) ->
  mergeable (c_raise c) rows ->
  (forall r, In r rows -> load (g_idx r) = map (fun x => (x, f x)) (seg_samples s r)) ->
  exists chs ins, spool_chunk argsort c rows = Ok (chs, ins) /\
    (forall ch, In ch chs -> concat (patch_parts load ins (k_idx ch)) = signal f (k_min ch) s (k_max ch)) /\
    (forall x, (exists r, In r rows /\ In x (seg_samples s r)) <->
               (exists ch, In ch chs /\ In x (map fst (signal f (k_min ch) s (k_max ch))))).
Proof.
  intros V VC CV Hs Hd Hn NE F K ST M HL.
  assert (PS : positive_steps (map g_step rows)).
  { intros x Hx. apply in_map_iff in Hx as (r & E & Hr). rewrite Forall_forall in F. destruct (F r Hr) as (Es & _). congruence. }
  destruct (labels_spec argsort c rows V Hd PS) as [LL _]. set (labels := group_labels argsort c rows) in *.
  pose proof (groups_good argsort c base s key rows V Hs Hd Hn F K ST) as GG. fold labels in GG.
  assert (SUB : forall lab r, In r (rows_with lab labels rows) -> In r rows).
  { intros lab r Hr. apply rows_with_in in Hr as (i & _ & Hr). eapply znth_in; eauto. }
  assert (GI : forall lab, group_intervals c (rows_with lab labels rows)
     = Ok [(min_of (map g_min (rows_with lab labels rows)), max_of (map g_max (rows_with lab labels rows)))]).
  { intros lab. unfold group_intervals. rewrite CV. reflexivity. }
  assert (CO : chunk argsort c rows = Ok (labels, number_chunks (concat (map (group_rows argsort c labels rows) (unique_labels [] labels))))).
  { destruct (chunk_spec argsort c rows NE VC) as (A & _ & _). apply A.
    - intros lab Hl. unfold group_fine. fold labels. rewrite GI. destruct M as [M1 M2]. split; intros; [|intros]; eauto.
    - fold labels. intros N. destruct labels as [|lab t] eqn:EL.
      + rewrite zlen_nil in LL. symmetry in LL. apply zlen_zero in LL. congruence.
      + rewrite <- EL in *. specialize (N lab). rewrite GI in N. assert (In lab labels) as X by (rewrite EL; cbn; auto).
        specialize (N X). discriminate. }
  set (chs := number_chunks _) in CO.
  destruct (spool_chunk_data argsort c rows load (fun _ => s) (fun _ => f) labels chs V NE CO LL) as (ins & E & DA).
  { intros lab Hl. split; [auto|]. split; [unfold whole_steps; now rewrite CV|]. intros r Hr. apply HL. eauto. }
  exists chs, ins. split; auto. split; [intros ch Hch; now apply DA|].
  assert (CH : forall ch, In ch chs -> In (k_group ch) labels /\
            k_min ch = min_of (map g_min (rows_with (k_group ch) labels rows)) /\
            k_max ch = max_of (map g_max (rows_with (k_group ch) labels rows))).
  { intros ch Hch. destruct (in_number _ _ Hch) as (ch0 & H0 & E1 & E2 & _ & E4).
    apply in_concat in H0 as (l & Hl & H0). apply in_map_iff in Hl as (lab & <- & Hlab).
    apply unique_labels_in in Hlab as [Hlab _]. unfold group_rows in H0. rewrite GI in H0.
    apply in_map_iff in H0 as (iv & <- & [<-|[]]). cbn in *. rewrite E4, E1, E2. auto. }
  assert (HC : forall lab, In lab labels -> exists ch, In ch chs /\ k_group ch = lab).
  { intros lab Hl. destruct (in_znth (concat (map (group_rows argsort c labels rows) (unique_labels [] labels)))
      (mkChunk 0 (min_of (map g_min (rows_with lab labels rows))) (max_of (map g_max (rows_with lab labels rows)))
               (group_step argsort (c_snap c) (rows_with lab labels rows)) lab)) as (i & Hi).
    - apply in_concat. exists (group_rows argsort c labels rows lab). split.
      + apply in_map. apply unique_labels_in. cbn. auto.
      + unfold group_rows. rewrite GI. cbn. auto.
    - pose proof (number_spec (concat (map (group_rows argsort c labels rows) (unique_labels [] labels))) i) as N.
      rewrite Hi in N. eexists. split; [eapply znth_in; exact N|reflexivity]. }
  assert (SIG : forall ch x, In x (map fst (signal f (k_min ch) s (k_max ch))) <->
             k_min ch <= x <= k_max ch /\ (s | x - k_min ch)).
  { intros ch x. unfold signal. rewrite map_map. cbn. rewrite map_id.
    exact (in_samples s (mkSeg 0 (k_min ch) (k_max ch) None 0 0 0 false) x Hs). }
  intros x. split.
  - intros (r & Hr & Hx). destruct (in_znth _ _ Hr) as (i & Hi). pose proof (znth_some _ _ _ Hi) as B.
    rewrite <- LL in B. apply znth_range in B as (lab & Hlab).
    assert (Hrl : In r (rows_with lab labels rows)) by (apply rows_with_in; eauto).
    destruct (HC lab (znth_in _ _ _ Hlab)) as (ch & Hch & Eg). exists ch. split; auto. apply SIG.
    destruct (CH ch Hch) as (_ & E1 & E2). rewrite Eg in E1, E2.
    assert (NEr : rows_with lab labels rows <> []) by (intros X; rewrite X in Hrl; destruct Hrl).
    destruct (min_of_least (map g_min (rows_with lab labels rows))) as [A1 A2]; [intros X; apply map_eq_nil in X; auto|].
    destruct (max_of_greatest (map g_max (rows_with lab labels rows))) as [B1 B2]; [intros X; apply map_eq_nil in X; auto|].
    rewrite <- E1 in A1, A2. rewrite <- E2 in B1, B2.
    specialize (A2 _ (in_map g_min _ _ Hrl)). specialize (B2 _ (in_map g_max _ _ Hrl)).
    apply in_map_iff in A1 as (r1 & R1 & R1').
    rewrite Forall_forall in F. pose proof (F r Hr) as Gr. pose proof (F r1 (SUB _ _ R1')) as Gr1.
    apply (in_samples_inside base s r x Hs Gr) in Hx as [Hx Gx]. unfold inside in Hx. split; [lia|].
    rewrite <- R1. apply (grid_shift base s (g_min r1) x); [apply Gr1|exact Gx].
  - intros (ch & Hch & Hx). apply SIG in Hx as [Hx Dx]. destruct (CH ch Hch) as (Hl & E1 & E2).
    destruct (GG _ Hl) as (_ & b2 & ordered & P & FO & S & C). set (lab := k_group ch) in *.
    assert (NEr : rows_with lab labels rows <> []) by (apply rows_with_nonempty; auto).
    destruct (min_of_least (map g_min (rows_with lab labels rows))) as [A1 _]; [intros X; apply map_eq_nil in X; auto|].
    destruct (max_of_greatest (map g_max (rows_with lab labels rows))) as [B1 _]; [intros X; apply map_eq_nil in X; auto|].
    apply in_map_iff in A1 as (r1 & R1 & R1'), B1 as (r2 & R2 & R2').
    assert (IO : forall r, In r (rows_with lab labels rows) -> In r ordered).
    { intros r Hr. eapply Permutation_in; [symmetry; exact P|auto]. }
    destruct (covered_points b2 s ordered Hs FO S C x) as (r & Hr & Hxr).
    + rewrite Forall_forall in FO. pose proof (FO r1 (IO _ R1')) as (_ & G1 & _).
      apply (grid_shift b2 s (g_min r1) x G1). rewrite R1, <- E1. exact Dx.
    + exists r1. split; auto. lia.
    + exists r2. split; auto. lia.
    + exists r. split; auto. apply (SUB lab). eapply Permutation_in; [exact P|auto].
Qed.

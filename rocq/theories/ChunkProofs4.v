(** Proofs about chunking, part 4: the chunk table, and the data of every output
    patch for spools with any number of groups. *)
From Verif Require Import Base BaseFacts CoordModel CoordSpec CoordProofs CoordProofs2 CoordProofs5 ChunkModel ChunkSpec
  ChunkProofs ChunkProofs2 ChunkProofs3.
From Coq Require Import ZifyBool Sorting.Permutation Sorting.Sorted Lia ZArith.
Ltac Zify.zify_post_hook ::= Z.div_mod_to_equations.

Lemma zlen_number l : zlen (number_chunks l) = zlen l.
Proof. unfold number_chunks. rewrite zlen_map, zlen_combine, zlen_zrange. pose proof (zlen_nonneg l). lia. Qed.
Lemma number_spec l i : znth (number_chunks l) i =
  match znth l i with Some ch => Some (mkChunk i (k_min ch) (k_max ch) (k_step ch) (k_group ch)) | None => None end.
Proof.
  unfold number_chunks. rewrite znth_map, znth_combine, znth_zrange. destruct (znth l i) as [ch|] eqn:E.
  - apply znth_some in E. replace ((0 <=? i) && (i <? zlen l)) with true by lia. reflexivity.
  - now destruct (_ && _).
Qed.
Lemma number_nodup l : NoDup (map k_idx (number_chunks l)).
Proof.
  replace (map k_idx (number_chunks l)) with (zrange (zlen l)); [apply zsorted_NoDup, zsorted_zrange|].
  apply znth_ext. intros i. rewrite znth_map, number_spec, znth_zrange.
  destruct (znth l i) as [ch|] eqn:E; cbn.
  - apply znth_some in E. now replace ((0 <=? i) && (i <? zlen l)) with true by lia.
  - apply znth_none in E. now replace ((0 <=? i) && (i <? zlen l)) with false by lia.
Qed.

Lemma all_equal_spec l : all_equal l = true <-> forall a b, In a l -> In b l -> a = b.
Proof.
  destruct l as [|x t]; cbn; [split; intros; tauto|]. rewrite forallb_forall. split.
  - intros H a b Ha Hb. assert (X : forall c, x = c \/ In c t -> x = c).
    { intros c [|Hc]; auto. apply Z.eqb_eq; auto. }
    rewrite <- (X a Ha), <- (X b Hb). reflexivity.
  - intros H y Hy. apply Z.eqb_eq. apply H; auto.
Qed.
Lemma mergeable_spec raise rows :
  all_equal (map g_dims rows) && (negb raise || all_equal (map g_rest rows)) = true <-> mergeable raise rows.
Proof.
  rewrite Bool.andb_true_iff, Bool.orb_true_iff, !all_equal_spec. unfold mergeable. split.
  - intros [A B]. split; [intros; apply A; now apply in_map|]. intros -> a b Ha Hb.
    destruct B as [B|B]; [discriminate|]. apply B; now apply in_map.
  - intros [A B]. split.
    + intros a b Ha Hb. apply in_map_iff in Ha as (x & <- & Ha), Hb as (y & <- & Hb). auto.
    + destruct raise; [right|left; reflexivity]. intros a b Ha Hb.
      apply in_map_iff in Ha as (x & <- & Ha), Hb as (y & <- & Hb). auto.
Qed.

Lemma group_chunks_ok argsort c labels rows todo :
  (forall lab, In lab todo -> group_fine c (rows_with lab labels rows)) ->
  exists dfs, group_chunks argsort c labels rows todo = Ok dfs /\
    concat dfs = concat (map (group_rows argsort c labels rows) todo) /\
    (dfs = [] <-> forall lab, In lab todo -> group_intervals c (rows_with lab labels rows) = Err ChunkError).
Proof.
  induction todo as [|lab t IH]; intros H.
  - exists []. cbn. repeat split; auto; intros; tauto.
  - destruct IH as (dfs & E & C & N); [intros; apply H; cbn; auto|].
    pose proof (H lab (or_introl eq_refl)) as Hl. cbn [group_chunks map concat].
    unfold group_fine in Hl. unfold group_rows at 1. unfold group_intervals in *.
    destruct (get_intervals _ _ _ _ _ _) as [ivs|e] eqn:I.
    + apply mergeable_spec in Hl. unfold create_rows. rewrite Hl. cbn [bind]. rewrite E. cbn [bind].
      eexists. split; [reflexivity|]. split; [cbn; now rewrite C|]. split; [discriminate|].
      intros X. specialize (X lab (or_introl eq_refl)). rewrite I in X. discriminate.
    + subst e. exists dfs. split; auto. split; auto. rewrite N. split; intros X l Hl'.
      * destruct Hl' as [<-|Hl']; auto.
      * apply X. cbn. auto.
Qed.
Lemma group_chunks_fine argsort c labels rows todo dfs :
  group_chunks argsort c labels rows todo = Ok dfs ->
  forall lab, In lab todo -> group_fine c (rows_with lab labels rows).
Proof.
  revert dfs. induction todo as [|lab t IH]; intros dfs H l Hl; [destruct Hl|]. cbn [group_chunks] in H.
  unfold group_fine, group_intervals in *.
  destruct (get_intervals (min_of (map g_min (rows_with lab labels rows))) _ _ _ _ _) as [ivs|e] eqn:I.
  - unfold create_rows in H. destruct (_ && _) eqn:M in H; [|discriminate]. cbn [bind] in H.
    destruct (group_chunks argsort c labels rows t) as [rest|] eqn:G; [|discriminate].
    destruct Hl as [<-|Hl]; [rewrite I; now apply mergeable_spec|eapply IH; eauto].
  - destruct e; try discriminate. destruct Hl as [<-|Hl]; [now rewrite I|eapply IH; eauto].
Qed.

Lemma bindI {A B} (x : result A) (f : A -> result B) y : bind x f = Ok y -> exists a, x = Ok a /\ f a = Ok y.
Proof. destruct x; cbn; [eauto|discriminate]. Qed.

Lemma chunk_spec argsort c rows : rows <> [] -> validate_chunker c = Ok tt ->
  let labels := group_labels argsort c rows in
  let fine := forall lab, In lab labels -> group_fine c (rows_with lab labels rows) in
  let none := forall lab, In lab labels -> group_intervals c (rows_with lab labels rows) = Err ChunkError in
  (fine -> ~ none -> chunk argsort c rows
     = Ok (labels, number_chunks (concat (map (group_rows argsort c labels rows) (unique_labels [] labels))))) /\
  (none -> chunk argsort c rows = Err ChunkError) /\
  (forall out, chunk argsort c rows = Ok out -> fine /\ ~ none).
Proof.
  intros NE V labels fine none.
  assert (U : forall lab, In lab (unique_labels [] labels) <-> In lab labels).
  { intros lab. rewrite unique_labels_in. cbn. tauto. }
  unfold chunk. rewrite V. cbn [bind]. destruct rows as [|r0 rows0]; [congruence|].
  set (rows := r0 :: rows0) in *. fold labels. split; [|split].
  - intros F N. destruct (group_chunks_ok argsort c labels rows (unique_labels [] labels)) as (dfs & E & C & D).
    { intros lab Hl. apply F. now apply U. }
    rewrite E. cbn [bind]. destruct dfs as [|d dfs].
    + exfalso. apply N. intros lab Hl. apply (proj1 D eq_refl). now apply U.
    + now rewrite C.
  - intros N. destruct (group_chunks_ok argsort c labels rows (unique_labels [] labels)) as (dfs & E & C & D).
    { intros lab Hl. unfold group_fine. rewrite N; auto. now apply U. }
    rewrite E. cbn [bind]. destruct dfs as [|d dfs]; auto. exfalso.
    assert (d :: dfs = []) by (apply D; intros; apply N; now apply U). discriminate.
  - intros out H. apply bindI in H as (dfs & E & H).
    pose proof (group_chunks_fine _ _ _ _ _ _ E) as F.
    destruct (group_chunks_ok argsort c labels rows (unique_labels [] labels) F) as (dfs' & E' & C & D).
    split; [intros lab Hl; apply F; now apply U|]. intros N. rewrite E in E'. injection E' as <-.
    assert (dfs = []) by (apply D; intros; apply N; now apply U). subst. discriminate.
Qed.

(** ** Chunks of a good group lie on its grid *)

Lemma min_of_least l : l <> [] -> is_least (min_of l) l.
Proof. intros H. unfold min_of. destruct l as [|x t]; [congruence|]. now apply list_min_least. Qed.
Lemma max_of_greatest l : l <> [] -> is_greatest (max_of l) l.
Proof. intros H. unfold max_of. destruct l as [|x t]; [congruence|]. now apply list_max_greatest. Qed.

Lemma chunk_grid base s c rows ivs a b : 0 < s -> rows <> [] -> Forall (grid_seg base s) rows ->
  whole_steps s c -> group_intervals c rows = Ok ivs -> In (a, b) ivs ->
  on_grid base s a /\ on_grid base s b /\ a <= b /\
  (exists r, In r rows /\ g_min r <= a) /\ (exists r, In r rows /\ b <= g_max r).
Proof.
  intros Hs NE F W G I. unfold group_intervals in G.
  destruct (min_of_least (map g_min rows)) as [A1 A2]; [destruct rows; cbn; congruence|].
  destruct (max_of_greatest (map g_max rows)) as [B1 B2]; [destruct rows; cbn; congruence|].
  set (mn := min_of (map g_min rows)) in *. set (mx := max_of (map g_max rows)) in *.
  apply in_map_iff in A1 as (r1 & E1 & R1), B1 as (r2 & E2 & R2).
  rewrite Forall_forall in F. pose proof (F _ R1) as (_ & G1 & _ & L1). pose proof (F _ R2) as (_ & _ & G2 & L2).
  rewrite E1 in G1. rewrite E2 in G2.
  assert (mn <= mx). { specialize (B2 (g_max r1) (in_map _ _ _ R1)). lia. }
  assert (FS : first_step rows = Some s). { destruct rows as [|r t]; [congruence|]. cbn. apply (F r); cbn; auto. }
  rewrite FS in G.
  assert (X : mn <= a /\ on_grid base s a /\ on_grid base s b /\ a <= b /\ b <= mx).
  { unfold whole_steps in W. destruct (c_value c) as [v|].
    - destruct W as (D1 & V & D2).
      assert (LE : s <= v) by (apply Z.divide_pos_le; auto).
      destruct (Z_lt_le_dec v (or0 (c_overlap c))) as [O|O].
      { rewrite (proj1 (intervals_errors _ _ _ _ _ _) O) in G. discriminate. }
      destruct (Z.eq_dec v (or0 (c_overlap c))) as [O'|O'].
      { rewrite (proj2 (intervals_errors _ _ _ _ _ _) O') in G. destruct (_ && _); discriminate. }
      assert (OV : or0 (c_overlap c) < v) by lia.
      destruct (intervals_inside mn mx v (c_overlap c) (Some s) (c_keep c) ivs a b) as (P1 & P2 & P3); auto; cbn [or0]; try lia.
      pose proof (intervals_spec mn mx v (c_overlap c) (Some s) (c_keep c) ltac:(cbn [or0]; lia) OV) as SP.
      cbv zeta in SP. destruct (_ && _) in SP; [rewrite SP in G; discriminate|].
      destruct SP as (n & _ & SP & _). rewrite SP in G. injection G as <-.
      apply in_map_iff in I as (i & E & Hi). cbn [or0] in E.
      assert (Ea : mn + i * (v - or0 (c_overlap c)) = a) by congruence.
      assert (Eb : Z.min (mn + i * (v - or0 (c_overlap c)) + v - s)
          (if c_keep c then mx else mn + i * (v - or0 (c_overlap c)) + v - s) = b) by congruence.
      assert (Ga : on_grid base s a).
      { unfold on_grid in *. replace (a - base) with ((mn - base) + i * (v - or0 (c_overlap c))) by lia.
        apply Z.divide_add_r; auto. apply Z.divide_mul_r. now apply Z.divide_sub_r. }
      assert (Gb : on_grid base s (a + v - s)).
      { unfold on_grid in *. replace (a + v - s - base) with ((a - base) + (v - s)) by lia.
        apply Z.divide_add_r; auto. apply Z.divide_sub_r; auto. apply Z.divide_refl. }
      repeat split; auto. rewrite <- Eb, Ea. destruct (c_keep c).
      + destruct (Z.min_spec (a + v - s) mx) as [[_ ->]|[_ ->]]; auto.
      + rewrite Z.min_id. auto.
    - cbn in G. injection G as <-. destruct I as [I|[]]. assert (mn = a) by congruence. assert (mx = b) by congruence.
      subst a b. repeat split; auto; lia. }
  destruct X as (P1 & P2 & P3 & P4 & P5). repeat split; auto.
  - exists r1. split; auto. lia.
  - exists r2. split; auto. lia.
Qed.

(** ** Every output patch *)
Lemma rows_with_nonempty {A} lab labels (rows : list A) : zlen labels = zlen rows -> In lab labels ->
  rows_with lab labels rows <> [].
Proof.
  intros L H E. destruct (in_znth _ _ H) as (i & Hi). pose proof (znth_some _ _ _ Hi) as B. rewrite L in B.
  apply znth_range in B as (r & Hr). assert (In r (rows_with lab labels rows)) as X by (apply rows_with_in; eauto).
  rewrite E in X. destruct X.
Qed.
Lemma parts_pairs {D} (load : Z -> list (Z * D)) ins cur p : In p (concat (patch_parts load ins cur)) ->
  exists i, In i ins /\ In p (load (i_src i)).
Proof.
  intros H. apply in_concat in H as (l & Hl & Hp). unfold patch_parts in Hl.
  apply in_map_iff in Hl as (i & <- & Hi). apply filter_In in Hi as [Hi _]. exists i. split; auto.
  unfold load_trimmed in Hp. destruct (i_mod i); auto. now apply filter_In in Hp.
Qed.
Lemma pairs_of_fst {D} (f : Z -> D) (l : list (Z * D)) : (forall p, In p l -> snd p = f (fst p)) ->
  l = map (fun x => (x, f x)) (map fst l).
Proof.
  induction l as [|[x d] l IH]; intros H; cbn; auto. rewrite <- IH by (intros; apply H; cbn; auto).
  pose proof (H (x, d) (or_introl eq_refl)) as E. cbn in E. now rewrite E.
Qed.

(** Sources mentioned by the instructions are sources of the group. *)
Lemma gather_in {A} (l : list A) is r x : gather l is = Some r -> In x r -> In x l.
Proof.
  intros G H. destruct (in_znth _ _ H) as (i & Hi). rewrite (gather_znth _ _ _ G) in Hi.
  destruct (znth is i) as [j|]; [|discriminate]. now apply znth_in in Hi.
Qed.
Lemma map_result_in {A B} (f : A -> result B) l ys y : map_result f l = Ok ys -> In y ys -> exists x, In x l /\ f x = Ok y.
Proof.
  revert ys. induction l as [|x l IH]; intros ys E H; cbn in E; [injection E as <-; destruct H|].
  apply bindI in E as (a & Ea & E). apply bindI in E as (t & Et & E). injection E as <-.
  destruct H as [<-|H]; [exists x; cbn; auto|]. destruct (IH t Et H) as (x' & ? & ?). exists x'. cbn. auto.
Qed.
Lemma instructions_src argsort srcs chs ins i : instructions argsort srcs chs = Ok ins -> In i ins ->
  (exists r, In r srcs /\ i_src i = g_idx r) /\ (exists ch, In ch chs /\ i_cur i = k_idx ch).
Proof.
  unfold instructions. intros E H.
  set (tr := remove_overlaps (take_rows srcs (argsort (map g_min srcs)))) in *.
  destruct (forallb _ _) in E; [|discriminate]. apply bindI in E as (rows & E & E'). injection E' as <-.
  apply in_concat in H as (l & Hl & Hi). destruct (map_result_in _ _ _ _ E Hl) as (ch & Hch & Ec).
  unfold chunk_rows in Ec. destruct (chunk_inds _ _ _) as [lo hi]. destruct (hi <? lo); [discriminate|].
  destruct (gather tr _) as [ss|] eqn:G; [|discriminate]. injection Ec as <-.
  apply in_map_iff in Hi as (r' & <- & Hr'). apply (gather_in _ _ _ _ G) in Hr'. cbn. split.
  - destruct (Forall2_In_r _ _ _ _ (remove_overlaps_fields _) Hr') as (r & Hr & Ei & _). exists r. split; auto.
    unfold take_rows in Hr. destruct (gather srcs _) eqn:G'; [|destruct Hr]. now apply (gather_in _ _ _ _ G') in Hr.
  - exists ch. split; auto. destruct (gather chs _) eqn:G'; [|destruct Hch]. now apply (gather_in _ _ _ _ G') in Hch.
Qed.

Lemma NoDup_filter_map {A B} (f : A -> B) p l : NoDup (map f l) -> NoDup (map f (filter p l)).
Proof.
  induction l as [|x l IH]; cbn; intros H; auto. inversion H as [|? ? N H']; subst. destruct (p x); cbn; auto.
  constructor; auto. intros C. apply N. apply in_map_iff in C as (y & E & Hy). apply filter_In in Hy as [Hy _].
  rewrite <- E. now apply in_map.
Qed.
Lemma map_id_inj {A} (f : A -> Z) l x y : NoDup (map f l) -> In x l -> In y l -> f x = f y -> x = y.
Proof.
  induction l as [|z l IH]; cbn; intros ND Hx Hy E; [tauto|]. inversion ND as [|? ? N ND']; subst.
  destruct Hx as [->|Hx], Hy as [->|Hy]; auto.
  - exfalso. apply N. rewrite E. now apply in_map.
  - exfalso. apply N. rewrite <- E. now apply in_map.
Qed.

Lemma patch_parts_app {D} (load : Z -> list (Z * D)) a b cur :
  patch_parts load (a ++ b) cur = patch_parts load a cur ++ patch_parts load b cur.
Proof. unfold patch_parts. now rewrite filter_app, map_app. Qed.
Lemma patch_parts_none {D} (load : Z -> list (Z * D)) a cur :
  (forall i, In i a -> i_cur i <> cur) -> patch_parts load a cur = [].
Proof.
  intros H. unfold patch_parts. rewrite filter_none; auto. intros i Hi. apply Z.eqb_neq. auto.
Qed.

Lemma windows_sub a b l : (forall r, In r a -> In r b) -> windows a l -> windows b l.
Proof. intros H W i Hi. destruct (W i Hi) as (A & r & Hr & B). split; auto. exists r. split; auto. Qed.
Lemma rows_with_sub {A} lab labels (rows : list A) r : In r (rows_with lab labels rows) -> In r rows.
Proof.
  unfold rows_with. intros H. apply in_map_iff in H as ([lb r'] & <- & H). apply filter_In in H as [H _].
  cbn. eapply in_combine_r; eauto.
Qed.

Lemma groups_data {D} argsort labels rows chs (load : Z -> list (Z * D)) (sg : label -> Z) (f : label -> Z -> D) :
  valid_argsort argsort -> NoDup (map k_idx chs) ->
  forall todo, NoDup todo ->
  (forall lab, In lab todo ->
     (forall ch, In ch chs -> k_group ch = lab ->
        exists base, Forall (grid_seg base (sg lab)) (rows_with lab labels rows) /\
          on_grid base (sg lab) (k_min ch) /\ on_grid base (sg lab) (k_max ch) /\ k_min ch <= k_max ch /\
          (exists r, In r (rows_with lab labels rows) /\ g_min r <= k_min ch) /\
          (exists r, In r (rows_with lab labels rows) /\ k_max ch <= g_max r)) /\
     good_group (sg lab) (rows_with lab labels rows) /\
     (forall r, In r (rows_with lab labels rows) ->
        load (g_idx r) = map (fun x => (x, f lab x)) (seg_samples (sg lab) r))) ->
  exists parts, map_result (fun lab =>
      instructions argsort (rows_with lab labels rows) (filter (fun ch => label_eqb lab (k_group ch)) chs)) todo
    = Ok parts /\
    (forall i, In i (concat parts) -> exists ch, In ch chs /\ In (k_group ch) todo /\ i_cur i = k_idx ch) /\
    forall ch, In ch chs -> In (k_group ch) todo ->
      concat (patch_parts load (concat parts) (k_idx ch))
      = signal (f (k_group ch)) (k_min ch) (sg (k_group ch)) (k_max ch) /\
      zsorted (map i_min (filter (fun i => i_cur i =? k_idx ch) (concat parts))) /\
      windows rows (filter (fun i => i_cur i =? k_idx ch) (concat parts)).
Proof.
  intros V ND todo. induction todo as [|lab t IH]; intros NT H.
  { exists []. cbn. repeat split; auto; intros; tauto. }
  inversion NT as [|? ? NI NT']; subst.
  destruct IH as (parts & EP & CU & DA); auto. { intros; apply H; cbn; auto. }
  destruct (H lab (or_introl eq_refl)) as (HC & GG & HL). destruct GG as (Hs & base & ordered & P & F & S & C).
  set (sub := rows_with lab labels rows) in *. set (mine := filter (fun ch => label_eqb lab (k_group ch)) chs).
  assert (HM : forall ch, In ch mine <-> In ch chs /\ k_group ch = lab).
  { intros ch. unfold mine. rewrite filter_In, label_eqb_spec. intuition congruence. }
  destruct (chunk_data argsort base (sg lab) sub ordered mine load) as (ins & EI & DI); auto.
  { intros r Hr. rewrite HL by auto. rewrite map_map. cbn. apply map_id. }
  { now apply NoDup_filter_map. }
  { intros ch Hch. apply HM in Hch as [Hch Hg]. destruct (HC ch Hch Hg) as (b2 & F2 & G1 & G2 & R).
    destruct R as (R1 & (r & Hr & R2) & R3).
    assert (SH : forall x, on_grid b2 (sg lab) x -> on_grid base (sg lab) x).
    { intros x Gx. rewrite Forall_forall in F2. pose proof (F2 r Hr) as (_ & X & _).
      assert (Hr' : In r ordered) by (eapply Permutation_in; [symmetry; exact P|auto]).
      rewrite Forall_forall in F. pose proof (F r Hr') as (_ & Y & _).
      apply (grid_shift base (sg lab) (g_min r) x Y). apply (grid_shift b2 (sg lab) (g_min r) x X). exact Gx. }
    repeat split; eauto. }
  cbn [map_result]. fold sub. fold mine. rewrite EI. cbn [bind]. rewrite EP. cbn [bind].
  eexists. split; [reflexivity|]. cbn [concat]. split.
  - intros i Hi. apply in_app_or in Hi as [Hi|Hi].
    + destruct (instructions_src _ _ _ _ _ EI Hi) as (_ & ch & Hch & E). apply HM in Hch as [Hch Hg].
      exists ch. cbn. auto.
    + destruct (CU i Hi) as (ch & A & B & E). exists ch. cbn. auto.
  - intros ch Hch Hg. rewrite patch_parts_app, concat_app, filter_app.
    destruct Hg as [Hg|Hg].
    + assert (NO : forall i, In i (concat parts) -> i_cur i <> k_idx ch).
      { intros i Hi E. destruct (CU i Hi) as (ch' & A & B & E'). rewrite E in E'.
          assert (ch = ch') by (eapply (map_id_inj k_idx); eauto). subst ch'. rewrite Hg in NI. tauto. }
      rewrite (patch_parts_none load (concat parts)), app_nil_r by auto.
      rewrite (filter_none _ (concat parts)), app_nil_r by (intros i Hi; apply Z.eqb_neq; auto).
      assert (In ch mine) as Hm by (apply HM; auto). split; [|split; [now apply DI|]].
      2:{ apply (windows_sub sub); [intros r; apply rows_with_sub|now apply DI]. }
      rewrite (pairs_of_fst (f lab) (concat (patch_parts load ins (k_idx ch)))).
      * rewrite (proj1 (DI ch Hm)). now rewrite <- Hg.
      * intros p Hp. apply parts_pairs in Hp as (i & Hi & Hp).
        destruct (instructions_src _ _ _ _ _ EI Hi) as ((r & Hr & Er) & _). rewrite Er, HL in Hp by auto.
        apply in_map_iff in Hp as (x & <- & _). reflexivity.
    + assert (NO : forall i, In i ins -> i_cur i <> k_idx ch).
      { intros i Hi E. destruct (instructions_src _ _ _ _ _ EI Hi) as (_ & ch' & A & B). apply HM in A as [A A'].
          rewrite E in B. assert (ch = ch') by (eapply (map_id_inj k_idx); eauto). subst ch'. rewrite A' in Hg. tauto. }
      rewrite (patch_parts_none load ins), (filter_none _ ins) by (auto; intros i Hi; apply Z.eqb_neq; auto).
      cbn. apply DA; auto.
Qed.

Lemma in_number l ch : In ch (number_chunks l) -> exists ch0, In ch0 l /\ k_min ch = k_min ch0 /\
  k_max ch = k_max ch0 /\ k_step ch = k_step ch0 /\ k_group ch = k_group ch0.
Proof.
  intros H. destruct (in_znth _ _ H) as (i & Hi). rewrite number_spec in Hi.
  destruct (znth l i) as [ch0|] eqn:E; [|discriminate]. injection Hi as <-. exists ch0. cbn.
  split; auto. eapply znth_in; eauto.
Qed.

Lemma chunk_output argsort c rows labels chs : chunk argsort c rows = Ok (labels, chs) -> rows <> [] ->
  labels = group_labels argsort c rows /\
  (forall lab, In lab labels -> group_fine c (rows_with lab labels rows)) /\
  chs = number_chunks (concat (map (group_rows argsort c labels rows) (unique_labels [] labels))).
Proof.
  intros H NE. assert (V : validate_chunker c = Ok tt).
  { unfold chunk in H. destruct (validate_chunker c) as [[]|]; [auto|discriminate]. }
  destruct (chunk_spec argsort c rows NE V) as (A & _ & B). destruct (B _ H) as [F N].
  rewrite (A F N) in H. injection H as <- <-. auto.
Qed.

Lemma spool_chunk_windows {D} argsort c rows (load : Z -> list (Z * D)) (sg : label -> Z) (f : label -> Z -> D) labels chs :
  valid_argsort argsort -> rows <> [] -> chunk argsort c rows = Ok (labels, chs) ->
  zlen labels = zlen rows ->
  (forall lab, In lab labels ->
     good_group (sg lab) (rows_with lab labels rows) /\ whole_steps (sg lab) c /\
     (forall r, In r (rows_with lab labels rows) ->
        load (g_idx r) = map (fun x => (x, f lab x)) (seg_samples (sg lab) r))) ->
  exists ins, spool_chunk argsort c rows = Ok (chs, ins) /\
    forall ch, In ch chs -> k_min ch <= k_max ch /\
      concat (patch_parts load ins (k_idx ch))
      = signal (f (k_group ch)) (k_min ch) (sg (k_group ch)) (k_max ch) /\
      zsorted (map i_min (filter (fun i => i_cur i =? k_idx ch) ins)) /\
      windows rows (filter (fun i => i_cur i =? k_idx ch) ins).
Proof.
  intros V NE E L H. destruct (chunk_output _ _ _ _ _ E NE) as (EL & FI & EC).
  assert (IN : forall ch, In ch chs -> In (k_group ch) labels /\
            exists ivs, group_intervals c (rows_with (k_group ch) labels rows) = Ok ivs /\ In (k_min ch, k_max ch) ivs).
  { intros ch Hch. rewrite EC in Hch. destruct (in_number _ _ Hch) as (ch0 & H0 & E1 & E2 & _ & E4).
    apply in_concat in H0 as (l & Hl & H0). apply in_map_iff in Hl as (lab & <- & Hlab).
    apply unique_labels_in in Hlab as [Hlab _]. unfold group_rows in H0.
    destruct (group_intervals c (rows_with lab labels rows)) as [ivs|] eqn:G; [|destruct H0].
    apply in_map_iff in H0 as (iv & <- & Hiv). cbn in *. rewrite E4, E1, E2. split; auto. exists ivs. split; auto.
    now destruct iv. }
  assert (HG : forall lab, In lab (unique_labels [] (map k_group chs)) ->
     (forall ch, In ch chs -> k_group ch = lab ->
        exists base, Forall (grid_seg base (sg lab)) (rows_with lab labels rows) /\
          on_grid base (sg lab) (k_min ch) /\ on_grid base (sg lab) (k_max ch) /\ k_min ch <= k_max ch /\
          (exists r, In r (rows_with lab labels rows) /\ g_min r <= k_min ch) /\
          (exists r, In r (rows_with lab labels rows) /\ k_max ch <= g_max r)) /\
     good_group (sg lab) (rows_with lab labels rows) /\
     (forall r, In r (rows_with lab labels rows) ->
        load (g_idx r) = map (fun x => (x, f lab x)) (seg_samples (sg lab) r))).
  { intros lab Hlab. apply unique_labels_in in Hlab as [Hlab _]. apply in_map_iff in Hlab as (ch1 & E1 & Hch1).
    destruct (IN ch1 Hch1) as [Hl _]. rewrite E1 in Hl. destruct (H lab Hl) as (GG & W & HL).
    split; [|split; auto]. intros ch Hch Hg. destruct (IN ch Hch) as (_ & ivs & G & I). rewrite Hg in G.
    destruct GG as (Hs & base & ordered & P & F & S & C).
    exists base. assert (F' : Forall (grid_seg base (sg lab)) (rows_with lab labels rows)) by (eapply Permutation_Forall; eauto).
    split; auto. apply (chunk_grid base (sg lab) c (rows_with lab labels rows) ivs); auto.
    now apply rows_with_nonempty. }
  destruct (groups_data argsort labels rows chs load sg f) with (todo := unique_labels [] (map k_group chs))
    as (parts & EP & CU & DA); auto.
  - rewrite EC. apply number_nodup.
  - apply unique_labels_NoDup.
  - exists (concat parts). split.
    + unfold spool_chunk. rewrite E. cbn [bind fst snd]. unfold instruction_df. rewrite EP. reflexivity.
    + intros ch Hch. assert (HU : In (k_group ch) (unique_labels [] (map k_group chs))).
      { apply unique_labels_in. split; auto. now apply in_map. }
      split; [|apply DA; auto]. destruct (HG _ HU) as [HC _]. destruct (HC ch Hch eq_refl) as (? & _ & _ & _ & ? & _). auto.
Qed.

Lemma spool_chunk_data {D} argsort c rows (load : Z -> list (Z * D)) (sg : label -> Z) (f : label -> Z -> D) labels chs :
  valid_argsort argsort -> rows <> [] -> chunk argsort c rows = Ok (labels, chs) ->
  zlen labels = zlen rows ->
  (forall lab, In lab labels ->
     good_group (sg lab) (rows_with lab labels rows) /\ whole_steps (sg lab) c /\
     (forall r, In r (rows_with lab labels rows) ->
        load (g_idx r) = map (fun x => (x, f lab x)) (seg_samples (sg lab) r))) ->
  exists ins, spool_chunk argsort c rows = Ok (chs, ins) /\
    forall ch, In ch chs -> k_min ch <= k_max ch /\
      concat (patch_parts load ins (k_idx ch))
      = signal (f (k_group ch)) (k_min ch) (sg (k_group ch)) (k_max ch) /\
      zsorted (map i_min (filter (fun i => i_cur i =? k_idx ch) ins)).
Proof.
  intros V NE E L H. destruct (spool_chunk_windows argsort c rows load sg f labels chs V NE E L H) as (ins & A & B).
  exists ins. split; auto. intros ch Hch. destruct (B ch Hch) as (B1 & B2 & B3 & _). auto.
Qed.

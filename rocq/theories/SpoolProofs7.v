(** Splitting, chunked spools, contents, limits of a selection. *)
From Verif Require Import Base BaseFacts CoordModel CoordSpec FrameModel ChunkModel FrameSpec FrameProofs FrameProofs2
  FrameProofs3 FrameProofs5 CmProofs SpoolModel SpoolSpec SpoolProofs SpoolProofs2 SpoolProofs3 SpoolProofs5 SpoolProofs6.
From Verif Require ChunkProofs3 ChunkProofs4 ChunkSpec ChunkProofs5.
From Coq Require Import Strings.String Lia Sorting.Permutation Sorting.Sorted.
Local Open Scope Z_scope.
Local Open Scope list_scope.

(** ** Splitting *)
Lemma split_spec s size count step : sourced s -> split_step (sp_len s) size count = Ok step -> 0 < step ->
  exists pieces, (forall fuel, sp_len s <= Z.of_nat fuel * step -> sp_split fuel s size count = Some (Ok pieces)) /\
    (forall i p, znth pieces i = Some p ->
       sp_slice s (mkSlice (Some (i * step)) (Some ((i + 1) * step)) None) = Ok p /\
       0 < sp_len p /\ sp_len p = Z.min step (sp_len s - i * step)) /\
    List.concat (map sp_df pieces) = sp_df s /\
    sp_len s <= zlen pieces * step /\ (0 < zlen pieces -> (zlen pieces - 1) * step < sp_len s).
Proof.
  intros Hs E Hp. pose proof (zlen_nonneg (sp_df s)) as Hn. fold (sp_len s) in Hn.
  destruct (split_run_spec s step Hs Hp (Z.to_nat (sp_len s)) 0) as (pieces & R & Q & C & L1 & L2); [lia|nia|].
  exists pieces. split; [|split; [|split; [exact C|split; lia]]].
  - intros fuel Hf. unfold sp_split. rewrite E.
    destruct (split_run_spec s step Hs Hp fuel 0) as (pieces' & R' & _); [lia|lia|].
    rewrite R'. f_equal. destruct (Nat.le_ge_cases fuel (Z.to_nat (sp_len s))) as [H|H].
    + rewrite (split_run_more _ _ _ _ _ R' _ H) in R. congruence.
    + rewrite (split_run_more _ _ _ _ _ R _ H) in R'. congruence.
  - intros i p Hi. apply Q in Hi. now rewrite !Z.add_0_l in Hi.
Qed.

Lemma split_step_spec n size count : 0 <= n ->
  (forall sz, size = Some sz -> count = None -> split_step n size count = Ok sz) /\
  (forall c, size = None -> count = Some c -> 0 < c ->
     exists st, split_step n size count = Ok st /\ n <= c * st /\ (0 < n -> 0 < st /\ c * (st - 1) < n) /\ (n = 0 -> st = 0)) /\
  (size = None -> count = Some 0 -> split_step n size count = Err TypeError) /\
  ((size = None <-> count = None) -> split_step n size count = Err ParameterError).
Proof.
  intros Hn. repeat split.
  - intros sz -> ->. reflexivity.
  - intros c -> -> Hc. exists (ceil_div n c). cbn. rewrite (proj2 (Z.eqb_neq c 0)) by lia. split; auto.
    unfold ceil_div. pose proof (Z.div_mod (- n) c ltac:(lia)). pose proof (Z.mod_pos_bound (- n) c Hc).
    split; [nia|]. split; [intros; split; nia|]. intros ->. now rewrite Z.div_0_l by lia.
  - intros -> ->. reflexivity.
  - intros [A B]. destruct size, count; cbn; auto; [now specialize (B eq_refl)|now specialize (A eq_refl)].
Qed.

(** At most [c] pieces, and all but the last of equal size. *)
Lemma split_count s c : sourced s -> 0 < c -> 0 < sp_len s ->
  exists step pieces, (forall fuel, sp_len s <= Z.of_nat fuel -> sp_split fuel s None (Some c) = Some (Ok pieces)) /\
    0 < zlen pieces <= c /\ 0 < step /\
    (forall i p, znth pieces i = Some p -> sp_len p <= step /\ (i < zlen pieces - 1 -> sp_len p = step)) /\
    List.concat (map sp_df pieces) = sp_df s.
Proof.
  intros Hs Hc Hn. destruct (proj1 (proj2 (split_step_spec (sp_len s) None (Some c) ltac:(lia))) c eq_refl eq_refl Hc)
    as (st & E & A & B & _). destruct (B Hn) as [B1 B2].
  destruct (split_spec s None (Some c) st Hs E B1) as (pieces & R & Q & C & L1 & L2).
  exists st, pieces. split; [intros fuel Hf; apply R; nia|]. pose proof (zlen_nonneg pieces).
  assert (0 < zlen pieces) by nia. specialize (L2 ltac:(lia)). split; [nia|]. split; auto. split; auto.
  intros i p Hi. destruct (Q i p Hi) as (_ & _ & El). split; [lia|]. intros Hl. rewrite El.
  assert ((i + 1) * st <= (zlen pieces - 1) * st) by nia. lia.
Qed.

(** ** Chunked spools *)
Definition chunk_irow (k : string) (i : instr) : irow :=
  mkIrow (i_src i) (Some (i_cur i)) (limit_row k (i_min i) (i_max i) None (i_mod i)).

Lemma chunk_shape argsort c k s s' : sp_chunk argsort c k s = Ok s' ->
  exists rows chs ins, segs_of k (sp_src s) = Some rows /\ spool_chunk argsort c rows = Ok (chs, ins) /\
    sp_df s' = map (fun ch => (k_idx ch, limit_row k (k_min ch) (k_max ch) (k_step ch) false)) chs /\
    sp_ins s' = map (chunk_irow k) ins /\ sp_src s' = sp_src s /\ sp_sel s' = sp_sel s.
Proof.
  unfold sp_chunk. destruct (segs_of k (sp_src s)) as [rows|]; [|discriminate].
  destruct (spool_chunk argsort c rows) as [[chs ins]|] eqn:E; [|discriminate]. cbn [bind fst snd].
  intros [= <-]. exists rows, chs, ins. repeat split; auto.
Qed.

Lemma segs_of_spec k l rows : segs_of k l = Some rows -> Forall2 (fun x g => seg_of k x = Some g) l rows.
Proof.
  revert rows. induction l as [|x l IH]; intros rows; cbn [segs_of]; [intros [= <-]; constructor|].
  destruct (seg_of k x) as [g|] eqn:E; [|discriminate]. destruct (segs_of k l); [|discriminate].
  intros [= <-]. constructor; auto.
Qed.
Lemma seg_of_idx k x g : seg_of k x = Some g -> g_idx g = fst x.
Proof.
  unfold seg_of. destruct (get_cell _ _); try discriminate. destruct (get_cell _ _); try discriminate. now intros [= <-].
Qed.
Lemma segs_labels k l rows : segs_of k l = Some rows -> map g_idx rows = map fst l.
Proof.
  intros H. apply segs_of_spec in H. induction H as [|x g l rows E H IH]; cbn; auto.
  now rewrite (seg_of_idx _ _ _ E), IH.
Qed.

Lemma spool_chunk_src argsort c rows chs ins : spool_chunk argsort c rows = Ok (chs, ins) ->
  forall i, In i ins -> In (i_src i) (map g_idx rows).
Proof.
  unfold spool_chunk. destruct (chunk argsort c rows) as [[labels chs']|]; [|discriminate]. cbn [bind fst snd].
  destruct (instruction_df _ _ _ _) as [ins'|] eqn:E; [|discriminate]. cbn [bind]. intros [= <- <-] i Hi.
  unfold instruction_df in E. destruct (map_result _ _) as [parts|] eqn:M; [|discriminate]. cbn [bind] in E.
  injection E as <-. apply in_concat in Hi as (l & Hl & Hi).
  destruct (ChunkProofs4.map_result_in _ _ _ _ M Hl) as (lab & _ & EI).
  destruct (ChunkProofs4.instructions_src _ _ _ _ _ EI Hi) as ((r & Hr & ->) & _). apply in_map.
  unfold rows_with in Hr. apply in_map_iff in Hr as ([lb r'] & <- & Hr). apply filter_In in Hr as [Hr _].
  cbn. eapply in_combine_r; eauto.
Qed.

Lemma filter_instr k ins cur : filter (cur_is cur) (map (chunk_irow k) ins)
  = map (chunk_irow k) (filter (fun i => i_cur i =? cur) ins).
Proof. induction ins as [|i ins IH]; cbn; auto. rewrite IH. now destruct (i_cur i =? cur). Qed.

Lemma drop_dups_distinct l : forall seen, (forall i j a b, i < j -> znth l i = Some a -> znth l j = Some b -> part_eqb b a = false) ->
  (forall a b, In a l -> In b seen -> part_eqb a b = false) -> drop_dups seen l = l.
Proof.
  induction l as [|x l IH]; intros seen H1 H2; cbn [drop_dups]; auto.
  assert (existsb (part_eqb x) seen = false) as ->.
  { apply Bool.not_true_is_false. intros E. apply existsb_exists in E as (y & Hy & E).
    rewrite H2 in E; [discriminate|left; auto|auto]. }
  f_equal. apply IH.
  - intros i j a b Hij Ha Hb. apply (H1 (i + 1) (j + 1)); [lia| |].
    + pose proof (znth_some _ _ _ Ha). rewrite znth_cons. destruct (Z.eqb_spec (i + 1) 0); [lia|]. now replace (i + 1 - 1) with i by lia.
    + pose proof (znth_some _ _ _ Hb). rewrite znth_cons. destruct (Z.eqb_spec (j + 1) 0); [lia|]. now replace (j + 1 - 1) with j by lia.
  - intros a b Ha [<-|Hb]; [|apply H2; auto; right; auto].
    apply in_znth in Ha as (j & Hj). pose proof (znth_some _ _ _ Hj).
    apply (H1 0 (j + 1)); [lia|reflexivity|]. rewrite znth_cons. destruct (Z.eqb_spec (j + 1) 0); [lia|].
    now replace (j + 1 - 1) with j by lia.
Qed.

Lemma sorted_znth l : StronglySorted Z.lt l -> forall i j a b, i < j -> znth l i = Some a -> znth l j = Some b -> a < b.
Proof.
  induction 1 as [|x l S IH F]; intros i j a b Hij; [now rewrite znth_nil|].
  intros Ha Hb. pose proof (znth_some _ _ _ Ha). rewrite znth_cons in Ha, Hb.
  destruct (Z.eqb_spec j 0); [lia|]. destruct (Z.eqb_spec i 0).
  - injection Ha as <-. rewrite Forall_forall in F. apply F. eapply znth_in; eauto.
  - eapply (IH (i - 1) (j - 1)); eauto. lia.
Qed.

Lemma limits_of_instr k i f : part_limits k (chunk_irow k i, f) = (VInt (i_min i), VInt (i_max i)).
Proof.
  unfold part_limits, chunk_irow, limit_row, get_cell. cbn [fst n_row f_cells assoc].
  rewrite !String.eqb_refl.
  assert (String.eqb (append k "_max") (append k "_min") = false) as ->; auto.
  apply String.eqb_neq. intros E. clear -E. induction k as [|ch k IH]; cbn in E; [discriminate|]. injection E; auto.
Qed.

(** The entry of a chunked spool: the instructions of that chunk, each with its
    source row. *)
Lemma chunk_entry {D} argsort c k s s' rows chs ins i ch (load : frow -> list (Z * D)) :
  sp_chunk argsort c k s = Ok s' -> NoDup (map fst (sp_src s)) ->
  segs_of k (sp_src s) = Some rows -> spool_chunk argsort c rows = Ok (chs, ins) ->
  znth chs i = Some ch -> 
  let mine := filter (fun x => i_cur x =? k_idx ch) ins in
  mine <> [] -> StronglySorted Z.lt (map i_min mine) ->
  exists g, (forall x, In x mine -> In (i_src x, g x) (sp_src s)) /\
    sp_parts s' i = Ok (map (fun x => (chunk_irow k x, g x)) mine) /\
    sp_samples k load s' i = Ok (List.concat (map (fun x => load_trimmed (load (g x)) x) mine)).
Proof.
  intros H N Hr Hc Hi mine NE SS. destruct (chunk_shape _ _ _ _ _ H) as (rows' & chs' & ins' & R & C & Ed & Ei & Es & _).
  assert (rows' = rows) as -> by congruence. assert (E2 : Ok (chs', ins') = Ok (chs, ins)) by congruence.
  injection E2 as -> ->.
  assert (HS : forall x, In x mine -> In (i_src x) (map fst (sp_src s))).
  { intros x Hx. apply filter_In in Hx as [Hx _]. rewrite <- (segs_labels _ _ _ Hr). eapply spool_chunk_src; eauto. }
  destruct (map_result_join (sp_src s) (map (chunk_irow k) mine)) as (g & G1 & G2); auto.
  { intros r Hx. apply in_map_iff in Hx as (x & <- & Hx). cbn. auto. }
  exists (fun x => g (chunk_irow k x)).
  assert (Hg : forall x, In x mine -> In (i_src x, g (chunk_irow k x)) (sp_src s)).
  { intros x Hx. apply (G1 (chunk_irow k x)). now apply in_map. }
  split; auto.
  pose proof (znth_some _ _ _ Hi) as Ri.
  assert (P : sp_parts s' i = Ok (map (fun x => (chunk_irow k x, g (chunk_irow k x))) mine)).
  { rewrite (sp_parts_joined s' i (k_idx ch) (limit_row k (k_min ch) (k_max ch) (k_step ch) false)).
    2: lia. 2:{ rewrite Ed, znth_map, Hi. reflexivity. }
    unfold joined. rewrite Ei, Es, filter_instr. fold mine.
    destruct mine as [|x0 t0] eqn:Em; [contradiction|]. rewrite <- Em in *. cbn [map].
    destruct (map (chunk_irow k) mine) as [|r0 rt] eqn:Em2; [rewrite Em in Em2; discriminate|]. rewrite <- Em2 in *.
    rewrite G2. cbn [bind]. rewrite map_map. f_equal.
    match goal with |- dedup ?m = ?r => replace m with r end.
    2:{ clear. generalize mine. intros l. induction l as [|y l IH]; cbn; [reflexivity|]. f_equal. exact IH. }
    unfold dedup. destruct (10 <? _); auto. apply drop_dups_distinct; [|intros a b _ []].
    intros a b p q Hab Hp Hq. rewrite znth_map in Hp, Hq.
    destruct (znth mine a) as [xa|] eqn:Xa; [|discriminate]. destruct (znth mine b) as [xb|] eqn:Xb; [|discriminate].
    injection Hp as <-. injection Hq as <-.
    assert (i_min xa < i_min xb).
    { eapply (sorted_znth _ SS a b); eauto; rewrite znth_map; [now rewrite Xa|now rewrite Xb]. }
    unfold part_eqb. cbn [fst snd chunk_irow n_row n_cur]. unfold frow_eqb, limit_row. cbn [f_cells cells_eqb opt_cell_eqb cell_eqb].
    rewrite (proj2 (Z.eqb_neq (i_min xb) (i_min xa))) by lia. rewrite !Bool.andb_false_r. cbn [andb].
    reflexivity. }
  split; auto. unfold sp_samples. rewrite P. cbn [bind].
  assert (LP : forall x f, load_part k load (chunk_irow k x, f) = load_trimmed (load f) x).
  { intros x f. unfold load_part. rewrite limits_of_instr. reflexivity. }
  destruct mine as [|x0 t0] eqn:Em; [contradiction|]. cbn [map].
  destruct t0 as [|x1 t1].
  - cbn [map forallb List.concat]. now rewrite LP, app_nil_r.
  - cbn [map forallb].
    assert (same_limits k (chunk_irow k x0, g (chunk_irow k x0)) (chunk_irow k x1, g (chunk_irow k x1)) = false) as ->.
    { unfold same_limits. rewrite !limits_of_instr. cbn [fst snd opt_cell_eqb cell_eqb].
      rewrite (proj2 (Z.eqb_neq (i_min x0) (i_min x1))); auto.
      cbn in SS. inversion SS as [|? ? _ F]; subst. inversion F; subst. lia. }
    cbn [andb]. rewrite !LP. do 3 f_equal. cbn. f_equal. f_equal. rewrite map_map.
    apply map_ext. intros; apply LP.
Qed.

Lemma chunk_samples_via {D} argsort c k s s' base st (load load2 : frow -> list (Z * D)) (f : Z -> D) rows :
  valid_argsort argsort -> 0 < st -> 0 < c_tol_den c -> c_tol_num c < 2 * c_tol_den c ->
  NoDup (map fst (sp_src s)) -> segs_of k (sp_src s) = Some rows -> rows <> [] ->
  Forall (ChunkSpec.grid_seg base st) rows ->
  (exists ordered, Permutation ordered rows /\ ChunkSpec.staggered ordered) ->
  ChunkSpec.whole_steps st c ->
  (forall x g, In x (sp_src s) -> seg_of k x = Some g ->
     load (snd x) = map (fun y => (y, f y)) (ChunkSpec.seg_samples st g)) ->
  (forall l x fr, ChunkProofs3.windows rows l -> In x l -> In (i_src x, fr) (sp_src s) ->
     load_trimmed (load2 fr) x = load_trimmed (load fr) x) ->
  sp_chunk argsort c k s = Ok s' ->
  forall i lb row, znth (sp_df s') i = Some (lb, row) ->
  exists a b, a <= b /\ val row (append k "_min") = VInt a /\ val row (append k "_max") = VInt b /\
    sp_samples k load2 s' i = Ok (ChunkSpec.signal f a st b).
Proof.
  intros V Hs Hd Ht N HR NE F ST W HL HV H i lb row Hi.
  destruct (chunk_shape _ _ _ _ _ H) as (rows' & chs & ins & R & C & Ed & Ei & Es & _).
  assert (rows' = rows) as -> by congruence. clear R.
  set (lo := fun l => match filter (fun x : Z * frow => fst x =? l) (sp_src s) with x :: _ => load (snd x) | [] => [] end).
  assert (LO : forall l fr, In (l, fr) (sp_src s) -> lo l = load fr).
  { intros l fr Hx. unfold lo. rewrite (filter_label _ _ _ N Hx). reflexivity. }
  pose proof (segs_of_spec _ _ _ HR) as F2.
  assert (IR : forall r, In r rows -> exists x, In x (sp_src s) /\ seg_of k x = Some r).
  { intros r Hr. apply in_znth in Hr as (j & Hj). clear -F2 Hj. revert j Hj. induction F2 as [|x g l rs E F2 IH]; intros j; [now rewrite znth_nil|].
    rewrite znth_cons. destruct (j =? 0).
    - intros [= <-]. exists x. split; auto. left; auto.
    - intros Hj. destruct (IH _ Hj) as (y & Hy & Ey). exists y. split; auto. right; auto. }
  assert (KEY : forall r, In r rows -> g_key r = 0).
  { intros r Hr. destruct (IR r Hr) as (x & _ & E). unfold seg_of in E.
    destruct (get_cell _ _); try discriminate. destruct (get_cell _ _); try discriminate. now injection E as <-. }
  assert (PS : ChunkSpec.positive_steps (map g_step rows)).
  { intros x Hx. apply in_map_iff in Hx as (r & E & Hr). rewrite Forall_forall in F. destruct (F r Hr) as (Es' & _). congruence. }
  destruct (ChunkProofs2.labels_spec argsort c rows V Hd PS) as [LL _].
  pose proof (ChunkProofs5.groups_good argsort c base st 0 rows V Hs Hd Ht F KEY ST) as GG.
  assert (exists labels, chunk argsort c rows = Ok (labels, chs)) as [labels CK].
  { unfold spool_chunk in C. destruct (chunk argsort c rows) as [[labels chs']|]; [|discriminate]. cbn [bind fst snd] in C.
    destruct (instruction_df _ _ _ _); [|discriminate]. cbn [bind] in C. injection C as -> _. eauto. }
  destruct (ChunkProofs4.chunk_output _ _ _ _ _ CK NE) as (EL & _ & EC). 
  rewrite EL in CK. 
  destruct (ChunkProofs4.spool_chunk_windows argsort c rows lo (fun _ => st) (fun _ => f) _ chs V NE CK LL) as (ins' & C' & DA).
  { intros lab Hl. split; [auto|]. split; auto. intros r Hr.
    assert (Hr' : In r rows).
    { unfold rows_with in Hr. apply in_map_iff in Hr as ([lb' r'] & <- & Hr). apply filter_In in Hr as [Hr _].
      cbn. eapply in_combine_r; eauto. }
    destruct (IR r Hr') as ([l fr] & Hx & E). rewrite (seg_of_idx _ _ _ E). cbn [fst]. rewrite (LO _ _ Hx).
    exact (HL _ _ Hx E). }
  assert (ins' = ins) as -> by congruence.
  rewrite Ed, znth_map in Hi. destruct (znth chs i) as [ch|] eqn:Ech; [|discriminate].
  assert (E3 : lb = k_idx ch /\ row = limit_row k (k_min ch) (k_max ch) (k_step ch) false) by (split; cbn in Hi; congruence).
  destruct E3 as [-> ->]. clear Hi.
  destruct (DA ch (znth_in _ _ _ Ech)) as (D1 & D2 & D3 & D4).
  exists (k_min ch), (k_max ch). split; auto.
  assert (E4 : val (limit_row k (k_min ch) (k_max ch) (k_step ch) false) (append k "_min") = VInt (k_min ch) /\
          val (limit_row k (k_min ch) (k_max ch) (k_step ch) false) (append k "_max") = VInt (k_max ch)).
  {
    clear -k.     unfold val, get_cell, limit_row. cbn [f_cells assoc]. rewrite !String.eqb_refl.
    assert (String.eqb (append k "_max") (append k "_min") = false) as ->; auto.
    apply String.eqb_neq. intros E. clear -E. induction k as [|x k IH]; cbn in E; [discriminate|]. injection E; auto. }
  split; [apply E4|]. split; [apply E4|].
  assert (NEm : filter (fun x => i_cur x =? k_idx ch) ins <> []).
  { intros E. unfold patch_parts in D2. rewrite E in D2. cbn in D2. symmetry in D2. apply map_eq_nil in D2.
    unfold ChunkSpec.signal, progression in D2. apply map_eq_nil in D2.
    assert (In 0 (zrange ((k_max ch - k_min ch) / st + 1))) as X.
    { apply in_zrange. pose proof (Z.div_pos (k_max ch - k_min ch) st). lia. }
    rewrite D2 in X. destruct X. }
  destruct (chunk_entry argsort c k s s' rows chs ins i ch load2 H N HR C Ech NEm D3) as (g & G1 & _ & G3).
  rewrite G3. f_equal. rewrite <- D2. unfold patch_parts. f_equal. apply map_ext_in. intros x Hx.
  rewrite (LO _ _ (G1 x Hx)). eapply HV; eauto.
Qed.

Lemma chunk_samples {D} argsort c k s s' base st (load : frow -> list (Z * D)) (f : Z -> D) rows :
  valid_argsort argsort -> 0 < st -> 0 < c_tol_den c -> c_tol_num c < 2 * c_tol_den c ->
  NoDup (map fst (sp_src s)) -> segs_of k (sp_src s) = Some rows -> rows <> [] ->
  Forall (ChunkSpec.grid_seg base st) rows ->
  (exists ordered, Permutation ordered rows /\ ChunkSpec.staggered ordered) ->
  ChunkSpec.whole_steps st c ->
  (forall x g, In x (sp_src s) -> seg_of k x = Some g ->
     load (snd x) = map (fun y => (y, f y)) (ChunkSpec.seg_samples st g)) ->
  sp_chunk argsort c k s = Ok s' ->
  forall i lb row, znth (sp_df s') i = Some (lb, row) ->
  exists a b, a <= b /\ val row (append k "_min") = VInt a /\ val row (append k "_max") = VInt b /\
    sp_samples k load s' i = Ok (ChunkSpec.signal f a st b).
Proof. intros V Hs Hd Ht N HR NE F ST W HL. eapply chunk_samples_via; eauto. Qed.

(** ** Chunking what a selection has trimmed *)
Definition own_limits {D} (k : string) (load : frow -> list (Z * D)) (fr : frow) : list (Z * D) :=
  match get_cell fr (append k "_min"), get_cell fr (append k "_max") with
  | VInt a, VInt b => if f_mod fr then filter (fun p => (a <=? fst p) && (fst p <=? b)) (load fr) else load fr
  | _, _ => load fr
  end.

Lemma filter_filter {A} (p q : A -> bool) l : (forall x, p x = true -> q x = true) -> filter p (filter q l) = filter p l.
Proof.
  intros H. induction l as [|x l IH]; cbn; auto. destruct (q x) eqn:Q; cbn.
  - destruct (p x); now rewrite IH.
  - destruct (p x) eqn:P; auto. rewrite (H x P) in Q. discriminate.
Qed.

Lemma chunk_trimmed {D} argsort c k s s' base st (load : frow -> list (Z * D)) (f : Z -> D) rows :
  valid_argsort argsort -> 0 < st -> 0 < c_tol_den c -> c_tol_num c < 2 * c_tol_den c ->
  NoDup (map fst (sp_src s)) -> segs_of k (sp_src s) = Some rows -> rows <> [] ->
  Forall (ChunkSpec.grid_seg base st) rows ->
  (exists ordered, Permutation ordered rows /\ ChunkSpec.staggered ordered) ->
  ChunkSpec.whole_steps st c ->
  (forall x g, In x (sp_src s) -> seg_of k x = Some g ->
     filter (fun p => (g_min g <=? fst p) && (fst p <=? g_max g)) (load (snd x))
       = map (fun y => (y, f y)) (ChunkSpec.seg_samples st g) /\
     (f_mod (snd x) = false -> load (snd x) = map (fun y => (y, f y)) (ChunkSpec.seg_samples st g))) ->
  sp_chunk argsort c k s = Ok s' ->
  forall i lb row, znth (sp_df s') i = Some (lb, row) ->
  exists a b, a <= b /\ val row (append k "_min") = VInt a /\ val row (append k "_max") = VInt b /\
    sp_samples k load s' i = Ok (ChunkSpec.signal f a st b).
Proof.
  intros V Hs Hd Ht N HR NE F ST W HL H i lb row Hi.
  set (load' := own_limits k load).
  assert (HL' : forall x g, In x (sp_src s) -> seg_of k x = Some g ->
     load' (snd x) = map (fun y => (y, f y)) (ChunkSpec.seg_samples st g)).
  { intros x g Hx Hg. destruct (HL x g Hx Hg) as [A B]. unfold seg_of in Hg. unfold load', own_limits.
    destruct (get_cell (snd x) (append k "_min")) as [a| |]; try discriminate.
    destruct (get_cell (snd x) (append k "_max")) as [b| |]; try discriminate.
    injection Hg as <-. cbn [g_min g_max] in A. destruct (f_mod (snd x)); auto. }
  eapply (chunk_samples_via argsort c k s s' base st load' load); eauto.
  intros l x fr HW Hx Hf. destruct (HW x Hx) as (L & r & Hr & Er & R1 & R2 & RM).
  pose proof (segs_of_spec _ _ _ HR) as F2.
  destruct (ChunkProofs3.Forall2_In_r _ _ _ _ F2 Hr) as ([l0 fr0] & Hx0 & Eg). rewrite (seg_of_idx _ _ _ Eg) in Er. cbn [fst] in Er.
  assert (fr0 = fr) as ->.
  { pose proof (filter_label _ _ _ N Hx0) as X1. pose proof (filter_label _ _ _ N Hf) as X2. rewrite Er in X2.
    rewrite X1 in X2. congruence. }
  unfold load', own_limits. unfold seg_of in Eg. cbn [snd] in Eg.
  destruct (get_cell fr (append k "_min")) as [a| |]; try discriminate.
  destruct (get_cell fr (append k "_max")) as [b| |]; try discriminate.
  injection Eg as <-. cbn [g_min g_max g_mod] in *. destruct (f_mod fr); auto.
  unfold load_trimmed. rewrite RM by auto. rewrite Z.min_l, Z.max_r by auto. rewrite filter_filter; auto.
  intros p. lia.
Qed.

(** ** Contents *)
Lemma keep_all {A} (l : list A) : keep_rows (map (fun _ => true) l) l = l.
Proof. unfold keep_rows. induction l as [|x l IH]; cbn; auto. now rewrite IH. Qed.

Lemma contents_plain s : sp_sel s = [] -> sp_contents s = Ok (sp_df s).
Proof.
  intros E. unfold sp_contents. rewrite E. unfold filter_df.
  cbn [min_max_query split_query bind]. change (zlen (@nil string) =? 0) with true. cbn [negb andb].
  cbn [order_ranges filter all_masks bind]. rewrite map_map. now rewrite keep_all.
Qed.

(** A keyword no column answers stops the contents from being shown. *)
Lemma contents_leftover s : sp_sel s <> [] ->
  (forall q v, In (q, v) (sp_sel s) ->
     ~ has_col (sp_cols s) q /\ ~ suffixed q /\ ~ interval (sp_cols s) q /\ v <> QNone) ->
  sp_contents s = Err ParameterError.
Proof.
  intros NE H. unfold sp_contents. set (cols := sp_cols s) in *. generalize (map snd (sp_df s)). intros rows.
  assert (A : min_max_query cols (sp_sel s) = Ok ([], sp_sel s) /\ split_query cols (sp_sel s) = Ok ([], [], map fst (sp_sel s))).
  { clear NE. revert H. generalize (sp_sel s). intros kw. induction kw as [|[q v] t IH]; intros H; cbn [min_max_query split_query]; auto.
    destruct IH as [-> ->]; [intros; apply H; right; auto|]. cbn [bind].
    destruct (H q v (or_introl eq_refl)) as (H1 & H2 & H3 & H4).
    assert (mem q cols = false) as -> by (now apply mem_not).
    assert (has_interval cols q = false) as ->.
    { apply Bool.not_true_is_false. intros X. apply has_interval_spec in X. auto. }
    assert (N1 : str_suffix "_max" q = false).
    { apply Bool.not_true_is_false. intros X. apply str_suffix_spec in X as [b X]. apply H2. exists b; auto. }
    assert (N2 : str_suffix "_min" q = false).
    { apply Bool.not_true_is_false. intros X. apply str_suffix_spec in X as [b X]. apply H2. exists b; auto. }
    rewrite N1, N2. cbn [andb]. split; auto. destruct v as [| |c|l]; auto; [contradiction|destruct c; auto]. }
  unfold filter_df. destruct A as [-> B]. cbn [bind]. rewrite B. cbn [bind negb andb].
  destruct (sp_sel s) as [|x t]; [contradiction|]. cbn [map]. rewrite zlen_cons.
  pose proof (zlen_nonneg (map fst t)). rewrite (proj2 (Z.eqb_neq _ 0)) by lia. reflexivity.
Qed.

(** ** Selecting from any spool *)
Lemma filter_map_cur lb (h : irow -> irow) l : (forall r, n_cur (h r) = n_cur r) ->
  filter (cur_is lb) (map h l) = map h (filter (cur_is lb) l).
Proof.
  intros E. induction l as [|r l IH]; cbn; auto. rewrite IH.
  assert (cur_is lb (h r) = cur_is lb r) as -> by (unfold cur_is; now rewrite E). now destruct (cur_is lb r).
Qed.
Lemma filter_swap {A} (p q : A -> bool) l : filter p (filter q l) = filter q (filter p l).
Proof. induction l as [|x l IH]; cbn; auto. destruct (q x) eqn:Q, (p x) eqn:P; cbn; rewrite ?Q, ?P, IH; auto. Qed.

Lemma select_parts s kw s' : (forall q, In q (map fst kw) -> ~ suffixed q) ->
  sp_select s kw = Ok s' ->
  exists P Pi,
    (forall x, In x (sp_df s) -> (P x = true <-> forall q v, In (q, v) kw -> meets (sp_cols s) (snd x) q v)) /\
    (forall x, In x (sp_ins s) -> (Pi x = true <-> forall q v, In (q, v) kw -> meets (sp_icols s) (n_row x) q v)) /\
    sp_df s' = map (fun x => (fst x, clampf (range_names (sp_cols s) kw) (snd x))) (filter P (sp_df s)) /\
    forall j lb row, znth (filter P (sp_df s)) j = Some (lb, row) ->
      let mine := filter Pi (filter (cur_is lb) (sp_ins s)) in
      (mine = [] -> sp_parts s' j = Err AssertionError) /\
      (mine <> [] -> NoDup (map fst (sp_src s)) -> NoDup (map n_src (sp_ins s)) ->
       (forall r f, In r mine -> In (n_src r, f) (sp_src s) -> forall q v, In (q, v) kw -> meets (sp_scols s) f q v) ->
       exists g, (forall r, In r mine -> In (n_src r, g r) (sp_src s)) /\
         sp_parts s' j = Ok (dedup (map (fun r =>
            (mkIrow (n_src r) (n_cur r) (clampf (range_names (sp_icols s) kw) (n_row r)),
             clampf (range_names (sp_scols s) kw) (g r))) mine))).
Proof.
  intros Hq H. unfold sp_select in H.
  destruct (extra_kwargs _ _) as [ex|]; [|discriminate]. cbn [bind] in H.
  destruct (adjust_labelled (sp_cols s) (sp_df s) kw) as [df|] eqn:A1; [|discriminate]. cbn [bind] in H.
  destruct (adjust_irows (sp_icols s) (sp_ins s) kw) as [ins|] eqn:A2; [|discriminate]. cbn [bind] in H.
  destruct (loc _ _) as [src0|] eqn:L; [|discriminate]. cbn [bind] in H.
  destruct (adjust_labelled (sp_scols s) src0 kw) as [src|] eqn:A3; [|discriminate]. cbn [bind] in H. injection H as <-.
  assert (PK : forall cs q v, In (q, v) kw -> ~ has_col cs q -> plain_key q).
  { intros cs q v Hin _. apply unsuffixed_plain. apply Hq. now apply (in_map fst) in Hin. }
  apply adjust_labelled_shape in A1; [|apply PK]. apply adjust_irows_shape in A2; [|apply PK].
  apply adjust_labelled_shape in A3; [|apply PK].
  destruct A1 as (P & HP & Edf & _). destruct A2 as (P2 & HP2 & Eins). destruct A3 as (P3 & HP3 & Esrc & _).
  set (gi := clampf (range_names (sp_icols s) kw)) in *. set (gs := clampf (range_names (sp_scols s) kw)) in *.
  set (kept := filter (in_index df) ins) in *.
  exists (fun x => P (snd x)), (fun x => P2 (n_row x)).
  split; [auto|]. split; [auto|]. cbn [sp_df]. split; [auto|]. intros j lb row Hj. cbv zeta.
  set (mine := filter (fun x => P2 (n_row x)) (filter (cur_is lb) (sp_ins s))).
  set (h := fun x => mkIrow (n_src x) (n_cur x) (gi (n_row x))) in *.
  assert (Zd : znth df j = Some (lb, clampf (range_names (sp_cols s) kw) row)) by (rewrite Edf, znth_map, Hj; reflexivity).
  assert (FK : filter (cur_is lb) kept = map h mine).
  { unfold kept. rewrite filter_swap. rewrite (ChunkProofs3.filter_all (in_index df)).
    - rewrite Eins, filter_map_cur by reflexivity. f_equal. apply filter_swap.
    - intros r Hr. apply filter_In in Hr as [_ Hr]. apply cur_is_spec in Hr. apply in_index_spec.
      eexists. split; [eapply znth_in; eauto|]. exact Hr. }
  pose proof (znth_some _ _ _ Zd) as Rj.
  rewrite (sp_parts_joined _ j lb (clampf (range_names (sp_cols s) kw) row)) by (cbn [sp_df]; auto; lia).
  unfold joined. cbn [sp_ins sp_src]. rewrite FK. split; [intros ->; reflexivity|].
  intros NE N NI HM. destruct (loc_unique _ N _ _ L) as [L1 L2].
  assert (NK : NoDup (map n_src kept)).
  { apply NoDup_map_filter'. rewrite Eins, map_map. cbn [n_src]. now apply NoDup_map_filter'. }
  assert (IK : forall r, In r mine -> In (n_src r) (map n_src kept)).
  { intros r Hr. assert (X : In (h r) (filter (cur_is lb) kept)) by (rewrite FK; now apply in_map).
    apply filter_In in X as [X _]. apply (in_map n_src) in X. exact X. }
  destruct (map_result_join (sp_src s) mine N) as (g & G1 & _).
  { intros r Hr. destruct (in_dec Z.eq_dec (n_src r) (map fst (sp_src s))) as [I|I]; auto.
    assert (E : loc (sp_src s) (map n_src kept) = Err KeyError) by (apply loc_refuses; eauto). congruence. }
  exists g. split; auto.
  assert (SM : forall r, In r mine -> In (n_src r, gs (g r)) src).
  { intros r Hr. rewrite Esrc. apply in_map_iff. exists (n_src r, g r). split; auto. apply filter_In.
    assert (I0 : In (n_src r, g r) src0) by (apply L2; split; [auto|now apply IK]).
    split; auto. apply (HP3 _ I0). intros q v Hin. apply (HM r (g r)); auto. }
  assert (Ns : NoDup (map fst src)).
  { rewrite Esrc, map_map. cbn [fst]. apply (NoDup_map_filter' (@fst Z frow)). now rewrite L1. }
  assert (J : forall r, In r mine -> join_one src (h r) = Ok [(h r, gs (g r))]).
  { intros r Hr. unfold join_one. change (n_src (h r)) with (n_src r). rewrite (filter_label _ _ _ Ns (SM r Hr)). reflexivity. }
  destruct mine as [|r0 t0] eqn:Em; [contradiction|]. rewrite <- Em in *.
  destruct (map h mine) as [|r1 t1] eqn:Em2; [rewrite Em in Em2; discriminate|]. rewrite <- Em2.
  assert (map_result (join_one src) (map h mine) = Ok (map (fun r => [(h r, gs (g r))]) mine)) as ->.
  { clear -J. induction mine as [|r t IH]; cbn [map map_result]; auto. rewrite J by (left; auto). cbn [bind].
    rewrite IH by (intros; apply J; right; auto). reflexivity. }
  cbn [bind]. f_equal. f_equal. clear. induction mine as [|r t IH]; cbn; auto. f_equal. exact IH.
Qed.

Lemma clampf_cut cs kw r : NoDup (map fst kw) -> (exists o, clamp_all (range_names cs kw) [r] = Ok o) ->
  cut cs kw r (clampf (range_names cs kw) r).
Proof.
  intros ND Ho. destruct (clampf_spec (range_names cs kw) r) as (G1 & G2 & _); [now apply NoDup_map_filter|auto|]. split.
  - intros c Hc. apply G1. intros (q & Hq1 & Ht1). apply in_map_iff in Hq1 as ([q' v] & <- & Hq1).
    apply range_names_In in Hq1 as (Hq1 & Hi & Hn). cbn in Ht1. destruct (Hc q'); auto.
    + apply (in_map fst) in Hq1. auto.
    + destruct Ht1; auto.
  - intros q a b Hin Hn Hi. apply G2. apply range_names_In. auto.
Qed.

Lemma adjust_clamps cs rows kw out : adjust_labelled cs rows kw = Ok out ->
  (forall q v, In (q, v) kw -> ~ has_col cs q -> plain_key q) ->
  forall r, exists o, clamp_all (range_names cs kw) [r] = Ok o.
Proof. intros A Hp r. apply adjust_labelled_shape in A as (_ & _ & _ & K); auto. Qed.
Lemma adjust_iclamps cs rows kw out : adjust_irows cs rows kw = Ok out ->
  (forall q v, In (q, v) kw -> ~ has_col cs q -> plain_key q) ->
  forall r, exists o, clamp_all (range_names cs kw) [r] = Ok o.
Proof.
  intros H Hp r. unfold adjust_irows in H.
  destruct (filter_df _ _ _ _) as [m|] eqn:F; [|discriminate]. cbn [bind] in H.
  destruct (adjust_segments _ _ _ _) as [o|] eqn:A; [|discriminate].
  destruct (adjust_shape cs rows n_row kw (m, o) Hp F A) as (_ & _ & _ & _ & _ & G). apply G.
Qed.

(** In terms of rows: each part that meets the query is kept, cut to the query. *)
Theorem select_cut s kw s' : NoDup (map fst kw) -> (forall q, In q (map fst kw) -> ~ suffixed q) ->
  sp_select s kw = Ok s' ->
  exists P Pi,
    (forall x, In x (sp_df s) -> (P x = true <-> forall q v, In (q, v) kw -> meets (sp_cols s) (snd x) q v)) /\
    (forall x, In x (sp_ins s) -> (Pi x = true <-> forall q v, In (q, v) kw -> meets (sp_icols s) (n_row x) q v)) /\
    Forall2 (fun x x' => fst x' = fst x /\ cut (sp_cols s) kw (snd x) (snd x')) (filter P (sp_df s)) (sp_df s') /\
    forall j lb row, znth (filter P (sp_df s)) j = Some (lb, row) ->
      let mine := filter Pi (filter (cur_is lb) (sp_ins s)) in
      (mine = [] -> sp_parts s' j = Err AssertionError) /\
      (mine <> [] -> zlen mine <= 10 -> NoDup (map fst (sp_src s)) -> NoDup (map n_src (sp_ins s)) ->
       (forall r f, In r mine -> In (n_src r, f) (sp_src s) -> forall q v, In (q, v) kw -> meets (sp_scols s) f q v) ->
       exists l, sp_parts s' j = Ok l /\
         Forall2 (fun r x => n_src (fst x) = n_src r /\ n_cur (fst x) = n_cur r /\
                    cut (sp_icols s) kw (n_row r) (n_row (fst x)) /\
                    exists f, In (n_src r, f) (sp_src s) /\ cut (sp_scols s) kw f (snd x)) mine l).
Proof.
  intros ND Hq H. destruct (select_parts s kw s' Hq H) as (P & Pi & HP & HPi & Ed & K).
  assert (PK : forall cs q v, In (q, v) kw -> ~ has_col cs q -> plain_key q).
  { intros cs q v Hin _. apply unsuffixed_plain. apply Hq. now apply (in_map fst) in Hin. }
  unfold sp_select in H.
  destruct (extra_kwargs _ _) as [ex|]; [|discriminate]. cbn [bind] in H.
  destruct (adjust_labelled (sp_cols s) (sp_df s) kw) as [df|] eqn:A1; [|discriminate]. cbn [bind] in H.
  destruct (adjust_irows (sp_icols s) (sp_ins s) kw) as [ins|] eqn:A2; [|discriminate]. cbn [bind] in H.
  destruct (loc _ _) as [src0|] eqn:L; [|discriminate]. cbn [bind] in H.
  destruct (adjust_labelled (sp_scols s) src0 kw) as [src|] eqn:A3; [|discriminate]. clear H L.
  pose proof (adjust_clamps _ _ _ _ A1 (PK _)) as K1. pose proof (adjust_iclamps _ _ _ _ A2 (PK _)) as K2.
  pose proof (adjust_clamps _ _ _ _ A3 (PK _)) as K3.
  exists P, Pi. split; auto. split; auto. split.
  - rewrite Ed. clear -K1 ND. induction (filter P (sp_df s)) as [|x l IH]; cbn [map]; constructor; auto.
    cbn [fst snd]. split; auto. now apply clampf_cut.
  - intros j lb row Hj. destruct (K j lb row Hj) as [Ka Kb]. split; auto.
    intros NE L10 N NI HM. destruct (Kb NE N NI HM) as (g & G1 & G2).
    eexists. split; [rewrite G2; unfold dedup; rewrite zlen_map, (proj2 (Z.ltb_ge 10 _)) by lia; reflexivity|].
    clear -G1 K2 K3 ND. induction (filter Pi _) as [|r t IH]; cbn [map]; constructor.
    + cbn [fst snd n_src n_cur n_row]. split; auto. split; auto. split; [now apply clampf_cut|].
      exists (g r). split; [apply G1; left; auto|]. now apply clampf_cut.
    + apply IH. intros; apply G1; right; auto.
Qed.

Lemma sp_parts_negative s i : - sp_len s <= i < 0 -> sp_parts s i = sp_parts s (sp_len s + i).
Proof.
  intros H. unfold sp_parts. rewrite (proj2 (Z.leb_gt 0 i)), (proj2 (Z.leb_le 0 (sp_len s + i))) by lia. reflexivity.
Qed.

Lemma mem_get_spec {P} (patches : list P) i :
  (forall x, py_get patches i x -> mem_get patches i = Ok x) /\
  (mem_get patches i = Err IndexError <-> zlen patches <= i \/ i < - zlen patches).
Proof.
  unfold mem_get, wrap_index. pose proof (zlen_nonneg patches). split.
  - intros x [[Hi E]|[Hi E]].
    + rewrite (proj2 (Z.ltb_ge i 0)) by lia. now rewrite E.
    + rewrite (proj2 (Z.ltb_lt i 0)) by lia. rewrite ?(Z.add_comm i). now rewrite E.
  - destruct (znth patches _) as [p|] eqn:E.
    + apply znth_some in E. split; [discriminate|]. destruct (Z.ltb_spec i 0); lia.
    + apply znth_none in E. split; auto. intros _. destruct (Z.ltb_spec i 0); lia.
Qed.

Lemma sort_ordered argsort s attr s' : valid_argsort argsort -> sp_sort argsort s attr = Ok s' ->
  exists col keys, (In attr (sp_cols s) /\ col = attr \/ ~ In attr (sp_cols s) /\ col = append attr "_min") /\
    map (fun x => val (snd x) col) (sp_df s') = map VInt keys /\ StronglySorted Z.le keys.
Proof.
  intros VA H. unfold sp_sort in H.
  destruct (sort_column s attr) as [col|] eqn:C; [|discriminate]. cbn [bind] in H.
  destruct (ints_of _) as [keys|] eqn:K; [|discriminate]. apply ints_of_spec in K.
  destruct (gather (sp_df s) (argsort keys)) as [rows|] eqn:G; [|discriminate].
  destruct (dup_labels _); [discriminate|]. injection H as <-. cbn [sp_df].
  destruct (VA keys) as (P & ks & Gk & S). exists col, ks. split; [|split; auto].
  - unfold sort_column in C. destruct (mem attr (sp_cols s)) eqn:M.
    + apply mem_In in M. left. split; auto. congruence.
    + apply mem_not in M. destruct (mem _ (sp_cols s)); [|discriminate]. right. split; auto. congruence.
  - rewrite <- (map_map snd (fun r => val r col)). 
    assert (map snd (combine (zrange (zlen rows)) (map snd rows)) = map snd rows) as ->.
    { apply map_snd_combine. rewrite zlen_zrange, zlen_map. pose proof (zlen_nonneg rows). lia. }
    assert (gather (map VInt keys) (argsort keys) = Some (map (fun r => val r col) (map snd rows))) as G2.
    { rewrite <- K. unfold column. change get_cell with val. now rewrite map_map, !map_map, gather_map, G. }
    rewrite gather_map, Gk in G2. cbn in G2. congruence.
Qed.

Lemma dummy_sourced cols icols df : sourced (dummy_spool cols icols df).
Proof.
  intros r Hr. unfold dummy_spool in *. cbn [sp_ins sp_src] in *. apply in_map_iff in Hr as (x & <- & Hx).
  cbn [n_src]. apply in_map. eapply Permutation_in; [apply sort_rows_perm|exact Hx].
Qed.

(** ** Left-over keywords *)
Lemma split_bad cols kw out rg bad q : split_query cols kw = Ok (out, rg, bad) ->
  (In q bad -> ~ has_col cols q /\ exists v, In (q, v) kw /\
     ~ (interval cols q /\ exists a b, v = QColl [a; b])) /\
  (forall v, In (q, v) kw -> ~ has_col cols q -> ~ interval cols q -> v <> QNone -> In q bad).
Proof.
  revert out rg bad. induction kw as [|[k v] kw IH]; intros out rg bad; cbn [split_query].
  { intros [= <- <- <-]. split; [intros []|intros v []]. }
  destruct (split_query cols kw) as [[[out' rg'] bad']|] eqn:E; [|discriminate]. cbn [bind].
  destruct (IH _ _ _ eq_refl) as [A B]. clear IH.
  assert (A' : In q bad' -> ~ has_col cols q /\ exists v0, In (q, v0) ((k, v) :: kw) /\ ~ (interval cols q /\ exists a b, v0 = QColl [a; b])).
  { intros H. destruct (A H) as (X & v0 & Y & Z). split; auto. exists v0. split; auto. right; auto. }
  destruct (mem k cols) eqn:M.
  { intros [= <- <- <-]. split; auto. intros v0 [[= <- <-]|H]; eauto. intros H. exfalso. apply H. now apply mem_In'. }
  assert (NC : ~ has_col cols k) by (intros X; apply mem_In' in X; congruence).
  assert (K : forall b2, (q = k -> In q b2) -> (In q bad' -> In q b2) ->
    forall v0, In (q, v0) ((k, v) :: kw) -> ~ has_col cols q -> ~ interval cols q -> v0 <> QNone -> In q b2).
  { intros b2 X Y v0 [[= <- <-]|H]; eauto. }
  assert (KB : ~ (interval cols k /\ exists a b, v = QColl [a; b]) ->
    In q (k :: bad') -> ~ has_col cols q /\ exists v0, In (q, v0) ((k, v) :: kw) /\ ~ (interval cols q /\ exists a b, v0 = QColl [a; b])).
  { intros X [<-|H]; auto. split; auto. exists v. split; auto. left; auto. }
  destruct (has_interval cols k) eqn:HI; [apply has_interval_spec in HI|assert (NI : ~ interval cols k) by (intros X; apply has_interval_spec in X; congruence)].
  all: destruct v as [| |[z|s|]|l]; cbn [andb].
  all: try discriminate.
  all: try (destruct (Nat.eqb _ 2); [discriminate|]).
  all: try (destruct l as [|a [|b [|c l]]]).
  all: intros [= <- <- <-].
  all: split; [auto; try (apply KB; intros [X (a0 & b0 & Y)]; try tauto; discriminate)|].
  all: try (apply K; [intros ->|auto]; cbn; tauto).
  all: try (intros v0 [[= <- <-]|H]; [tauto|eauto]; fail).
Qed.

Lemma assoc_set_kw new base q : NoDup (map fst new) ->
  assoc q (set_kw new base) = match assoc q new with Some v => Some v | None => assoc q base end.
Proof.
  unfold set_kw. revert base. induction new as [|[k v] t IH]; intros base N; cbn [fold_left fst snd]; auto.
  inversion N as [|? ? NI N']; subst. rewrite IH by auto. cbn [assoc].
  destruct (String.eqb_spec q k) as [->|NE].
  - assert (assoc k t = None) as -> by (now apply assoc_None). apply assoc_set_same.
  - destruct (assoc q t); auto. now apply assoc_set_other.
Qed.

Lemma select_leftover s kw s' q : sp_select s kw = Ok s' -> NoDup (map fst kw) ->
  (forall v, In (q, v) kw -> ~ has_col (sp_cols s) q -> ~ interval (sp_cols s) q -> v <> QNone ->
     assoc q (sp_sel s') = Some v) /\
  (has_col (sp_cols s) q \/ ~ In q (map fst kw) \/
   (interval (sp_cols s) q /\ exists a b, In (q, QColl [a; b]) kw) ->
     assoc q (sp_sel s') = assoc q (sp_sel s)).
Proof.
  unfold sp_select, extra_kwargs. intros H N. destruct (split_query (sp_cols s) kw) as [[[out rg] bad]|] eqn:E; [|discriminate].
  cbn [bind snd] in H. destruct (adjust_labelled _ _ _) as [df|] in H; [|discriminate]. cbn [bind] in H.
  destruct (adjust_irows _ _ _) in H; [|discriminate]. cbn [bind] in H. destruct (loc _ _) in H; [|discriminate]. cbn [bind] in H.
  destruct (adjust_labelled _ _ _) in H; [|discriminate]. cbn [bind] in H. injection H as <-. cbn [sp_sel].
  destruct (split_bad _ _ _ _ _ q E) as [A B].
  assert (NF : NoDup (map fst (filter (fun p : string * qval => mem (fst p) bad) kw))) by (now apply ChunkProofs4.NoDup_filter_map).
  rewrite assoc_set_kw by auto. split.
  - intros v Hv H1 H2 H3. rewrite (in_assoc _ _ _ NF (proj2 (filter_In _ _ _) (conj Hv (proj2 (mem_In' _ _) (B v Hv H1 H2 H3))))).
    reflexivity.
  - intros H. assert (assoc q (filter (fun p : string * qval => mem (fst p) bad) kw) = None) as ->; auto.
    apply assoc_None. intros X. apply in_map_iff in X as ([q' v] & <- & X). apply filter_In in X as [X Y]. cbn [fst] in *.
    apply mem_In' in Y. destruct (A Y) as (A1 & v0 & A2 & A3). destruct H as [H|[H|H]]; auto.
    + apply H. change q' with (fst (q', v)). now apply in_map.
    + destruct H as [HI HX]. destruct HX as [qa HX]. destruct HX as [qb HX]. apply A3. split; auto. exists qa, qb.
      pose proof (in_assoc _ _ _ N A2). pose proof (in_assoc _ _ _ N HX). congruence.
Qed.

(** Every operation sequence keeps each shown row linked to its one instruction
    and its one source. *)
From Verif Require Import Base BaseFacts CoordModel CoordSpec FrameModel ChunkModel FrameSpec FrameProofs FrameProofs2
  FrameProofs3 FrameProofs5 CmProofs SpoolModel SpoolSpec SpoolProofs SpoolProofs2.
From Coq Require Import Strings.String Lia Sorting.Permutation Sorting.Sorted.
Local Open Scope Z_scope.
Local Open Scope list_scope.

Definition linked (icols : list string) (s : spool) (x : Z * frow) : Prop :=
  exists r src, In r (sp_ins s) /\ n_cur r = Some (fst x) /\
    (forall r', In r' (sp_ins s) -> n_cur r' = Some (fst x) -> r' = r) /\
    In (n_src r, src) (sp_src s) /\
    (forall c, In c icols -> val (n_row r) c = val (snd x) c) /\
    f_mod (n_row r) = f_mod (snd x) /\
    (forall c, val src c = val (snd x) c) /\ f_mod src = f_mod (snd x).

Record sinv (cols icols : list string) (s : spool) : Prop :=
  { i_cols : sp_cols s = cols; i_icols : sp_icols s = icols; i_scols : sp_scols s = cols;
    v_ins : NoDup (map n_src (sp_ins s)); v_src : NoDup (map fst (sp_src s));
    i_link : Forall (linked icols s) (sp_df s) }.

(** ** Starting point *)
Lemma insert_row_perm r l : Permutation (insert_row r l) (r :: l).
Proof.
  induction l as [|s t IH]; cbn; auto. destruct (fst r <=? fst s); auto.
  rewrite IH. apply perm_swap.
Qed.
Lemma sort_rows_perm l : Permutation (sort_rows l) l.
Proof. induction l as [|r t IH]; cbn; auto. rewrite insert_row_perm. now constructor. Qed.

Lemma assoc_filter_key {A} (p : string -> bool) c (l : list (string * A)) : p c = true ->
  assoc c (filter (fun x => p (fst x)) l) = assoc c l.
Proof.
  intros Hp. induction l as [|[k v] t IH]; cbn; auto.
  destruct (String.eqb c k) eqn:E.
  - apply String.eqb_eq in E. subst k. rewrite Hp. cbn. now rewrite String.eqb_refl.
  - destruct (p k); cbn; [rewrite E|]; auto.
Qed.
Lemma interval_cells_val icols r c : In c icols -> val (interval_cells icols r) c = val r c.
Proof.
  intros H. unfold val, get_cell, interval_cells. cbn [f_cells].
  rewrite (assoc_filter_key (fun k => mem k icols)); auto. now apply mem_In.
Qed.

Lemma dummy_inv cols icols df : NoDup (map fst df) -> (forall x, In x df -> f_mod (snd x) = false) ->
  sinv cols icols (dummy_spool cols icols df).
Proof.
  intros N Hm. assert (P := sort_rows_perm df).
  constructor; cbn [sp_cols sp_icols sp_scols sp_ins sp_src sp_df dummy_spool]; auto.
  - rewrite map_map. cbn [n_src]. eapply Permutation_NoDup; [|exact N].
    symmetry. apply (Permutation_map fst P).
  - apply Forall_forall. intros [lb row] Hx.
    exists (mkIrow lb (Some lb) (interval_cells icols row)), row.
    cbn [sp_ins sp_src dummy_spool n_cur n_src n_row fst snd].
    split; [|split; [|split; [|split; [|split; [|split; [|split]]]]]]; auto.
    + apply in_map_iff. exists (lb, row). split; auto. eapply Permutation_in; [symmetry; exact P|auto].
    + intros r' H E. apply in_map_iff in H as ([lb' row'] & <- & Hx'). cbn in E. injection E as ->. cbn [fst snd].
      apply (Permutation_in _ P) in Hx'. assert (row' = row) as ->; auto.
      pose proof (filter_label df lb row N Hx) as F1. pose proof (filter_label df lb row' N Hx') as F2.
      rewrite F1 in F2. now injection F2.
    + intros c Hc. now apply interval_cells_val.
    + unfold interval_cells. cbn. symmetry. apply (Hm _ Hx).
Qed.

(** ** Slices and arrays *)
Lemma slice_inv cols icols s sl s' : sinv cols icols s -> sp_slice s sl = Ok s' ->
  sinv cols icols s' /\ exists ps, slice_positions (zlen (sp_df s)) sl = Some ps /\
    gather (sp_df s) ps = Some (sp_df s').
Proof.
  intros V H. unfold sp_slice in H. unfold np_index, indexer_positions in H.
  destruct (slice_positions (zlen (sp_df s)) sl) as [ps|]; [|discriminate].
  destruct (gather (sp_df s) ps) as [df|] eqn:G; [|discriminate].
  destruct (loc _ _) as [src|] eqn:L; [|discriminate]. cbn [bind] in H. injection H as <-.
  destruct (loc_unique _ (v_src _ _ _ V) _ _ L) as [L1 L2].
  split; [|cbn [sp_df]; eauto].
  assert (N : NoDup (map n_src (filter (in_index df) (sp_ins s)))) by apply NoDup_map_filter', (v_ins _ _ _ V).
  constructor; cbn [sp_cols sp_icols sp_scols sp_ins sp_src sp_df]; try apply V; auto.
  - now rewrite L1.
  - apply Forall_forall. intros x Hx.
    pose proof (gather_incl _ _ _ _ G Hx) as Hx0. pose proof (i_link _ _ _ V) as Lk.
    rewrite Forall_forall in Lk. destruct (Lk x Hx0) as (r & f & A1 & A2 & A3 & A4 & A5 & A6 & A7 & A8).
    assert (Hr : In r (filter (in_index df) (sp_ins s))).
    { apply filter_In. split; auto. apply in_index_spec. eauto. }
    exists r, f. cbn [sp_ins sp_src]. split; auto. split; auto. split; [|split; [|auto]].
    + intros r' H. apply filter_In in H as [H _]. auto.
    + apply L2. split; auto. cbn [fst]. now apply in_map.
Qed.

Lemma array_inv cols icols s ix s' : sinv cols icols s -> sp_array s ix = Ok s' ->
  sinv cols icols s' /\ exists ps, indexer_positions (zlen (sp_df s)) ix = Some ps /\
    gather (sp_df s) ps = Some (sp_df s').
Proof.
  intros V H. unfold sp_array in H. unfold np_index in H.
  destruct (indexer_positions (zlen (sp_df s)) ix) as [ps|]; [|destruct ix; discriminate].
  destruct (gather (sp_df s) ps) as [df|] eqn:G; [|destruct ix; discriminate].
  injection H as <-. split; [|cbn [sp_df]; eauto].
  constructor; cbn [sp_cols sp_icols sp_scols sp_ins sp_src sp_df]; try apply V.
  apply Forall_forall. intros x Hx.
  pose proof (gather_incl _ _ _ _ G Hx) as Hx0. pose proof (i_link _ _ _ V) as Lk.
  rewrite Forall_forall in Lk. exact (Lk x Hx0).
Qed.

(** ** Sorting *)
Lemma dup_labels_false l : dup_labels l = false <-> NoDup l.
Proof.
  induction l as [|x t IH]; cbn; [split; auto using NoDup_nil|].
  rewrite Bool.orb_false_iff, IH. split.
  - intros [A B]. constructor; auto. intros H.
    assert (existsb (Z.eqb x) t = true) as X by (apply existsb_exists; exists x; split; auto; apply Z.eqb_refl). congruence.
  - intros N. inversion N; subst. split; auto. apply Bool.not_true_iff_false. intros X.
    apply existsb_exists in X as (y & Hy & E). apply Z.eqb_eq in E. now subst.
Qed.
Lemma position_spec k l p : position k l = Some p -> znth l p = Some k.
Proof.
  revert p. induction l as [|x t IH]; intros p; cbn [position]; [discriminate|].
  destruct (x =? k) eqn:E.
  - intros [= <-]. apply Z.eqb_eq in E. now subst.
  - destruct (position k t) as [q|]; cbn [option_map]; [|discriminate]. intros H.
    apply (f_equal (fun o => match o with Some z => z | None => 0 end)) in H. cbv beta iota in H. subst p.
    specialize (IH q eq_refl). rewrite znth_cons. pose proof (znth_some _ _ _ IH).
    destruct (Z.eqb_spec (1 + q) 0); [lia|]. replace (1 + q - 1) with q by lia. auto.
Qed.
Lemma position_nth l p k : NoDup l -> znth l p = Some k -> position k l = Some p.
Proof.
  intros N. revert p. induction N as [|x t Hn N IH]; intros p; [now rewrite znth_nil|].
  rewrite znth_cons. cbn [position]. destruct (Z.eqb_spec p 0) as [->|Hp].
  - intros [= ->]. now rewrite Z.eqb_refl.
  - intros H. destruct (Z.eqb_spec x k) as [->|Hx].
    + exfalso. apply Hn. eapply znth_in; eauto.
    + rewrite (IH _ H). cbn [option_map]. f_equal. lia.
Qed.

Lemma znth_combine {A B} (a : list A) (b : list B) i x y :
  znth (combine a b) i = Some (x, y) <-> znth a i = Some x /\ znth b i = Some y.
Proof.
  revert b i. induction a as [|u a IH]; intros b i; cbn [combine].
  - rewrite !znth_nil. split; [discriminate|intros []; discriminate].
  - destruct b as [|v b]; [rewrite !znth_nil; split; [discriminate|intros []; discriminate]|].
    rewrite !znth_cons. destruct (i =? 0); [|apply IH]. split; [intros [= <- <-]; auto|intros [[= <-] [= <-]]; auto].
Qed.
Lemma zlen_combine {A B} (a : list A) (b : list B) : zlen a = zlen b -> zlen (combine a b) = zlen b.
Proof. unfold zlen. intros H. rewrite combine_length. lia. Qed.
Lemma map_snd_combine {A B} (a : list A) (b : list B) : zlen a = zlen b -> map snd (combine a b) = b.
Proof.
  revert b. induction a as [|u a IH]; intros [|v b] H; cbn; auto; try (cbv in H; discriminate).
  f_equal. apply IH. rewrite !zlen_cons in H. lia.
Qed.

Lemma ints_of_spec l r : ints_of l = Some r -> l = map VInt r.
Proof.
  revert r. induction l as [|c t IH]; cbn; [now intros r [= <-]|].
  destruct c; try discriminate. destruct (ints_of t); [|discriminate]. intros r [= <-]. cbn. f_equal. auto.
Qed.

Lemma gather_perm {A} (l : list A) ps out : Permutation ps (zrange (zlen l)) -> gather l ps = Some out ->
  Permutation l out.
Proof.
  intros P H.
  assert (E : exists f, forall p x, znth l p = Some x -> f p = Some x) by (exists (znth l); auto).
  assert (G : map Some out = map (znth l) ps).
  { clear P E. revert out H. induction ps as [|p ps IH]; cbn; intros out H; [now injection H as <-|].
    destruct (znth l p) as [x|]; [|discriminate]. destruct (gather l ps) as [o|]; [|discriminate].
    injection H as <-. cbn. f_equal. auto. }
  assert (G0 : map Some l = map (znth l) (zrange (zlen l))).
  { apply znth_ext. intros i. rewrite !znth_map, znth_zrange.
    destruct ((0 <=? i) && (i <? zlen l)) eqn:B; cbn.
    - destruct (znth l i) eqn:Z; cbn; auto. apply znth_none in Z. apply Bool.andb_true_iff in B. lia.
    - destruct (znth l i) eqn:Z; auto. apply znth_some in Z. apply Bool.andb_false_iff in B. lia. }
  assert (Permutation (map Some l) (map Some out)) as X by (rewrite G, G0; apply Permutation_map; now symmetry).
  assert (Y : forall q : list A, map (fun o => match o with Some x => [x] | None => [] end) (map Some q) = map (fun x => [x]) q)
    by (intros q; rewrite map_map; reflexivity).
  assert (W : forall q : list A, flat_map (fun o => match o with Some x => [x] | None => [] end) (map Some q) = q).
  { intros q. rewrite flat_map_concat_map, Y. induction q; cbn; congruence. }
  rewrite <- (W l), <- (W out). now apply Permutation_flat_map.
Qed.

Lemma column_gather (rows : list (Z * frow)) col ps out : gather rows ps = Some out ->
  gather (column (map snd rows) col) ps = Some (column (map snd out) col).
Proof.
  intros G. unfold column. rewrite !map_map. rewrite gather_map, G. cbn. reflexivity.
Qed.

Lemma sort_inv cols icols argsort s attr s' : valid_argsort argsort -> sinv cols icols s ->
  sp_sort argsort s attr = Ok s' ->
  sinv cols icols s' /\ exists col ps keys out,
    (has_col cols attr /\ col = attr \/ ~ has_col cols attr /\ col = append attr "_min" /\ has_col cols col) /\
    Permutation ps (zrange (zlen (sp_df s))) /\
    gather (sp_df s) ps = Some out /\ map snd (sp_df s') = map snd out /\
    column (map snd out) col = map VInt keys /\ StronglySorted Z.le keys.
Proof.
  intros VA V H. unfold sp_sort in H.
  destruct (sort_column s attr) as [col|] eqn:C; [|discriminate]. cbn [bind] in H.
  destruct (ints_of _) as [keys|] eqn:K; [|discriminate].
  destruct (gather (sp_df s) (argsort keys)) as [rows|] eqn:G; [|discriminate].
  destruct (dup_labels _) eqn:D; [discriminate|]. injection H as <-.
  apply dup_labels_false in D. apply ints_of_spec in K.
  destruct (VA keys) as (P & ks & Gk & Hs).
  assert (Lk : zlen keys = zlen (sp_df s)).
  { rewrite <- (zlen_map VInt keys), <- K. unfold column. now rewrite !zlen_map. }
  rewrite Lk in P.
  assert (Lr : zlen rows = zlen (sp_df s)).
  { apply gather_some_len in G. rewrite G. unfold zlen at 1. rewrite (Permutation_length P).
    change (zlen (zrange (zlen (sp_df s))) = zlen (sp_df s)). rewrite zlen_zrange.
    pose proof (zlen_nonneg (sp_df s)). lia. }
  assert (Lz : zlen (zrange (zlen rows)) = zlen rows).
  { rewrite zlen_zrange. pose proof (zlen_nonneg rows). lia. }
  split.
  - constructor; cbn [sp_cols sp_icols sp_scols sp_ins sp_src sp_df]; try apply V.
    + rewrite map_map. cbn. apply V.
    + apply Forall_forall. intros [p row] Hx.
      apply in_znth in Hx as (i & Hi). apply znth_combine in Hi as [H1 H2].
      rewrite znth_zrange in H1. destruct (_ && _) in H1; [|discriminate]. injection H1 as ->.
      rewrite znth_map in H2. destruct (znth rows p) as [[lb row0]|] eqn:Z; [|discriminate].
      cbn in H2. injection H2 as ->.
      pose proof (znth_in _ _ _ Z) as Hin. pose proof (gather_incl _ _ _ _ G Hin) as Hx0.
      pose proof (i_link _ _ _ V) as Lnk. rewrite Forall_forall in Lnk.
      destruct (Lnk _ Hx0) as (r & f & A1 & A2 & A3 & A4 & A5 & A6 & A7 & A8). cbn [fst snd] in *.
      assert (Zl : znth (map fst rows) p = Some lb) by (rewrite znth_map, Z; reflexivity).
      exists (relabel (map fst rows) r), f. cbn [sp_ins sp_src fst snd].
      split; [now apply in_map|]. split; [|split; [|auto]].
      * unfold relabel. cbn [n_cur]. rewrite A2. now apply position_nth.
      * intros r' Hr' E. apply in_map_iff in Hr' as (r0 & <- & Hr0). unfold relabel in E. cbn [n_cur] in E.
        destruct (n_cur r0) as [c|] eqn:Ec; [|discriminate]. apply position_spec in E. rewrite Zl in E. injection E as <-.
        now rewrite (A3 r0).
  - exists col, (argsort keys), ks, rows. split; [|split; [|split; [|split; [|split]]]]; auto.
    + unfold sort_column in C. rewrite (i_cols _ _ _ V) in C.
      destruct (mem attr cols) eqn:M; [injection C as <-; left; split; auto; now apply mem_In|].
      destruct (mem (append attr "_min") cols) eqn:M2; [|discriminate]. injection C as <-.
      right. split; [now apply mem_not|]. split; auto. now apply mem_In.
    + cbn [sp_df]. apply map_snd_combine. rewrite Lz. now rewrite zlen_map.
    + pose proof (column_gather _ col _ _ G) as Q. rewrite K in Q. rewrite gather_map, Gk in Q. cbn in Q. now injection Q.
Qed.

(** ** Selecting *)
Lemma select_inv cols icols s kw s' : tables cols icols -> clear_query cols icols kw ->
  sinv cols icols s -> sp_select s kw = Ok s' ->
  sinv cols icols s' /\ exists P,
    (forall x, In x (sp_df s) -> (P (snd x) = true <-> forall q v, In (q, v) kw -> meets cols (snd x) q v)) /\
    sp_df s' = map (fun x => (fst x, clampf (range_names cols kw) (snd x))) (filter (fun x => P (snd x)) (sp_df s)) /\
    (forall rs, exists o, clamp_all (range_names cols kw) rs = Ok o).
Proof.
  intros Ht Hq V H. unfold sp_select in H. rewrite (i_cols _ _ _ V), (i_icols _ _ _ V), (i_scols _ _ _ V) in H.
  destruct (extra_kwargs _ _) as [ex|]; [|discriminate]. cbn [bind] in H.
  destruct (adjust_labelled cols (sp_df s) kw) as [df|] eqn:A1; [|discriminate]. cbn [bind] in H.
  destruct (adjust_irows icols (sp_ins s) kw) as [ins|] eqn:A2; [|discriminate]. cbn [bind] in H.
  destruct (loc _ _) as [src0|] eqn:L; [|discriminate]. cbn [bind] in H.
  destruct (adjust_labelled cols src0 kw) as [src|] eqn:A3; [|discriminate]. cbn [bind] in H. injection H as <-.
  apply adjust_labelled_shape in A1; [|exact (clear_plain cols icols kw cols (t_sub _ _ Ht) Hq)].
  apply adjust_irows_shape in A2; [|exact (clear_plain cols icols kw icols (fun c H => H) Hq)].
  apply adjust_labelled_shape in A3; [|exact (clear_plain cols icols kw cols (t_sub _ _ Ht) Hq)].
  destruct A1 as (P & HP & Edf & Hok). destruct A2 as (P2 & HP2 & Eins). destruct A3 as (P3 & HP3 & Esrc & _).
  rewrite <- (range_names_same cols icols Ht) in Eins.
  set (g := clampf (range_names cols kw)) in *.
  destruct (loc_unique _ (v_src _ _ _ V) _ _ L) as [L1 L2].
  assert (N : NoDup (map n_src (filter (in_index df) ins))).
  { apply NoDup_map_filter'. rewrite Eins, map_map. cbn [n_src]. apply NoDup_map_filter'. apply V. }
  split; [|cbn [sp_df]; eauto].
  constructor; cbn [sp_cols sp_icols sp_scols sp_ins sp_src sp_df]; auto.
  - rewrite Esrc, map_map. cbn [fst]. apply (NoDup_map_filter' (@fst Z frow)). now rewrite L1.
  - apply Forall_forall. intros x Hx. pose proof Hx as Hdf. rewrite Edf in Hx.
    apply in_map_iff in Hx as ([lb row] & <- & Hx). apply filter_In in Hx as [Hx Px]. cbn [fst snd] in *.
    pose proof (i_link _ _ _ V) as Lnk. rewrite Forall_forall in Lnk.
    destruct (Lnk _ Hx) as (r & f & B1 & B2 & B3 & B4 & B5 & B6 & B7 & B8). cbn [fst snd] in *.
    pose proof (proj1 (HP _ Hx) Px) as M. cbn [snd] in M.
    set (r1 := mkIrow (n_src r) (n_cur r) (g (n_row r))).
    assert (Hr1 : In r1 (filter (in_index df) ins)).
    { apply filter_In. split.
      - rewrite Eins. apply in_map_iff. exists r. split; auto. apply filter_In. split; auto.
        apply HP2; auto. eapply meets_irow; eauto.
      - apply in_index_spec. eexists. split; [exact Hdf|]. exact B2. }
    assert (Hf0 : In (n_src r, f) src0).
    { apply L2. split; auto. cbn [fst]. change (n_src r) with (n_src r1). now apply in_map. }
    exists r1, (g f). cbn [sp_ins sp_src fst snd].
    assert (Rn : forall k, In k (map fst (range_names cols kw)) -> In (append k "_min") icols /\ In (append k "_max") icols).
    { intros k Hk. apply in_map_iff in Hk as ([k' v] & <- & Hk). apply range_names_In in Hk as (_ & Hi & _).
      apply (t_interval _ _ Ht) in Hi as [Hi _]. exact Hi. }
    destruct (clampf_agree (fun c => In c icols) _ Rn (n_row r) row B5 B6) as [C1 C2].
    destruct (clampf_agree (fun c => True) (range_names cols kw) (fun k _ => conj Logic.I Logic.I) f row (fun c _ => B7 c) B8) as [C3 C4].
    split; auto. split; auto. split; [|split; [|split; [|split; [|split]]]]; auto.
    + intros r' Hr' E. apply filter_In in Hr' as [Hr' _]. rewrite Eins in Hr'.
      apply in_map_iff in Hr' as (r0 & <- & Hr0). apply filter_In in Hr0 as [Hr0 _]. cbn in E.
      now rewrite (B3 r0 Hr0 E).
    + cbn [n_src r1]. rewrite Esrc. apply in_map_iff. exists (n_src r, f). split; auto. apply filter_In. split; auto.
      apply HP3; auto. cbn [snd]. intros q v Hin. eapply meets_same; [|apply M; eauto]. intros c. symmetry. apply B7.
Qed.

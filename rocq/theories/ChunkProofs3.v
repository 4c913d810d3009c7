From Verif Require Import Base BaseFacts CoordModel CoordSpec CoordProofs CoordProofs2 CoordProofs3
  ChunkModel ChunkSpec ChunkProofs ChunkProofs2.
From Coq Require Import ZifyBool Sorting.Permutation Sorting.Sorted.
Ltac Zify.zify_post_hook ::= Z.div_mod_to_equations.

(** ** Instructions *)
Lemma disjoint_znth rows : disjoint_rows rows -> forall i j r r', 0 <= i < j ->
  znth rows i = Some r -> znth rows j = Some r' ->
  g_min r <= g_max r /\ g_max r < g_min r' /\ g_min r' <= g_max r'.
Proof.
  induction rows as [|r0 t IH]; intros D i j r r' Hij; [now rewrite znth_nil|].
  destruct D as (D1 & D2 & D3). rewrite !znth_cons.
  destruct (Z.eqb_spec j 0); [lia|]. destruct (Z.eqb_spec i 0) as [Ei|Ni].
  - intros [= <-] Hj. split; auto.
    destruct t as [|r1 t]; [now rewrite znth_nil in Hj|].
    assert (Hle : g_min r' <= g_max r').
    { destruct (Z.eq_dec (j - 1) 0) as [E0|]; [rewrite E0 in Hj; injection Hj as <-; apply D3|].
      apply (IH D3 0 (j - 1) r1 r'); auto; lia. }
    destruct (Z.eq_dec (j - 1) 0) as [E0|]; [rewrite E0 in Hj; injection Hj as <-; auto|].
    destruct (IH D3 0 (j - 1) r1 r' ltac:(lia) eq_refl Hj) as (A & B & C). lia.
  - intros Hi Hj. apply (IH D3 (i - 1) (j - 1)); auto; lia.
Qed.
Lemma disjoint_one rows : disjoint_rows rows -> forall i r, znth rows i = Some r -> g_min r <= g_max r.
Proof.
  induction rows as [|r0 t IH]; intros D i r; [now rewrite znth_nil|].
  destruct D as (D1 & D2 & D3). rewrite znth_cons. destruct (i =? 0); [intros [= <-]; auto|]. intros; eapply IH; eauto.
Qed.
Lemma disjoint_wsorted rows : disjoint_rows rows -> wsorted (map g_min rows) /\ wsorted (map g_max rows).
Proof.
  induction rows as [|r t IH]; cbn; [split; constructor|]. intros (D1 & D2 & D3).
  destruct (IH D3) as [A B].
  assert (H : forall r', In r' t -> g_max r < g_min r' /\ g_min r' <= g_max r').
  { intros r' Hr'. apply in_znth in Hr' as [j Hj]. pose proof (znth_some _ _ _ Hj).
    destruct (disjoint_znth (r :: t) ltac:(cbn; auto) 0 (j + 1) r r') as (? & ? & ?); auto; try lia.
    rewrite znth_cons. destruct (Z.eqb_spec (j + 1) 0); [lia|]. now replace (j + 1 - 1) with j by lia. }
  split; constructor; auto; rewrite Forall_forall; intros x Hx; apply in_map_iff in Hx as (r' & <- & Hr');
    specialize (H r' Hr'); lia.
Qed.

Lemma chunk_rows_spec srcs ch : disjoint_rows srcs -> k_min ch <= k_max ch ->
  (exists s, In s srcs /\ inside (k_min ch) s) -> (exists s, In s srcs /\ inside (k_max ch) s) ->
  snd (chunk_inds (map g_min srcs) (map g_max srcs) ch) - 1 < zlen srcs /\
  chunk_rows srcs ch = Ok (map (cut ch) (filter (meets ch) srcs)).
Proof.
  intros D Hcd (s1 & H1 & I1) (s2 & H2 & I2).
  destruct (disjoint_wsorted srcs D) as [W1 W2].
  apply in_znth in H1 as [i0 Hi0]. apply in_znth in H2 as [j0 Hj0].
  destruct (searchsorted_right (map g_min srcs) (k_min ch) W1) as [B1 S1].
  destruct (searchsorted_left (map g_max srcs) (k_max ch) W2) as [B2 S2].
  rewrite zlen_map in B1, B2. unfold chunk_rows, chunk_inds. cbn [fst snd].
  set (p1 := searchsorted false (map g_min srcs) (k_min ch)) in *.
  set (p2 := searchsorted true (map g_max srcs) (k_max ch)) in *.
  pose proof (znth_some _ _ _ Hi0) as Bi. pose proof (znth_some _ _ _ Hj0) as Bj.
  unfold inside in *.
  assert (E1 : p1 - 1 = i0).
  { pose proof (S1 i0 (g_min s1)) as A. rewrite znth_map, Hi0 in A. specialize (A eq_refl).
    assert (i0 < p1) by lia.
    destruct (Z_lt_ge_dec (i0 + 1) p1) as [L|]; [|lia]. exfalso.
    destruct (proj2 (znth_range srcs (i0 + 1)) ltac:(lia)) as [r Hr].
    pose proof (S1 (i0 + 1) (g_min r)) as A2. rewrite znth_map, Hr in A2. specialize (A2 eq_refl).
    destruct (disjoint_znth srcs D i0 (i0 + 1) s1 r) as (? & ? & ?); auto; lia. }
  assert (E2 : p2 = j0).
  { pose proof (S2 j0 (g_max s2)) as A. rewrite znth_map, Hj0 in A. specialize (A eq_refl).
    assert (p2 <= j0) by lia.
    destruct (Z.eq_dec p2 j0); auto. exfalso.
    destruct (proj2 (znth_range srcs p2) ltac:(lia)) as [r Hr].
    pose proof (S2 p2 (g_max r)) as A2. rewrite znth_map, Hr in A2. specialize (A2 eq_refl).
    destruct (disjoint_znth srcs D p2 j0 r s2) as (? & ? & ?); auto; lia. }
  split; [lia|]. rewrite E1, E2.
  assert (Hij : i0 <= j0).
  { destruct (Z_le_gt_dec i0 j0); auto. exfalso.
    destruct (disjoint_znth srcs D j0 i0 s2 s1) as (? & ? & ?); auto; lia. }
  destruct (Z.ltb_spec (j0 + 1) i0); [lia|].
  assert (P : map (fun i => wrap_index (zlen srcs) (i0 + i)) (zrange (j0 + 1 - i0))
              = positions_where (meets ch) srcs).
  { apply zsorted_ext.
    - assert (E : map (fun i => wrap_index (zlen srcs) (i0 + i)) (zrange (j0 + 1 - i0))
                  = map (fun i => i0 + i) (zrange (j0 + 1 - i0))).
      { apply map_ext_in. intros i Hi. apply in_zrange in Hi. unfold wrap_index.
        destruct (Z.ltb_spec (i0 + i) 0); lia. }
      rewrite E. apply zsorted_map_mono; [lia|apply zsorted_zrange].
    - apply zsorted_filter, zsorted_zrange.
    - intros i. unfold positions_where. rewrite filter_In, in_zrange, in_map_iff. split.
      + intros (k & Ek & Hk). apply in_zrange in Hk. unfold wrap_index in Ek.
        destruct (Z.ltb_spec (i0 + k) 0); [lia|]. subst i. split; [lia|].
        destruct (proj2 (znth_range srcs (i0 + k)) ltac:(lia)) as [r Hr]. rewrite Hr.
        unfold meets. pose proof (disjoint_one srcs D _ _ Hr).
        assert (g_min r <= k_max ch).
        { destruct (Z.eq_dec (i0 + k) j0) as [E|]; [rewrite E in Hr; assert (r = s2) by congruence; subst; lia|].
          destruct (disjoint_znth srcs D (i0 + k) j0 r s2) as (? & ? & ?); auto; lia. }
        assert (k_min ch <= g_max r).
        { destruct (Z.eq_dec (i0 + k) i0) as [E|]; [rewrite E in Hr; assert (r = s1) by congruence; subst; lia|].
          destruct (disjoint_znth srcs D i0 (i0 + k) s1 r) as (? & ? & ?); auto; lia. }
        lia.
      + intros [Hi Hm]. destruct (znth srcs i) as [r|] eqn:Hr; [|discriminate]. unfold meets in Hm.
        exists (i - i0). assert (i0 <= i <= j0).
        { split.
          - destruct (Z_le_gt_dec i0 i); auto. exfalso.
            destruct (disjoint_znth srcs D i i0 r s1) as (? & ? & ?); auto; lia.
          - destruct (Z_le_gt_dec i j0); auto. exfalso.
            destruct (disjoint_znth srcs D j0 i s2 r) as (? & ? & ?); auto; lia. }
        rewrite in_zrange. unfold wrap_index. split; [|lia].
        destruct (Z.ltb_spec (i0 + (i - i0)) 0); lia. }
  rewrite P, gather_positions_where. f_equal. apply map_ext. intros s. unfold cut. f_equal.
  rewrite <- orb_assoc. f_equal. now rewrite negb_andb.
Qed.

Lemma map_result_ok {A B} (f : A -> result B) (g : A -> B) l :
  (forall x, In x l -> f x = Ok (g x)) -> map_result f l = Ok (map g l).
Proof.
  induction l as [|x l IH]; intros H; cbn [map_result map]; auto.
  rewrite H by (cbn; auto). cbn [bind]. rewrite IH by (intros; apply H; cbn; auto). reflexivity.
Qed.

(** For one group: the instruction table. *)
Lemma instructions_spec argsort srcs chs : valid_argsort argsort ->
  let trimmed := remove_overlaps (take_rows srcs (argsort (map g_min srcs))) in
  disjoint_rows trimmed ->
  (forall ch, In ch chs -> k_min ch <= k_max ch /\
     (exists s, In s trimmed /\ inside (k_min ch) s) /\ (exists s, In s trimmed /\ inside (k_max ch) s)) ->
  exists chs', Permutation chs' chs /\
    instructions argsort srcs chs
    = Ok (concat (map (fun ch => map (cut ch) (filter (meets ch) trimmed)) chs')).
Proof.
  intros V trimmed D H. destruct (take_rows_perm argsort k_min chs V) as (chs' & G & P & _).
  exists chs'. split; auto. unfold instructions. rewrite G. fold trimmed.
  assert (H' : forall ch, In ch chs' -> _) by (intros ch Hc; exact (chunk_rows_spec trimmed ch D
     (proj1 (H ch (Permutation_in _ P Hc))) (proj1 (proj2 (H ch (Permutation_in _ P Hc))))
     (proj2 (proj2 (H ch (Permutation_in _ P Hc)))))).
  assert (F : forallb (fun ch => snd (chunk_inds (map g_min trimmed) (map g_max trimmed) ch) - 1 <? zlen trimmed) chs' = true).
  { apply forallb_forall. intros ch Hc. apply Z.ltb_lt. apply (H' ch Hc). }
  rewrite F. rewrite (map_result_ok _ (fun ch => map (cut ch) (filter (meets ch) trimmed))).
  - reflexivity.
  - intros ch Hc. apply (H' ch Hc).
Qed.

(** ** Staggered contiguous sources on a grid *)
Lemma staggered_weak rows : staggered rows -> weakly_staggered rows.
Proof.
  induction rows as [|r t IH]; cbn; auto. intros [H S]. split; auto. destruct t; auto. lia.
Qed.

(** The trimmed rows of a staggered contiguous list: consecutive, each row keeps
    its end. *)
Lemma trim_disjoint base s : 0 < s -> forall rows prev,
  Forall (grid_seg base s) (prev :: rows) -> staggered (prev :: rows) ->
  disjoint_rows (trim_from prev rows) /\
  match trim_from prev rows with [] => True | r :: _ => g_max prev < g_min r end.
Proof.
  intros Hs. induction rows as [|r t IH]; intros prev F W; cbn [trim_from]; [cbn; auto|].
  inversion F as [|? ? Gp F1]; subst. inversion F1 as [|? ? Gr F2]; subst.
  destruct W as [[W1 W2] W3]. destruct (IH r F1 W3) as [D N].
  destruct Gp as (Ps & Pmin & Pmax & Ple), Gr as (Rs & Rmin & Rmax & Rle).
  cbn [disjoint_rows g_min g_max]. rewrite Ps. cbn [step_or_zero].
  assert (g_max prev + s <= g_max r).
  { destruct Pmax as [p Hp], Rmax as [q Hq]. assert (p < q) by nia. nia. }
  split.
  - split; [destruct (Z.leb_spec (g_min r) (g_max prev)); lia|]. split; auto.
  - destruct (Z.leb_spec (g_min r) (g_max prev)); lia.
Qed.
Lemma remove_disjoint base s rows : 0 < s -> Forall (grid_seg base s) rows -> staggered rows ->
  disjoint_rows (remove_overlaps rows).
Proof.
  intros Hs F W. destruct rows as [|r t]; cbn; auto.
  destruct (trim_disjoint base s Hs t r F W) as [D N]. inversion F as [|? ? Gr F2]; subst.
  destruct Gr as (Rs & Rmin & Rmax & Rle). auto.
Qed.

(** Every grid point between the first start and the last end belongs to a
    source when the sources are contiguous. *)
Lemma contiguous_cover base s : 0 < s -> forall rows, Forall (grid_seg base s) rows -> contiguous s rows ->
  forall r0 x, znth rows 0 = Some r0 -> on_grid base s x -> g_min r0 <= x ->
  (exists r, In r rows /\ x <= g_max r) -> exists r, In r rows /\ In x (seg_samples s r).
Proof.
  intros Hs rows. induction rows as [|r t IH]; intros F C r0 x H0 Gx Hx (r1 & Hr1 & B); [destruct Hr1|].
  injection H0 as <-. inversion F as [|? ? Gr F2]; subst.
  destruct (Z_le_gt_dec x (g_max r)) as [L|G].
  - exists r. split; [cbn; auto|]. apply (in_grid_seg base s r); auto. apply Gr.
  - destruct t as [|r' t]; [destruct Hr1 as [<-|[]]; lia|]. destruct C as [C1 C2].
    assert (g_max r + s <= x).
    { destruct Gr as (_ & _ & [p Hp] & _), Gx as [q Hq]. assert (p < q) by nia. nia. }
    destruct (IH F2 C2 r' x eq_refl Gx ltac:(lia)) as (r2 & H2 & H3).
    { destruct Hr1 as [<-|Hr1]; [lia|]. exists r1. auto. }
    exists r2. split; [cbn in *; tauto|auto].
Qed.

Lemma in_samples_inside base s r x : 0 < s -> grid_seg base s r -> In x (seg_samples s r) ->
  inside x r /\ on_grid base s x.
Proof. intros Hs (_ & G & _ & _) H. apply (in_grid_seg base s r) in H as [A B]; auto. Qed.

Lemma trim_grid base s : 0 < s -> forall rows prev,
  Forall (grid_seg base s) (prev :: rows) -> staggered (prev :: rows) ->
  Forall (grid_seg base s) (trim_from prev rows).
Proof.
  intros Hs. induction rows as [|r t IH]; intros prev F W; cbn [trim_from]; constructor.
  - inversion F as [|? ? Gp F1]; subst. inversion F1 as [|? ? Gr F2]; subst.
    destruct W as [[W1 W2] W3]. destruct Gp as (Ps & Pmin & Pmax & Ple), Gr as (Rs & Rmin & Rmax & Rle).
    unfold grid_seg. cbn [g_step g_min g_max]. rewrite Ps. cbn [step_or_zero].
    assert (g_max prev + s <= g_max r).
    { destruct Pmax as [p Hp], Rmax as [q Hq]. assert (p < q) by nia. nia. }
    destruct (Z.leb_spec (g_min r) (g_max prev)); repeat split; auto; try lia.
    destruct Pmax as [p Hp]. exists (p + 1). lia.
  - apply IH; [now inversion F|apply W].
Qed.
Lemma remove_grid base s rows : 0 < s -> Forall (grid_seg base s) rows -> staggered rows ->
  Forall (grid_seg base s) (remove_overlaps rows).
Proof.
  intros Hs F W. destruct rows as [|r t]; cbn; [constructor|]. constructor; [now inversion F|].
  eapply trim_grid; eauto.
Qed.

Lemma filter_all {A} (p : A -> bool) l : (forall x, In x l -> p x = true) -> filter p l = l.
Proof.
  induction l as [|x l IH]; intros H; cbn; auto. rewrite H by (cbn; auto). f_equal. apply IH.
  intros; apply H; cbn; auto.
Qed.
Lemma filter_map_comm {A B} (f : A -> B) p l : map f (filter (fun x => p (f x)) l) = filter p (map f l).
Proof. induction l as [|x l IH]; cbn; auto. destruct (p (f x)); cbn; now rewrite IH. Qed.

(** Samples a source contributes to a chunk. *)
Lemma load_cut {D} base s (load : Z -> list (Z * D)) r r' ch :
  0 < s -> grid_seg base s r -> map fst (load (g_idx r)) = seg_samples s r ->
  g_idx r' = g_idx r -> g_max r' = g_max r -> g_min r <= g_min r' ->
  g_mod r' = g_mod r || negb (g_min r' =? g_min r) ->
  meets ch r' = true -> g_min r' <= g_max r' -> k_min ch <= k_max ch ->
  map fst (load_trimmed (load (g_idx r')) (cut ch r'))
  = filter (fun x => (Z.max (g_min r') (k_min ch) <=? x) && (x <=? Z.min (g_max r') (k_max ch))) (seg_samples s r).
Proof.
  intros Hs G L Ei Em Hmin Hmod Hme Hle Hch. unfold meets in Hme. unfold load_trimmed, cut. cbn [i_mod i_min i_max i_src].
  rewrite Ei. destruct (g_mod r' || _) eqn:M.
  - rewrite <- L.
    set (lo := Z.max (g_min r') (k_min ch)). set (hi := Z.min (g_max r') (k_max ch)).
    assert (lo <= hi) by (unfold lo, hi; lia). rewrite Z.min_l, Z.max_r by auto.
    rewrite (filter_map_comm fst (fun x => (lo <=? x) && (x <=? hi))). reflexivity.
  - apply orb_false_iff in M as [M1 M2]. rewrite Hmod in M1. apply orb_false_iff in M1 as [_ M1].
    rewrite L. symmetry. apply filter_all. intros x Hx.
    apply in_samples in Hx as [Hx _]; auto. lia.
Qed.

Lemma trim_starts base s : 0 < s -> forall rows prev, Forall (grid_seg base s) (prev :: rows) ->
  Forall2 (fun r r' => g_min r <= g_min r') rows (trim_from prev rows).
Proof.
  intros Hs. induction rows as [|r t IH]; intros prev F; cbn [trim_from]; constructor.
  - inversion F as [|? ? Gp F1]; subst. destruct Gp as (Ps & _). cbn [g_min]. rewrite Ps. cbn.
    destruct (Z.leb_spec (g_min r) (g_max prev)); lia.
  - apply IH. now inversion F.
Qed.
Lemma remove_starts base s rows : 0 < s -> Forall (grid_seg base s) rows ->
  Forall2 (fun r r' => g_min r <= g_min r') rows (remove_overlaps rows).
Proof. intros Hs F. destruct rows; cbn; constructor; [lia|]. eapply trim_starts; eauto. Qed.

Lemma Forall2_In_r {A B} (R : A -> B -> Prop) l l' y : Forall2 R l l' -> In y l' -> exists x, In x l /\ R x y.
Proof.
  induction 1 as [|a b l l' H F IH]; intros []; [subst; exists a; cbn; auto|].
  destruct (IH H0) as (x & ? & ?). exists x; cbn; auto.
Qed.
Lemma Forall2_and {A B} (R S : A -> B -> Prop) l l' :
  Forall2 R l l' -> Forall2 S l l' -> Forall2 (fun a b => R a b /\ S a b) l l'.
Proof. induction 1; intros H'; inversion H'; subst; constructor; auto. Qed.

Lemma trimmed_origin base s rows r' : 0 < s -> Forall (grid_seg base s) rows -> In r' (remove_overlaps rows) ->
  exists r, In r rows /\ g_min r <= g_min r' /\ g_idx r' = g_idx r /\ g_max r' = g_max r /\
    g_mod r' = g_mod r || negb (g_min r' =? g_min r).
Proof.
  intros Hs F H. pose proof (Forall2_and _ _ _ _ (remove_overlaps_fields rows) (remove_starts base s rows Hs F)) as X.
  destruct (Forall2_In_r _ _ _ _ X H) as (r & Hr & (A & B & _ & _ & _ & _ & C) & D). exists r. auto.
Qed.

Lemma filter_concat_map {A B} (p : B -> bool) (f : A -> list B) l :
  filter p (concat (map f l)) = concat (map (fun x => filter p (f x)) l).
Proof. induction l as [|x l IH]; cbn; auto. now rewrite filter_app, IH. Qed.
Lemma concat_filter_nil {A B} (q : A -> bool) (f : A -> list B) l :
  (forall x, In x l -> q x = false -> f x = []) -> concat (map f (filter q l)) = concat (map f l).
Proof.
  induction l as [|x l IH]; intros H; cbn; auto. rewrite <- IH by (intros; apply H; cbn; auto).
  destruct (q x) eqn:E; cbn; auto. now rewrite (H x) by (cbn; auto).
Qed.
Lemma filter_none {A} (p : A -> bool) l : (forall x, In x l -> p x = false) -> filter p l = [].
Proof.
  induction l as [|x l IH]; intros H; cbn; auto. rewrite H by (cbn; auto). apply IH.
  intros; apply H; cbn; auto.
Qed.
Lemma filter_by_chunk {A} (f : A -> list instr) (id : A -> Z) l a :
  NoDup (map id l) -> In a l -> (forall x i, In i (f x) -> i_cur i = id x) ->
  filter (fun i => i_cur i =? id a) (concat (map f l)) = f a.
Proof.
  intros ND Ha Hid. induction l as [|x l IH]; [destruct Ha|]. cbn [map] in ND. inversion ND as [|? ? N ND']; subst.
  cbn [map concat]. rewrite filter_app. destruct Ha as [->|Ha].
  - rewrite filter_all by (intros i Hi; apply Z.eqb_eq; now apply Hid).
    rewrite filter_none; [now rewrite app_nil_r|]. intros i Hi. apply in_concat in Hi as (l' & Hl & Hi).
    apply in_map_iff in Hl as (y & <- & Hy). rewrite (Hid _ _ Hi). apply Z.eqb_neq. intros E. apply N.
    rewrite <- E. now apply in_map.
  - rewrite IH by auto. rewrite filter_none; auto. intros i Hi. rewrite (Hid _ _ Hi). apply Z.eqb_neq.
    intros E. apply N. rewrite E. now apply in_map.
Qed.

Lemma sorted_perm_unique (b : list seg) : forall a, Permutation a b ->
  StronglySorted Z.le (map g_min a) -> StronglySorted Z.lt (map g_min b) -> a = b.
Proof.
  induction b as [|y b IH]; intros a P Sa Sb.
  - apply Permutation_sym, Permutation_nil in P. now subst.
  - destruct a as [|x a]; [apply Permutation_nil in P; discriminate|].
    cbn in Sa, Sb. inversion Sa as [|? ? Sa1 Sa2]; subst. inversion Sb as [|? ? Sb1 Sb2]; subst.
    assert (x = y).
    { assert (In y (x :: a)) as Hy by (eapply Permutation_in; [symmetry; exact P|cbn; auto]).
      assert (In x (y :: b)) as Hx by (eapply Permutation_in; [exact P|cbn; auto]).
      destruct Hx as [->|Hx]; auto. exfalso. rewrite Forall_forall in Sa2, Sb2.
      specialize (Sb2 (g_min x) (in_map _ _ _ Hx)).
      destruct Hy as [<-|Hy]; [lia|]. specialize (Sa2 (g_min y) (in_map _ _ _ Hy)). lia. }
    subst. f_equal. apply IH; auto. now apply Permutation_cons_inv in P.
Qed.
Lemma staggered_sorted rows : staggered rows -> StronglySorted Z.lt (map g_min rows).
Proof.
  intros S. apply (ascending_zsorted (map g_min rows)). induction rows as [|r t IH]; cbn; auto.
  destruct S as [H S]. split; [|apply IH; auto]. destruct t; cbn; auto. lia.
Qed.
Lemma take_rows_staggered argsort srcs ordered : valid_argsort argsort ->
  Permutation ordered srcs -> staggered ordered -> take_rows srcs (argsort (map g_min srcs)) = ordered.
Proof.
  intros V P S. destruct (take_rows_perm argsort g_min srcs V) as (s' & G & P' & S').
  unfold take_rows. rewrite G. apply sorted_perm_unique; auto; [|now apply staggered_sorted].
  rewrite P'. now symmetry.
Qed.

Lemma covered_points base s ordered : 0 < s -> Forall (grid_seg base s) ordered -> staggered ordered ->
  contiguous s ordered -> forall x, on_grid base s x ->
  (exists r, In r ordered /\ g_min r <= x) -> (exists r, In r ordered /\ x <= g_max r) ->
  exists r, In r ordered /\ In x (seg_samples s r).
Proof.
  intros Hs F S C x Gx (r1 & H1 & L1) H2. destruct ordered as [|r0 t]; [destruct H1|].
  apply (contiguous_cover base s Hs (r0 :: t) F C r0 x); auto.
  destruct H1 as [<-|H1]; auto. pose proof (staggered_sorted _ S) as Q. cbn in Q.
  inversion Q as [|? ? Q1 Q2]; subst. rewrite Forall_forall in Q2. specialize (Q2 (g_min r1) (in_map _ _ _ H1)). lia.
Qed.

Lemma cut_ordered ch rows : disjoint_rows rows -> zsorted (map i_min (map (cut ch) (filter (meets ch) rows))).
Proof.
  intros D. induction rows as [|r t IH]; [constructor|]. pose proof (disjoint_znth _ D) as Z0.
  assert (Dt : disjoint_rows t) by apply D. cbn [filter]. destruct (meets ch r) eqn:M; [|now apply IH].
  cbn [map]. constructor; [now apply IH|]. apply Forall_forall. intros x Hx.
  apply in_map_iff in Hx as (i & <- & Hi). apply in_map_iff in Hi as (q & <- & Hq). apply filter_In in Hq as [Hq _].
  apply in_znth in Hq as (j & Hj). pose proof (znth_some _ _ _ Hj).
  destruct (Z0 0 (j + 1) r q) as (A & B & _); [lia|reflexivity| |].
  - rewrite znth_cons. destruct (Z.eqb_spec (j + 1) 0); [lia|]. now replace (j + 1 - 1) with j by lia.
  - unfold meets in M. cbn [cut i_min]. lia.
Qed.

(** Every part of a chunk reads a window inside its source row, and a source that
    was trimmed before stays trimmed. *)
Definition windows (srcs : list seg) (l : list instr) : Prop := forall i, In i l ->
  i_min i <= i_max i /\ exists r, In r srcs /\ i_src i = g_idx r /\ g_min r <= i_min i /\ i_max i <= g_max r /\
    (g_mod r = true -> i_mod i = true).
Lemma cut_windows base s ordered srcs ch : 0 < s -> Forall (grid_seg base s) ordered ->
  (forall r, In r ordered -> In r srcs) -> k_min ch <= k_max ch ->
  Forall (grid_seg base s) (remove_overlaps ordered) ->
  windows srcs (map (cut ch) (filter (meets ch) (remove_overlaps ordered))).
Proof.
  intros Hs F IO L TG i Hi. apply in_map_iff in Hi as (r' & <- & Hr'). apply filter_In in Hr' as [Hr' Hm].
  destruct (trimmed_origin base s ordered r' Hs F Hr') as (r & Hr & A1 & A2 & A3 & A4).
  rewrite Forall_forall in TG. destruct (TG r' Hr') as (_ & _ & _ & G).
  unfold meets in Hm. cbn [cut i_min i_max i_src i_mod]. split; [lia|]. exists r. split; auto. split; auto.
  split; [lia|]. split; [lia|]. intros E. rewrite A4, E. reflexivity.
Qed.

Lemma chunk_data {D} argsort base s srcs ordered chs (load : Z -> list (Z * D)) :
  valid_argsort argsort -> 0 < s ->
  Permutation ordered srcs -> Forall (grid_seg base s) ordered -> staggered ordered -> contiguous s ordered ->
  (forall r, In r srcs -> map fst (load (g_idx r)) = seg_samples s r) ->
  NoDup (map k_idx chs) ->
  (forall ch, In ch chs -> on_grid base s (k_min ch) /\ on_grid base s (k_max ch) /\ k_min ch <= k_max ch /\
     (exists r, In r srcs /\ g_min r <= k_min ch) /\ (exists r, In r srcs /\ k_max ch <= g_max r)) ->
  exists ins, instructions argsort srcs chs = Ok ins /\
    forall ch, In ch chs ->
      map fst (concat (patch_parts load ins (k_idx ch)))
      = progression (k_min ch) s ((k_max ch - k_min ch) / s + 1) /\
      zsorted (map i_min (filter (fun i => i_cur i =? k_idx ch) ins)) /\
      windows srcs (filter (fun i => i_cur i =? k_idx ch) ins).
Proof.
  intros V Hs P F S C HL ND HC.
  pose proof (take_rows_staggered argsort srcs ordered V P S) as TR.
  set (trimmed := remove_overlaps ordered).
  assert (DJ : disjoint_rows trimmed) by (eapply remove_disjoint; eauto).
  assert (TG : Forall (grid_seg base s) trimmed) by (eapply remove_grid; eauto).
  destruct (remove_overlaps_spec base s ordered Hs F (staggered_weak _ S)) as [RA RI]. fold trimmed in RA, RI.
  assert (IO : forall r, In r srcs <-> In r ordered).
  { intros r; split; intros H; [eapply Permutation_in; [symmetry; exact P|exact H]|eapply Permutation_in; [exact P|exact H]]. }
  assert (COV : forall x, on_grid base s x -> (exists r, In r srcs /\ g_min r <= x) ->
            (exists r, In r srcs /\ x <= g_max r) -> exists r', In r' trimmed /\ In x (seg_samples s r')).
  { intros x Gx (r1 & A1 & B1) (r2 & A2 & B2).
    destruct (covered_points base s ordered Hs F S C x Gx) as (r & Hr & Hx).
    { exists r1. rewrite <- IO. auto. } { exists r2. rewrite <- IO. auto. }
    assert (X : In x (concat (map (seg_samples s) trimmed))).
    { apply RI. apply in_concat. exists (seg_samples s r). split; auto. now apply in_map. }
    apply in_concat in X as (l & Hl & X). apply in_map_iff in Hl as (r' & <- & Hr'). eauto. }
  assert (INS : forall ch x, In ch chs -> k_min ch <= x <= k_max ch -> on_grid base s x ->
            exists r', In r' trimmed /\ In x (seg_samples s r')).
  { intros ch x Hch Hx Gx. destruct (HC ch Hch) as (_ & _ & _ & (r1 & A1 & B1) & (r2 & A2 & B2)).
    apply COV; auto; [exists r1; split; auto; lia|exists r2; split; auto; lia]. }
  assert (TGi : forall r', In r' trimmed -> grid_seg base s r') by (now apply Forall_forall).
  destruct (instructions_spec argsort srcs chs V) as (chs' & PC & EI).
  - rewrite TR. exact DJ.
  - rewrite TR. fold trimmed. intros ch Hch. destruct (HC ch Hch) as (G1 & G2 & L & _ & _). split; auto. split.
    + destruct (INS ch (k_min ch) Hch ltac:(lia) G1) as (r' & A & B). exists r'. split; auto.
      apply (in_samples_inside base s r' _ Hs (TGi _ A) B).
    + destruct (INS ch (k_max ch) Hch ltac:(lia) G2) as (r' & A & B). exists r'. split; auto.
      apply (in_samples_inside base s r' _ Hs (TGi _ A) B).
  - rewrite TR in EI. fold trimmed in EI. eexists. split; [exact EI|]. intros ch Hch.
    unfold patch_parts. rewrite (filter_by_chunk _ k_idx).
    2:{ eapply Permutation_NoDup; [|exact ND]. apply Permutation_map. now symmetry. }
    2:{ eapply Permutation_in; [symmetry; exact PC|auto]. }
    2:{ intros x i Hi. apply in_map_iff in Hi as (r & <- & _). reflexivity. }
    split; [|split; [now apply cut_ordered|]].
    2:{ apply (cut_windows base s); auto; [intros r Hr; now apply IO|apply (HC ch Hch)]. }
    destruct (HC ch Hch) as (G1 & G2 & L & _ & _).
    set (keep := fun x => (k_min ch <=? x) && (x <=? k_max ch)).
    rewrite concat_map, !map_map. cbn [i_src cut].
    assert (E : map (fun r' => map fst (load_trimmed (load (i_src (cut ch r'))) (cut ch r'))) (filter (meets ch) trimmed)
                = map (fun r' => filter keep (seg_samples s r')) (filter (meets ch) trimmed)).
    { apply map_ext_in. intros r' Hr'. apply filter_In in Hr' as [Hr' Hm].
      destruct (trimmed_origin base s ordered r' Hs F Hr') as (r & Hr & A1 & A2 & A3 & A4).
      assert (Gr : grid_seg base s r) by (rewrite Forall_forall in F; auto).
      pose proof (TGi r' Hr') as Gr'.
      change (i_src (cut ch r')) with (g_idx r').
      rewrite (load_cut base s load r r' ch); auto.
      3: apply Gr'. 2:{ apply HL. now rewrite IO. }
      apply zsorted_ext; [apply zsorted_filter, zsorted_progression; auto..|].
      intros x. rewrite !filter_In. unfold keep.
      rewrite (in_grid_seg base s r), (in_grid_seg base s r') by (auto; apply Gr || apply Gr').
      rewrite A3. split; intros [[H1 H2] H3]; repeat split; auto; lia. }
    etransitivity; [apply f_equal; exact E|].
    rewrite concat_filter_nil.
    2:{ intros r' Hr' Hm. apply filter_none. intros x Hx. apply in_samples in Hx as [Hx _]; auto.
        unfold meets in Hm. unfold keep. lia. }
    rewrite <- filter_concat_map.
    apply zsorted_ext; [apply zsorted_filter, ascending_zsorted; auto|apply zsorted_progression; auto|].
    intros x. rewrite filter_In. unfold keep.
    assert (X : In x (progression (k_min ch) s ((k_max ch - k_min ch) / s + 1)) <->
                k_min ch <= x <= k_max ch /\ (s | x - k_min ch)).
    { exact (in_samples s (mkSeg 0 (k_min ch) (k_max ch) None 0 0 0 false) x Hs). }
    rewrite X, (grid_shift base s (k_min ch) x G1). clear X. split.
    + intros [H1 H2]. split; [lia|]. apply in_concat in H1 as (l & Hl & H1).
      apply in_map_iff in Hl as (r' & <- & Hr'). apply (in_samples_inside base s r' x Hs (TGi _ Hr') H1).
    + intros [H1 H2]. split; [|lia]. destruct (INS ch x Hch H1 H2) as (r' & A & B).
      apply in_concat. exists (seg_samples s r'). split; auto. now apply in_map.
Qed.

(** ** Streaming *)
Lemma stream_into_spec {D} (parts : list (list D)) : forall buf offset done,
  offset = zlen done -> zlen done <= zlen buf -> firstn (length done) buf = map Some done ->
  exists rest, stream_into buf offset parts = (map Some (done ++ concat parts) ++ rest, zlen (done ++ concat parts)).
Proof.
  induction parts as [|p t IH]; intros buf offset done Ho Hl Hf; cbn [stream_into concat].
  - rewrite app_nil_r. exists (skipn (length done) buf). subst. rewrite <- Hf. now rewrite firstn_skipn.
  - set (buf' := if zlen buf <? offset + zlen p then _ else buf).
    assert (H1 : firstn (length done) buf' = map Some done).
    { unfold buf'. destruct (_ <? _); auto. subst offset. unfold zlen at 1. rewrite Nat2Z.id, Hf.
      rewrite firstn_app, firstn_all2 by (rewrite map_length; lia). rewrite map_length, Nat.sub_diag. cbn.
      now rewrite app_nil_r. }
    assert (H2 : offset + zlen p <= zlen buf').
    { unfold buf'. destruct (Z.ltb_spec (zlen buf) (offset + zlen p)); [|lia].
      rewrite zlen_app. unfold zlen at 2 3. rewrite firstn_length, repeat_length.
      unfold zlen in *. lia. }
    replace (done ++ p ++ concat t) with ((done ++ p) ++ concat t) by now rewrite app_assoc.
    apply IH.
    + rewrite zlen_app. lia.
    + unfold write_at. rewrite !zlen_app, zlen_map.
      assert (zlen (firstn (Z.to_nat offset) buf') = offset).
      { unfold zlen in *. rewrite firstn_length. lia. }
      pose proof (zlen_nonneg (skipn (Z.to_nat (offset + zlen p)) buf')). lia.
    + unfold write_at. subst offset. unfold zlen at 1. rewrite Nat2Z.id, H1. rewrite map_app, app_assoc.
      rewrite <- map_app. rewrite firstn_app, firstn_all2 by (rewrite map_length; lia).
      rewrite map_length, Nat.sub_diag. cbn. now rewrite app_nil_r.
Qed.
Lemma stream_merge_spec {D} samples (parts : list (list D)) :
  stream_merge samples parts = map Some (concat parts).
Proof.
  unfold stream_merge.
  destruct (stream_into_spec parts (repeat None (Z.to_nat samples)) 0 []) as [rest E]; auto.
  { apply zlen_nonneg. }
  rewrite E. cbn [app]. set (d := concat parts). rewrite zlen_app, zlen_map.
  destruct (Z.eqb_spec (zlen d) (zlen d + zlen rest)) as [H|H].
  - assert (rest = []) as -> by (apply zlen_zero; lia). apply app_nil_r.
  - rewrite firstn_app. unfold zlen. rewrite Nat2Z.id, firstn_all2 by (rewrite map_length; lia).
    rewrite map_length, Nat.sub_diag. cbn. apply app_nil_r.
Qed.

(** Tapering: which samples the selected slices hold. *)
From Verif Require Import Base BaseFacts CoordModel CoordSpec CoordProofs CoordProofs2 CoordProofs3 CoordProofs5
  NdModel NdSpec NdProofs FrameModel ChunkModel CmModel CmSpec CmProofs3 CmProofs4 ProcModel ProcProofs TaperModel TaperSpec.
From Coq Require Import Strings.String QArith Qabs Lia ZArith Sorted.
Local Open Scope Z_scope.
Local Open Scope list_scope.

(** ** Counting *)
Lemma positions_where_count f l : zlen (positions_where f l) = count f l.
Proof. apply zlen_positions_where. Qed.
Lemma count_below f l k : 0 <= k <= zlen l ->
  (forall i x, znth l i = Some x -> f x = (i <? k)) -> count f l = k.
Proof.
  intros B H. rewrite <- positions_where_count.
  rewrite (positions_where_interval f l 0 k).
  2: { intros i x E. rewrite (H _ _ E). apply znth_some in E. unfold zlen in *. lia. }
  rewrite (filter_ext _ (fun i => (0 <=? i) && (i <=? k - 1))) by (intros; lia).
  rewrite filter_interval by lia. rewrite zlen_map, zlen_zrange by lia. lia.
Qed.
Lemma count_above f l k : 0 <= k <= zlen l ->
  (forall i x, znth l i = Some x -> f x = (k <=? i)) -> count f l = zlen l - k.
Proof.
  intros B H. rewrite <- positions_where_count.
  rewrite (positions_where_interval f l k (zlen l)).
  2: { intros i x E. rewrite (H _ _ E). apply znth_some in E. unfold zlen in *. lia. }
  rewrite (filter_ext _ (fun i => (k <=? i) && (i <=? zlen l - 1))) by (intros; lia).
  rewrite filter_interval by lia. rewrite zlen_map, zlen_zrange by lia. lia.
Qed.

(** ** The slice of a taper at the start *)
Definition lo_cut (l : list Z) (v : Z) : Z := count (fun x => x <=? v) l.
Definition hi_cut (l : list Z) (v : Z) : Z := count (fun x => v <=? x) l.

Lemma range_back r v : wf_range r -> 0 < r_step r < 20000000000 ->
  forall i, (i <= r_raw_index r v false <-> r_start r + i * r_step r <= v).
Proof.
  intros W S i. rewrite raw_back_ge by lia. rewrite Z.sgn_pos, Z.abs_eq by lia. lia.
Qed.
Lemma range_forward r v : wf_range r -> 0 < r_step r < 20000000000 ->
  forall i, (r_raw_index r v true <= i <-> v <= r_start r + i * r_step r).
Proof.
  intros W S i. rewrite raw_forward_le by lia. rewrite Z.sgn_pos, Z.abs_eq by lia. lia.
Qed.
Lemma range_znth r i x : wf_range r -> znth (r_values r) i = Some x -> 0 <= i < r_len r /\ x = r_start r + i * r_step r.
Proof.
  intros W E. pose proof (znth_some _ _ _ E) as B. fold (zlen (r_values r)) in B. rewrite zlen_r_values in B by exact W.
  rewrite r_values_prog in E by exact W. rewrite znth_progression in E by exact B.
  injection E as <-. split; [lia|ring].
Qed.

Section Range.
Context (r : crange) (W : wf_range r) (S : 0 < r_step r < 20000000000).
Lemma rmin : r_min r = r_start r.
Proof. unfold r_min. destruct W as (? & ? & ->). nia. Qed.
Lemma rmax : r_max r = r_start r + (r_len r - 1) * r_step r.
Proof. unfold r_max. destruct W as (? & ? & ->). nia. Qed.

Lemma range_lo a : 0 <= a ->
  exists c', c_select (CRange r) true None (Some a) =
    Ok (c', simple_slice None (if a <? r_max r - r_min r + r_step r then Some (lo_cut (r_values r) (r_min r + a)) else None)).
Proof.
  intros A. cbn [c_select].
  destruct (r_select_exact r true None (Some a) W) as ((c' & ix) & E & _); [lia|].
  unfold r_select in E |- *. rewrite (slice_tuple_spec _ _ _ _ (r_min r) (r_max r)) in E |- * by reflexivity.
  cbn [resolve] in *. destruct (Z.leb_spec 0 a); [|lia]. cbn [bind fst snd] in *.
  unfold r_reverse_sorted in *. destruct (Z.ltb_spec (r_step r) 0); [lia|].
  cbn [r_get_index] in *. set (j := r_raw_index r (r_min r + a) false) in *.
  pose proof (range_back r (r_min r + a) W S) as B. fold j in B. rewrite rmin in B.
  pose proof (proj2 (B 0) ltac:(lia)) as J0. rewrite andb_false_r in *. cbn [orb negb] in *. rewrite andb_true_r in *.
  pose proof rmax as M. rewrite rmin in *.
  destruct W as (W1 & W2 & W3).
  destruct (Z.leb_spec (r_len r) j) as [G|G].
  - apply B in G. destruct (Z.ltb_spec a (r_max r - r_start r + r_step r)); [nia|].
    destruct (slice_degenerate (r_len r) None None) eqn:D; [discriminate|]. cbn [bind] in *. eexists; reflexivity.
  - destruct (Z.ltb_spec a (r_max r - r_start r + r_step r)) as [L|L].
    2: { exfalso. assert (r_len r <= j) by (apply B; nia). lia. }
    assert (K : lo_cut (r_values r) (r_start r + a) = j + 1).
    { apply count_below.
      - rewrite zlen_r_values by exact W. lia.
      - intros i x Ex. apply range_znth in Ex; [|exact W]. destruct Ex as [Bi ->]. specialize (B i).
        destruct (Z.leb_spec (r_start r + i * r_step r) (r_start r + a)), (Z.ltb_spec i (j + 1)); try reflexivity; exfalso; lia. }
    rewrite K. destruct (slice_degenerate (r_len r) None (Some (j + 1))) eqn:D.
    + exfalso. unfold slice_degenerate in D. lia.
    + cbn [bind] in *. destruct (r_item r j) as [x|e]; cbn [bind] in *; [|discriminate]. eexists; reflexivity.
Qed.

Lemma range_hi b : 0 < b ->
  let k := hi_cut (r_values r) (r_max r - b) in
  exists c', c_select (CRange r) true (Some (- b)) None =
    Ok (c', simple_slice (if k <? r_len r then Some (r_len r - k) else None) None).
Proof.
  intros A k. cbn [c_select].
  destruct (r_select_exact r true (Some (- b)) None W) as ((c' & ix) & E & _); [lia|].
  unfold r_select in E |- *. rewrite (slice_tuple_spec _ _ _ _ (r_min r) (r_max r)) in E |- * by reflexivity.
  cbn [resolve] in *. destruct (Z.leb_spec 0 (- b)); [lia|]. cbn [bind fst snd] in *.
  unfold r_reverse_sorted, r_sorted in *. destruct (Z.ltb_spec (r_step r) 0); [lia|].
  destruct (Z.leb_spec 0 (r_step r)); [|lia].
  change (r_max r + - b) with (r_max r - b) in *.
  cbn [r_get_index] in *. set (j := r_raw_index r (r_max r - b) true) in *.
  pose proof (range_forward r (r_max r - b) W S) as B. fold j in B.
  rewrite andb_false_r in *. rewrite andb_true_r in *. rewrite orb_false_r in *.
  pose proof rmax as M. pose proof (proj2 (B (r_len r - 1)) ltac:(lia)) as J1.
  assert (L : r_len r = zlen (r_values r)) by (rewrite zlen_r_values by exact W; reflexivity).
  assert (P : 1 <= r_len r) by (destruct W as (? & ? & ?); lia).
  assert (K : k = r_len r - Z.max 0 j).
  { unfold k, hi_cut. rewrite L. apply count_above.
    - rewrite <- L. lia.
    - intros i x Ex. apply range_znth in Ex; [|exact W]. destruct Ex as [Bi ->]. specialize (B i).
      destruct (Z.leb_spec (r_max r - b) (r_start r + i * r_step r)), (Z.leb_spec (Z.max 0 j) i); try reflexivity; exfalso; lia. }
  clearbody k. subst k.
  destruct (Z.ltb_spec j 0) as [G|G].
  - destruct (Z.ltb_spec (r_len r - Z.max 0 j) (r_len r)); [lia|].
    destruct (slice_degenerate (r_len r) None None) eqn:D; [discriminate|]. cbn [bind] in *. eexists; reflexivity.
  - destruct (Z.eqb_spec j 0) as [G0|G0].
    + destruct (Z.ltb_spec (r_len r - Z.max 0 j) (r_len r)); [lia|].
      destruct (slice_degenerate (r_len r) None None) eqn:D; [discriminate|]. cbn [bind] in *. eexists; reflexivity.
    + destruct (Z.ltb_spec (r_len r - Z.max 0 j) (r_len r)); [|lia].
      destruct (slice_degenerate (r_len r) (Some j) None) eqn:D.
      * exfalso. unfold slice_degenerate in D. lia.
      * cbn [bind] in *. destruct (r_item r j) as [x|e]; cbn [bind] in *; [|discriminate].
        replace (r_len r - (r_len r - Z.max 0 j)) with j by lia. eexists; reflexivity.
Qed.
End Range.

Section Mono.
Context (k : kind) (v : list Z) (Ha : ascending v) (N : 2 <= zlen v) (mn mx : Z).
Context (Emn : list_min v = Some mn) (Emx : list_max v = Some mx).
Lemma mono_ne : v <> [].
Proof. intros ->. cbn in N. lia. Qed.
Lemma mono_ws : wsorted v.
Proof. apply zsorted_wsorted, ascending_zsorted, Ha. Qed.

Lemma mono_lo a : 0 <= a ->
  exists c', c_select (CMono k v) true None (Some a) =
    Ok (c', simple_slice None (if a <=? mx - mn then Some (lo_cut v (mn + a)) else None)).
Proof.
  intros A. cbn [c_select].
  destruct (m_select_spec k v true None (Some a) mn mx mono_ne (or_introl Ha) Emn Emx) as ((c' & ix) & E & _).
  unfold m_select in E |- *. rewrite (slice_tuple_spec _ _ _ _ mn mx) in E |- * by assumption.
  cbn [resolve] in *. destruct (Z.leb_spec 0 a); [|lia]. cbn [bind fst snd] in *.
  rewrite (ascending_not_rev v Ha) in *. cbn [m_get_index] in *.
  set (key := mn + a) in *.
  destruct (searchsorted_left v key mono_ws) as [Bl Sl], (searchsorted_right v key mono_ws) as [Br Sr].
  assert (K : lo_cut v key = searchsorted false v key) by (apply count_below; assumption).
  destruct (list_max_greatest _ _ Emx) as [Mi Mg].
  destruct (list_min_least _ _ Emn) as [Li Lg].
  assert (T : (a <=? mx - mn) = true -> forall s, s = m_index v key true ->
    (match (if s <? zlen v then Some s else None) with
     | Some s => match znth v s with Some x => if x =? key then Some (s + 1) else Some s | None => Some s end
     | None => None end) = Some (lo_cut v key)).
  { intros Le s ->. rewrite K. unfold m_index. rewrite (ascending_not_rev v Ha). cbn [negb andb].
    set (lf := searchsorted true v key) in *. set (rt := searchsorted false v key) in *. clearbody lf rt.
    unfold take_clip. destruct (((lf <? zlen v) && (0 <? lf)) && _) eqn:Eq.
    - apply andb_true_iff in Eq as [Hok Heq].
      assert (Hcl : Z.max 0 (Z.min lf (zlen v - 1)) = lf) by lia. rewrite Hcl in Heq.
      destruct (znth v lf) as [y|] eqn:Hy; [|discriminate].
      destruct (Z.ltb_spec lf (zlen v)); [|lia]. rewrite Hy, Heq.
      f_equal. pose proof (Sr _ _ Hy). destruct (Z.eq_dec rt (lf + 1)); auto. exfalso.
      assert (Hr : 0 <= rt - 1 < zlen v) by lia.
      destruct (proj2 (znth_range v (rt - 1)) Hr) as [z Hz].
      pose proof (Sr _ _ Hz). pose proof (ascending_znth v lf (rt - 1) y z Ha Hy Hz). lia.
    - destruct (Z.ltb_spec rt (zlen v)) as [Hrt|Hrt].
      + destruct (proj2 (znth_range v rt)) as [y Hy]; [lia|]. rewrite Hy.
        pose proof (Sr _ _ Hy). destruct (Z.eqb_spec y key); [lia|auto].
      + exfalso. (* every label is at most the key, so the key is the greatest *)
        assert (key = mx) by (unfold key in *; destruct (in_znth _ _ Mi) as [i Ei]; specialize (Sr _ _ Ei);
          apply znth_some in Ei; unfold zlen in *; lia).
        destruct (in_znth _ _ Mi) as [i Ei]. pose proof (Sl _ _ Ei) as SE.
        pose proof (znth_some _ _ _ Ei) as IB. fold (zlen v) in IB.
        assert (lf <= i) by lia.
        destruct (Z.eq_dec lf 0) as [Z0|Z0].
        * (* then every label is at least the key: two equal labels *)
          destruct (proj2 (znth_range v 0)) as [y0 Y0]; [lia|]. destruct (proj2 (znth_range v 1)) as [y1 Y1]; [lia|].
          pose proof (ascending_znth v 0 1 y0 y1 Ha Y0 Y1). pose proof (Sl _ _ Y0). pose proof (Mg y1 (znth_in _ _ _ Y1)). lia.
        * assert (Hcl : Z.max 0 (Z.min lf (zlen v - 1)) = lf) by lia. rewrite Hcl in Eq.
          destruct (proj2 (znth_range v lf)) as [y Hy]; [lia|]. rewrite Hy in Eq.
          pose proof (Sl _ _ Hy). pose proof (Mg y (znth_in _ _ _ Hy)).
          destruct (Z.eqb_spec y key); lia. }
  destruct (Z.leb_spec a (mx - mn)) as [Le|Le].
  - rewrite (T eq_refl _ eq_refl) in *. destruct (slice_degenerate (zlen v) None (Some (lo_cut v key))) eqn:D.
    + exfalso. unfold slice_degenerate in D. rewrite K in D.
      destruct (in_znth _ _ Li) as [i Ei]. pose proof (Sr _ _ Ei). apply znth_some in Ei. unfold key in *. lia.
    + destruct (np_index v _); [|discriminate]. destruct (get_coord_data k l); cbn [bind] in *; [|discriminate]. eexists; reflexivity.
  - assert (R : searchsorted false v key = zlen v).
    { destruct (Z.eq_dec (searchsorted false v key) (zlen v)) as [X|X]; [exact X|]. exfalso.
      destruct (proj2 (znth_range v (searchsorted false v key))) as [y Hy]; [lia|]. pose proof (Sr _ _ Hy).
      pose proof (Mg y (znth_in _ _ _ Hy)). unfold key in *. lia. }
    assert (I : m_index v key true = zlen v).
    { unfold m_index. rewrite (ascending_not_rev v Ha). cbn [negb andb]. rewrite R.
      destruct (_ && _) eqn:Eq; [|reflexivity]. apply andb_true_iff in Eq as [_ Eq]. exfalso.
      unfold take_clip in Eq. destruct (znth v _) as [y|] eqn:Hy; [|discriminate].
      pose proof (Mg y (znth_in _ _ _ Hy)). unfold key in *. lia. }
    rewrite I in *. rewrite Z.ltb_irrefl in *.
    destruct (slice_degenerate (zlen v) None None) eqn:D; [unfold slice_degenerate in D; lia|].
    destruct (np_index v _); [|discriminate]. destruct (get_coord_data k l); cbn [bind] in *; [|discriminate]. eexists; reflexivity.
Qed.

Lemma mono_hi b : 0 < b ->
  let m := hi_cut v (mx - b) in
  exists c', c_select (CMono k v) true (Some (- b)) None =
    Ok (c', simple_slice (if m <? zlen v then Some (zlen v - m) else None) None).
Proof.
  intros A m. cbn [c_select].
  destruct (m_select_spec k v true (Some (- b)) None mn mx mono_ne (or_introl Ha) Emn Emx) as ((c' & ix) & E & _).
  unfold m_select in E |- *. rewrite (slice_tuple_spec _ _ _ _ mn mx) in E |- * by assumption.
  cbn [resolve] in *. destruct (Z.leb_spec 0 (- b)); [lia|]. cbn [bind fst snd] in *.
  rewrite (ascending_not_rev v Ha) in *. cbn [m_get_index] in *.
  change (mx + - b) with (mx - b) in *. set (key := mx - b) in *.
  destruct (searchsorted_left v key mono_ws) as [Bl Sl].
  assert (I : m_index v key false = searchsorted true v key).
  { unfold m_index. rewrite (ascending_not_rev v Ha). cbn [negb andb]. now destruct (_ && _). }
  assert (K : m = zlen v - searchsorted true v key).
  { unfold m, hi_cut. apply count_above; [exact Bl|]. intros i x Ex. specialize (Sl _ _ Ex). lia. }
  rewrite I in *. clearbody m. subst m. set (lf := searchsorted true v key) in *.
  replace (zlen v - lf <? zlen v) with (0 <? lf) by lia. replace (zlen v - (zlen v - lf)) with lf by lia.
  destruct (list_max_greatest _ _ Emx) as [Mi Mg].
  destruct (slice_degenerate (zlen v) (if 0 <? lf then Some lf else None) None) eqn:D.
  - exfalso. destruct (in_znth _ _ Mi) as [i Ei]. pose proof (Sl _ _ Ei). apply znth_some in Ei. fold (zlen v) in Ei.
    unfold slice_degenerate in D. unfold key in *. destruct (Z.ltb_spec 0 lf); lia.
  - destruct (np_index v _); [|discriminate]. destruct (get_coord_data k l); cbn [bind] in *; [|discriminate]. eexists; reflexivity.
Qed.
End Mono.

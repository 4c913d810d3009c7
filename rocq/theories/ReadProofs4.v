(** Facts behind ReadProps.v: both filters on a Febus file; the TDMS decoder. *)
From Verif Require Import Base BaseFacts CoordModel CoordSpec CoordProofs CoordProofs2 CoordProofs3
  CoordProofs4 CoordProofs5 NdModel ReadModel ReadSpec ReadProofs ReadProofs2 ReadProofs3.
From Coq Require Import ZifyBool.
Ltac Zify.zify_post_hook ::= Z.div_mod_to_equations.

(** ** Febus: both filters *)
Lemma reshape_cols m l g : reshape_rows m l = Ok g -> g_cols g = m.
Proof.
  unfold reshape_rows. destruct (m <=? 0); [discriminate|]. destruct (negb _); [discriminate|].
  intro E; injection E as <-; reflexivity.
Qed.

Lemma time_filtered_cols z r rows rix cix b g c : time_filtered z r rows rix cix b = Ok (g, c) ->
  g_cols g = z_shape2 z.
Proof.
  unfold time_filtered. cbv zeta.
  destruct (np_argmax _) as [a|]; [cbn [bind]|discriminate].
  destruct (np_argmax _) as [l|]; [cbn [bind]|discriminate].
  destruct (cube_index _ _ _ _) as [bl|]; [cbn [bind]|discriminate].
  destruct (reshape_rows _ _) as [g0|] eqn:E; [cbn [bind]|discriminate].
  apply reshape_cols in E. destruct (g_size g0 =? 0).
  - intro H; injection H as <- _. exact E.
  - destruct (list_min _); [|discriminate]. destruct (list_max _); [|discriminate].
    destruct (mk_range _ _ _ _); [cbn [bind]|discriminate].
    destruct (change_length _ _); [cbn [bind]|discriminate].
    destruct (c_select _ _ _ _); [cbn [bind]|discriminate].
    destruct (np_index _ _); [|discriminate]. intro H; injection H as <- _. exact E.
Qed.

Lemma read_zone_both z n b d : zone_ok z n ->
  zlen (filter (wanted (Some d)) (zone_dists z)) < z_shape2 z ->
  forall rd, read_zone z (Some b) (Some d) <> Ok (Some rd).
Proof.
  intros H Hk rd. unfold read_zone, zone_data. rewrite (zone_time_ok z n H). cbn [bind].
  destruct (zone_dist_ok z n H) as [dc [Ed Hd]]. rewrite Ed, (zone_index_ok z n H). cbn [bind fst snd].
  destruct (select_even dc _ (Some d) Hd) as [ds [Es [[Kv Kp] Kl]]]. rewrite Es. cbn [bind].
  destruct (time_filtered _ _ _ _ _ _) as [[g t]|] eqn:E; [cbn [bind fst snd]|discriminate].
  apply time_filtered_cols in E. destruct (g_size g =? 0); [discriminate|].
  unfold new_reading. rewrite Kl, E.
  destruct (Z.eqb_spec (zlen (filter (wanted (Some d)) (zone_dists z))) (z_shape2 z)); [lia|].
  rewrite andb_false_r. discriminate.
Qed.

(** ** Positions in a concatenation *)
Lemma znth_concat {A} m (rows : list (list A)) : forall s c row, 0 <= c < m ->
  (forall r, In r rows -> zlen r = m) -> znth rows s = Some row ->
  znth (concat rows) (s * m + c) = znth row c.
Proof.
  induction rows as [|r t IH]; intros s c row Hc W E; [rewrite znth_nil in E; discriminate|].
  cbn [concat]. rewrite znth_app, (W r (or_introl eq_refl)).
  rewrite znth_cons in E.
  destruct (Z.eqb_spec s 0).
  - injection E as ->. subst s. destruct (Z.ltb_spec (0 * m + c) m); [|lia]. f_equal.
  - pose proof (znth_some _ _ _ E) as Hs. destruct (Z.ltb_spec (s * m + c) m); [nia|].
    replace (s * m + c - m) with ((s - 1) * m + c) by lia. apply IH; [exact Hc| |exact E].
    intros; apply W; right; auto.
Qed.

Lemma concat_zlen {A} m (rows : list (list A)) : (forall r, In r rows -> zlen r = m) ->
  zlen (concat rows) = zlen rows * m.
Proof.
  induction rows as [|r t IH]; intro W; cbn [concat]; [reflexivity|].
  rewrite zlen_app, zlen_cons, IH, (W r) by (try (left; reflexivity); intros x Hx; apply W; right; exact Hx). lia.
Qed.

Lemma znth_flat_map {A} (f : Z -> Z -> A) k n s b : 0 <= s < n -> 0 <= b < k ->
  znth (flat_map (fun s => map (f s) (zrange k)) (zrange n)) (s * k + b) = Some (f s b).
Proof.
  intros Hs Hb. rewrite flat_map_concat_map.
  rewrite (znth_concat k _ s b (map (f s) (zrange k))).
  - rewrite znth_map, znth_zrange. destruct (Z.leb_spec 0 b), (Z.ltb_spec b k); try lia. reflexivity.
  - exact Hb.
  - intros r Hr. apply in_map_iff in Hr. destruct Hr as [x [<- _]]. rewrite zlen_map, zlen_zrange. lia.
  - rewrite znth_map, znth_zrange. destruct (Z.leb_spec 0 s), (Z.ltb_spec s n); try lia. reflexivity.
Qed.

Lemma zlen_flat_map {A} (f : Z -> Z -> A) k n : 0 <= k -> 0 <= n ->
  zlen (flat_map (fun s => map (f s) (zrange k)) (zrange n)) = n * k.
Proof.
  intros Hk Hn. rewrite flat_map_concat_map, (concat_zlen k).
  - rewrite zlen_map, zlen_zrange. lia.
  - intros r Hr. apply in_map_iff in Hr. destruct Hr as [x [<- _]]. rewrite zlen_map, zlen_zrange. lia.
Qed.

Lemma row_items m row : zlen row = m -> map (fun c => item row c) (zrange m) = row.
Proof.
  intro L. subst m. apply znth_ext_len; [rewrite zlen_map, zlen_zrange; pose proof (zlen_nonneg row); lia|].
  intros i Hi. rewrite zlen_map, zlen_zrange in Hi. rewrite znth_map, znth_zrange.
  destruct (Z.leb_spec 0 i), (Z.ltb_spec i (zlen row)); try lia. cbn. unfold item.
  destruct (proj2 (znth_range row i)) as [x E]; [lia|]. rewrite E. reflexivity.
Qed.

(** ** Interleaved samples *)
Lemma segment_interleaved nch chunk rows : 0 < nch -> 0 < chunk -> rows <> [] -> width nch rows ->
  segment_data false nch chunk (interleaved rows) = Ok (Some (rows, zlen rows)).
Proof.
  intros Hn Hc Hne W. unfold segment_data, interleaved.
  destruct (Z.leb_spec nch 0); [lia|]. destruct (Z.leb_spec chunk 0); [lia|]. cbn [orb]. cbv zeta.
  rewrite (concat_len nch rows W), Z.div_mul by lia.
  assert (Hpos : 0 < zlen rows).
  { destruct rows as [|r t]; [congruence|]. rewrite zlen_cons. pose proof (zlen_nonneg t). lia. }
  rewrite Z.mul_0_l. destruct (Z.eqb_spec 0 (zlen rows)); [lia|].
  assert (E : forall l, flat_map (fun s => map (fun b => map (fun c => item (concat rows) ((b * nch + c) * chunk + s)) (zrange nch)) (zrange 0)) l = []).
  { induction l as [|x t IH]; [reflexivity|]. cbn [flat_map]. rewrite IH. reflexivity. }
  rewrite E. cbn [app]. rewrite Z.sub_0_r. repeat f_equal.
  apply znth_ext_len; [rewrite zlen_map, zlen_zrange; lia|].
  intros s Hs. rewrite zlen_map, zlen_zrange in Hs. rewrite znth_map, znth_zrange.
  destruct (Z.leb_spec 0 s), (Z.ltb_spec s (zlen rows)); try lia. cbn [andb option_map].
  destruct (proj2 (znth_range rows s)) as [row Er]; [lia|]. rewrite Er. f_equal.
  rewrite <- (row_items nch row) by (apply W; eapply znth_in; eauto).
  apply map_ext_in. intros c Hci. apply in_zrange in Hci. unfold item.
  match goal with |- context [znth (concat rows) ?i] => replace i with (s * nch + c) by lia end.
  rewrite (znth_concat nch rows s c row); auto.
Qed.

(** ** Samples in chunks *)
Definition at_ (rows : list (list Z)) (i c : Z) : Z := match znth rows i with Some row => item row c | None => 0 end.

Lemma item_chunk nch rows c s : 0 <= c < nch -> 0 <= s < zlen rows ->
  item (one_chunk nch rows) (c * zlen rows + s) = at_ rows s c.
Proof.
  intros Hc Hs. unfold item, one_chunk, at_. rewrite flat_map_concat_map.
  rewrite (znth_concat (zlen rows) _ c s (column c rows)); [|lia|..].
  - unfold column. rewrite znth_map. destruct (znth rows s); reflexivity.
  - intros r Hr. apply in_map_iff in Hr. destruct Hr as [x [<- _]]. unfold column. apply zlen_map.
  - rewrite znth_map, znth_zrange. destruct (Z.leb_spec 0 c), (Z.ltb_spec c nch); try lia. reflexivity.
Qed.

Lemma zlen_one_chunk nch rows : 0 <= nch -> zlen (one_chunk nch rows) = nch * zlen rows.
Proof.
  intro H. unfold one_chunk. rewrite flat_map_concat_map, (concat_zlen (zlen rows)).
  - rewrite zlen_map, zlen_zrange, Z.max_r by lia. lia.
  - intros r Hr. apply in_map_iff in Hr. destruct Hr as [x [<- _]]. apply zlen_map.
Qed.

Lemma item_app a b i : item (a ++ b) i = if i <? zlen a then item a i else item b (i - zlen a).
Proof. unfold item. rewrite znth_app. destruct (i <? zlen a); reflexivity. Qed.

Section Chunks.
Context (nch chunk e : Z).
Hypothesis Hn : 0 < nch.
Hypothesis Hc : 0 < chunk.
Hypothesis He : 0 < e < chunk.

Lemma chunked_spec : forall k f rows, 0 <= k -> zlen rows = k * chunk + e -> (length rows <= f)%nat ->
  let raw := chunked f nch chunk rows in
  zlen raw = zlen rows * nch /\
  (forall b c s, 0 <= b < k -> 0 <= c < nch -> 0 <= s < chunk ->
     item raw ((b * nch + c) * chunk + s) = at_ rows (b * chunk + s) c) /\
  (forall c s, 0 <= c < nch -> 0 <= s < e ->
     item raw (k * nch * chunk + (c * e + s)) = at_ rows (k * chunk + s) c).
Proof.
  intros k f rows Hk. revert f rows. pattern k. apply natlike_ind; [| |exact Hk].
  - intros f rows L Hf. cbv zeta. destruct f as [|f].
    { exfalso. unfold zlen in L. lia. }
    cbn [chunked]. destruct rows as [|r0 t0] eqn:Er; [cbn in L; lia|]. rewrite <- Er in *. clear Er.
    rewrite firstn_all_z by lia.
    assert (Es : skipn (Z.to_nat chunk) rows = []) by (apply skipn_all2; unfold zlen in L; lia).
    rewrite Es. assert (Ef : chunked f nch chunk [] = []) by (destruct f; reflexivity).
    rewrite Ef, app_nil_r. rewrite zlen_one_chunk by lia. split; [lia|]. split; [intros; lia|].
    intros c s Hcc Hs. replace (0 * nch * chunk + (c * e + s)) with (c * zlen rows + s) by lia.
    rewrite item_chunk by lia. f_equal.
  - intros x Hx IH f rows L Hf. cbv zeta. destruct f as [|f].
    { exfalso. unfold zlen in L. nia. }
    cbn [chunked]. destruct rows as [|r0 t0] eqn:Er; [rewrite zlen_nil in L; nia|]. rewrite <- Er in *.
    set (hd := firstn (Z.to_nat chunk) rows). set (tl := skipn (Z.to_nat chunk) rows).
    assert (Lh : zlen hd = chunk) by (unfold hd; rewrite zlen_firstn by lia; nia).
    assert (Lt : zlen tl = x * chunk + e) by (unfold tl; rewrite zlen_skipn by lia; nia).
    destruct (IH f tl Lt) as [I1 [I2 I3]].
    { unfold tl. rewrite skipn_length. lia. }
    assert (Lo : zlen (one_chunk nch hd) = nch * chunk) by (rewrite zlen_one_chunk by lia; lia).
    assert (At : forall i c, 0 <= i -> at_ tl i c = at_ rows (chunk + i) c).
    { intros i c Hi. unfold at_, tl. rewrite znth_skipn by lia. reflexivity. }
    assert (Ah : forall i c, 0 <= i < chunk -> at_ hd i c = at_ rows i c).
    { intros i c Hi. unfold at_, hd. rewrite znth_firstn. destruct (Z.ltb_spec i chunk); [reflexivity|lia]. }
    split; [rewrite zlen_app, Lo, I1, Lt, L; nia|]. split.
    + intros b c s Hb Hcc Hs. rewrite item_app, Lo.
      destruct (Z.ltb_spec ((b * nch + c) * chunk + s) (nch * chunk)).
      * assert (b = 0) by nia. subst b. replace ((0 * nch + c) * chunk + s) with (c * zlen hd + s) by lia.
        rewrite item_chunk, Ah by lia. f_equal.
      * assert (0 < b) by nia.
        replace ((b * nch + c) * chunk + s - nch * chunk) with (((b - 1) * nch + c) * chunk + s) by lia.
        rewrite I2, At by nia. f_equal. lia.
    + intros c s Hcc Hs. rewrite item_app, Lo.
      destruct (Z.ltb_spec (Z.succ x * nch * chunk + (c * e + s)) (nch * chunk)); [nia|].
      replace (Z.succ x * nch * chunk + (c * e + s) - nch * chunk) with (x * nch * chunk + (c * e + s)) by lia.
      rewrite I3, At by nia. f_equal. lia.
Qed.

Lemma at_row rows m i row : zlen row = m -> znth rows i = Some row -> map (fun c => at_ rows i c) (zrange m) = row.
Proof. intros L E. unfold at_. rewrite E. apply row_items; exact L. Qed.

Lemma segment_chunks k rows : 0 <= k -> zlen rows = k * chunk + e -> width nch rows ->
  exists out, segment_data true nch chunk (in_chunks nch chunk rows) = Ok (Some (out, zlen rows)) /\
    zlen out = zlen rows /\
    (forall b s, 0 <= b < k -> 0 <= s < chunk -> znth out (s * k + b) = znth rows (b * chunk + s)) /\
    (forall i, k * chunk <= i -> znth out i = znth rows i).
Proof.
  intros Hk L W. unfold segment_data, in_chunks.
  destruct (chunked_spec k (length rows) rows Hk L (le_n _)) as [I1 [I2 I3]].
  set (raw := chunked (length rows) nch chunk rows) in *.
  destruct (Z.leb_spec nch 0); [lia|]. destruct (Z.leb_spec chunk 0); [lia|]. cbn [orb]. cbv zeta.
  rewrite I1, Z.div_mul by lia.
  assert (Ek : zlen rows / chunk = k).
  { rewrite L. symmetry. apply (Z.div_unique_pos _ _ _ e); lia. }
  rewrite Ek. destruct (Z.eqb_spec (k * chunk) (zlen rows)); [lia|].
  replace (zlen rows - k * chunk) with e by lia.
  eexists. split; [reflexivity|].
  set (F := flat_map (fun s => map (fun b => map (fun c => item raw ((b * nch + c) * chunk + s)) (zrange nch)) (zrange k)) (zrange chunk)).
  assert (LF : zlen F = chunk * k).
  { unfold F. apply (zlen_flat_map (fun s b => map (fun c => item raw ((b * nch + c) * chunk + s)) (zrange nch))); lia. }
  split; [rewrite zlen_app, LF, zlen_map, zlen_zrange; nia|]. split.
  - intros b s Hb Hs. rewrite znth_app, LF. destruct (Z.ltb_spec (s * k + b) (chunk * k)); [|nia].
    unfold F. rewrite (znth_flat_map (fun s b => map (fun c => item raw ((b * nch + c) * chunk + s)) (zrange nch))) by lia.
    destruct (proj2 (znth_range rows (b * chunk + s))) as [row Er]; [nia|]. rewrite Er. f_equal.
    rewrite <- (at_row rows nch _ row (W row (znth_in _ _ _ Er)) Er).
    apply map_ext_in. intros c Hcc. apply in_zrange in Hcc. apply I2; lia.
  - intros i Hi. rewrite znth_app, LF. destruct (Z.ltb_spec i (chunk * k)); [lia|].
    rewrite znth_map, znth_zrange. destruct (Z.leb_spec 0 (i - chunk * k)); [|lia].
    destruct (Z.ltb_spec (i - chunk * k) e); cbn [andb option_map].
    + destruct (proj2 (znth_range rows i)) as [row Er]; [lia|]. rewrite Er. f_equal.
      rewrite <- (at_row rows nch _ row (W row (znth_in _ _ _ Er)) Er).
      apply map_ext_in. intros c Hcc. apply in_zrange in Hcc.
      rewrite I3 by lia. f_equal. lia.
    + symmetry. apply znth_none. lia.
Qed.

(** With at most one full chunk everything is in place. *)
Lemma segment_one_chunk k rows : 0 <= k <= 1 -> zlen rows = k * chunk + e -> width nch rows ->
  segment_data true nch chunk (in_chunks nch chunk rows) = Ok (Some (rows, zlen rows)).
Proof.
  intros Hk L W. destruct (segment_chunks k rows) as [out [E [Lo [H1 H2]]]]; [lia|exact L|exact W|].
  rewrite E. assert (out = rows); [|congruence]. apply znth_ext. intro i.
  destruct (Z_lt_le_dec i 0) as [Hi|Hi]; [rewrite !(proj2 (znth_none _ i)) by lia; reflexivity|].
  destruct (Z_lt_le_dec i (k * chunk)) as [Hi2|Hi2]; [|apply H2; lia].
  assert (k = 1) by nia. subst k. specialize (H1 0 i). replace (i * 1 + 0) with i in H1 by lia.
  replace (0 * chunk + i) with i in H1 by lia. apply H1; lia.
Qed.
End Chunks.

(** A length that is a multiple of the chunk size. *)
Lemma tdms_exact nch chunk k raw rest : 0 < nch -> 0 < chunk -> 0 <= k -> zlen raw = k * chunk * nch ->
  tdms_data true nch chunk (raw :: rest) = Err TypeError.
Proof.
  intros Hn Hc Hk L. unfold tdms_data. cbn [tdms_loop]. unfold segment_data.
  destruct (Z.leb_spec nch 0); [lia|]. destruct (Z.leb_spec chunk 0); [lia|]. cbn [orb]. cbv zeta.
  rewrite L, Z.div_mul, Z.div_mul, Z.eqb_refl by lia. reflexivity.
Qed.

(** Two interleaved segments. *)
Lemma tdms_two nch chunk rows1 rows2 : 0 < nch -> 0 < chunk -> rows1 <> [] -> rows2 <> [] ->
  width nch rows1 -> width nch rows2 ->
  tdms_data false nch chunk [interleaved rows1; interleaved rows2] =
  if zlen rows1 =? zlen rows2
  then Ok (map (fun p : list Z * list Z => fst p ++ snd p) (combine rows1 rows2), zlen rows1 + zlen rows2)
  else Err ValueError.
Proof.
  intros Hn Hc N1 N2 W1 W2. unfold tdms_data. cbn [tdms_loop].
  rewrite !segment_interleaved by assumption. cbn [bind]. unfold append_columns.
  destruct (zlen rows1 =? zlen rows2); reflexivity.
Qed.

(** The whole reader on a single segment that decodes to [rows]. *)
Lemma tdms_read_one decimated t0 dt nch chunk d dists raw rows time dist :
  0 < nch -> rows <> [] -> width nch rows -> fair_step dt -> even_coord d dists -> zlen dists = nch ->
  segment_data decimated nch chunk raw = Ok (Some (rows, zlen rows)) ->
  exists out, tdms_read decimated t0 dt nch chunk (zlen rows * nch) d [raw] time dist = Ok out /\
              part_of (progression t0 dt (zlen rows)) dists rows time dist out.
Proof.
  intros Hn Hne W [Hs Hf] Hd Ld E. unfold tdms_read, tdms_data. cbn [tdms_loop]. rewrite E. cbn [bind tdms_loop].
  unfold tdms_time. destruct (Z.leb_spec nch 0); [lia|]. rewrite Z.mod_mul, Z.div_mul by lia. cbn [orb negb Z.eqb].
  assert (Hpos : 0 < zlen rows).
  { destruct rows as [|r t]; [congruence|]. rewrite zlen_cons. pose proof (zlen_nonneg t). lia. }
  replace (t0 + dt * (zlen rows - 1) + dt) with (t0 + dt * zlen rows) by lia.
  rewrite mk_range_exact by lia. cbn [bind fst].
  set (rr := mkRange KTime t0 (t0 + dt * zlen rows) dt (zlen rows)).
  assert (Wr : wf_range rr) by (unfold wf_range, rr; cbn; repeat split; lia).
  assert (Hev : even_coord (CRange rr) (progression t0 dt (zlen rows))).
  { exists rr. split; [reflexivity|]. split; [exact Wr|]. split; [split; assumption|].
    rewrite r_values_prog by exact Wr. reflexivity. }
  assert (Ec : match rows with row :: _ => zlen row | [] => nch end = nch).
  { destruct rows as [|r t]; [reflexivity|]. apply W. left; reflexivity. }
  rewrite Ec.
  destruct (select_even _ _ time Hev) as [ts [Et [[Tv Tp] Tl]]]. rewrite Et. cbn [bind].
  destruct (select_even _ _ dist Hd) as [ds [Es [[Kv Kp] Kl]]]. rewrite Es. cbn [bind].
  assert (Lt : zlen (progression t0 dt (zlen rows)) = zlen rows) by (rewrite zlen_progression; lia).
  assert (Eg : match time, dist with None, None => Ok (mkGrid nch rows) | _, _ => g_index (mkGrid nch rows) (snd ts) (snd ds) end =
     Ok (mkGrid (zlen (filter (wanted dist) dists))
           (map (kept (wanted dist) dists) (kept (wanted time) (progression t0 dt (zlen rows)) rows)))).
  { assert (G : g_index (mkGrid nch rows) (snd ts) (snd ds) =
     Ok (mkGrid (zlen (filter (wanted dist) dists))
           (map (kept (wanted dist) dists) (kept (wanted time) (progression t0 dt (zlen rows)) rows)))).
    { apply g_index_kept; assumption. }
    destruct time, dist; try exact G.
    assert (F : filter (wanted None) dists = dists) by (clear; induction dists; cbn; congruence).
    rewrite kept_true by exact Lt. rewrite F, Ld. f_equal. f_equal.
    rewrite <- (map_id rows) at 1. apply map_ext_in. intros row Hr. symmetry. apply kept_true.
    rewrite Ld. symmetry. apply W; exact Hr. }
  rewrite Eg. cbn [bind].
  apply (finish (progression t0 dt (zlen rows)) dists rows time dist); try assumption. reflexivity.
Qed.

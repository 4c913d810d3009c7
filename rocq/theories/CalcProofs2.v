(** Lemmas behind CalcProps.v: arrays along an axis, the spacing of a dimension. *)
From Verif Require Import Base BaseFacts CoordModel CoordSpec CoordProofs CoordProofs2 CoordProofs5 NdModel NdSpec NdProofs FrameModel ChunkModel
  CmModel CmSpec CmProofs CmProofs2 TaperProofs2 MergeModel AggModel AggSpec MuteModel CalcModel CalcSpec CalcProofs.
From Coq Require Import Strings.String ZifyBool QArith Lqa.
Local Open Scope Z_scope.
Local Open Scope list_scope.

Lemma line_in a ax n ix k : wf_nd (A := Q) a -> nth_error (nd_shape a) ax = Some n -> inb (nd_shape a) ix -> 0 <= k < n ->
  exists y, nd_get a (put ix ax k) = Some y.
Proof.
  intros W E I K. apply nd_get_total; [exact W|]. apply (inb_put _ _ _ n) with n; auto. rewrite (put_nth _ _ _ E). exact I.
Qed.
Lemma line_list a n (g : Z -> list Z) : (forall k, 0 <= k < n -> exists y, nd_get (A := Q) a (g k) = Some y) -> 0 <= n ->
  exists vs, traverse (fun k => nd_get a (g k)) (zrange n) = Some vs /\ zlen vs = n /\ forall k, 0 <= k < n -> nd_get a (g k) = znth vs k.
Proof.
  intros H N. destruct (traverse_total (fun k => nd_get a (g k)) (zrange n)) as [vs T].
  - intros k K. apply in_zrange in K. apply H, K.
  - exists vs. split; [exact T|]. destruct (traverse_spec _ _ _ T) as [L S]. rewrite zlen_zrange in L. split; [lia|].
    intros k K. destruct (S k k) as (y & E & Z).
    + rewrite znth_zrange. destruct ((0 <=? k) && (k <? n)) eqn:Q; [reflexivity|lia].
    + rewrite E, Z. reflexivity.
Qed.

Lemma nd_lines_ok f ax a n : wf_nd a -> nth_error (nd_shape a) ax = Some n ->
  (forall ix vs, zlen vs = n -> inb (nd_shape a) ix -> zlen (f ix vs) = n) ->
  exists b, nd_lines f ax a = Some b /\ wf_nd b /\ nd_shape b = nd_shape a /\
    forall ix i, inb (nd_shape a) ix -> nth_error ix ax = Some i ->
      exists vs q, zlen vs = n /\ (forall k, 0 <= k < n -> nd_get a (put ix ax k) = znth vs k) /\
        nd_get b ix = Some q /\ znth (f ix vs) i = Some q.
Proof.
  intros W E FL. unfold nd_lines. rewrite E.
  assert (G : forall ix, inb (nd_shape a) ix -> exists i vs, nth_error ix ax = Some i /\ 0 <= i < n /\
     traverse (fun k => nd_get a (put ix ax k)) (zrange n) = Some vs /\ zlen vs = n /\ forall k, 0 <= k < n -> nd_get a (put ix ax k) = znth vs k).
  { intros ix I. destruct (inb_axis _ _ _ _ I E) as (i & Ei & B). destruct (line_list a n (put ix ax)) as (vs & T & L & H).
    - intros k K. eapply line_in; eauto.
    - lia.
    - exists i, vs. auto. }
  match goal with |- context [nd_build ?s ?g] => destruct (nd_build_total s g) as [b Eb] end.
  - apply W.
  - intros ix I. destruct (G ix I) as (i & vs & Ei & B & T & L & _). rewrite Ei, T. apply znth_range. rewrite FL; auto.
  - exists b. rewrite Eb. apply nd_build_spec in Eb; [|apply W]. destruct Eb as (S & Wb & H). split; [reflexivity|]. split; [exact Wb|]. split; [exact S|].
    intros ix i I Ei. destruct (G ix I) as (i' & vs & Ei' & B & T & L & K). rewrite Ei in Ei'. injection Ei' as <-.
    destruct (H ix I) as (q & Q1 & Q2). rewrite Ei, T in Q1. exists vs, q. auto.
Qed.

(** ** Labels *)
Definition xs_of (c : coord) : list Q := map (seconds (c_kind c)) (c_ints c).
Lemma to_fl_seconds c z : to_fl c z = seconds (c_kind c) z.
Proof. unfold to_fl, seconds. destruct (c_kind c); reflexivity. Qed.
Lemma seconds_lt k a b : a < b -> (seconds k a < seconds k b)%Q.
Proof. intros H. destruct k; cbn [seconds]; unfold Qlt; cbn; lia. Qed.
Lemma seconds_sub k a b c : b - a = c -> (seconds k b - seconds k a == seconds k c)%Q.
Proof. intros <-. destruct k; cbn [seconds]; unfold Qeq; cbn; lia. Qed.
Lemma ints_len c : wf_coord c -> in_order c -> zlen (c_ints c) = c_len c.
Proof. intros W O. destruct c as [r|k v|k v|n]; cbn in *; try contradiction; [apply zlen_r_values, W|reflexivity]. Qed.
Lemma len_pos c : wf_coord c -> in_order c -> 1 <= c_len c.
Proof.
  intros W O. destruct c as [r|k v|k v|n]; cbn in *; try contradiction; [apply W|]. destruct W as [N _]. destruct v; [congruence|]. rewrite zlen_cons. pose proof (zlen_nonneg v). lia.
Qed.
Lemma xs_len c : wf_coord c -> in_order c -> zlen (xs_of c) = c_len c.
Proof. intros W O. unfold xs_of. rewrite zlen_map. apply ints_len; auto. Qed.
Lemma xs_label c i : wf_coord c -> in_order c -> 0 <= i < c_len c -> label c i (at_ (xs_of c) i).
Proof.
  intros W O B. rewrite <- ints_len in B by auto. destruct (proj2 (znth_range _ _) B) as [z Z]. exists z. split; [exact Z|].
  apply at_znth. unfold xs_of. rewrite znth_map, Z. reflexivity.
Qed.
Lemma label_xs c i x : label c i x -> 0 <= i < zlen (c_ints c) /\ x = at_ (xs_of c) i.
Proof.
  intros (z & Z & ->). split; [eapply znth_some; exact Z|]. symmetry. apply at_znth. unfold xs_of. rewrite znth_map, Z. reflexivity.
Qed.
Lemma xs_at c i z : znth (c_ints c) i = Some z -> at_ (xs_of c) i = seconds (c_kind c) z.
Proof. intros Z. apply at_znth. unfold xs_of. rewrite znth_map, Z. reflexivity. Qed.
Lemma xs_mono c : wf_coord c -> in_order c -> mono (xs_of c).
Proof.
  intros W O.
  assert (G : ascending (c_ints c) \/ descending (c_ints c)).
  { destruct c as [r|k v|k v|n]; cbn in *; try contradiction; [|tauto]. rewrite r_values_prog by exact W.
    destruct (Z_le_dec 0 (r_step r)); [left|right].
    - apply CoordProofs3.progression_ascending; [lia|]. destruct W as [W _]. lia.
    - apply CoordProofs3.progression_descending. lia. }
  assert (Z : forall i j, 0 <= i < j -> j < zlen (xs_of c) -> exists y z, znth (c_ints c) i = Some y /\ znth (c_ints c) j = Some z).
  { intros i j I J. unfold xs_of in J. rewrite zlen_map in J. destruct (proj2 (znth_range (c_ints c) i) ltac:(lia)) as [y Y]. destruct (proj2 (znth_range (c_ints c) j) ltac:(lia)) as [z Z]. eauto. }
  destruct G as [G|G]; [left|right]; intros i j I J; destruct (Z i j I J) as (y & z & Y & Zz); rewrite (xs_at _ _ _ Y), (xs_at _ _ _ Zz); apply seconds_lt.
  - eapply (ascending_znth _ i j); eauto. lia.
  - apply ascending_opp in G. enough (- y < - z) by lia. eapply (ascending_znth _ i j _ _ G); [rewrite znth_map, Y; reflexivity|rewrite znth_map, Zz; reflexivity|lia].
Qed.
Definition spacing_of (c : coord) : spacing :=
  match c with CRange r => Even (seconds (c_kind c) (r_step r)) | _ => Labels (xs_of c) end.
Lemma spacing_spaced c : wf_coord c -> in_order c -> spaced (spacing_of c) (xs_of c).
Proof.
  intros W O. destruct c as [r|k v|k v|n]; cbn [in_order] in O; try contradiction; cbn [spacing_of spaced]; [|reflexivity].
  intros i I J. rewrite xs_len in J by auto. cbn [c_len] in J. cbn in W.
  assert (V : forall u, 0 <= u < r_len r -> znth (c_ints (CRange r)) u = Some (r_start r + u * r_step r)).
  { intros u U. cbn [c_ints]. rewrite r_values_prog by exact W. apply CoordProofs.znth_progression, U. }
  rewrite (xs_at _ _ _ (V i ltac:(lia))), (xs_at _ _ _ (V (i + 1) ltac:(lia))). apply seconds_sub. lia.
Qed.
Lemma get_spacing_ok cm d ax c : wf_cm cm -> nth_error (cm_dims cm) ax = Some d -> assoc d (cm_coords cm) = Some (M1 c) -> in_order c ->
  get_spacing cm d = Ok (spacing_of c, ax).
Proof.
  intros W X E O. pose proof (wf_vals _ W _ _ E) as Wc. cbn in Wc. unfold get_spacing. rewrite E.
  assert (c_sorted c || c_reverse_sorted c = true) as ->.
  { destruct c as [r|k v|k v|n]; cbn in O; try contradiction; cbn [c_sorted c_reverse_sorted].
    - unfold r_sorted, r_reverse_sorted. lia.
    - cbn in Wc. destruct Wc as [NE M]. destruct v as [|x [|y t]]; [congruence|reflexivity|].
      assert (L2 : 2 <= zlen (x :: y :: t)) by (rewrite !zlen_cons; pose proof (zlen_nonneg t); lia).
      destruct (mono_sorted_iff _ L2 M) as [A B]. destruct M as [M|M]; [rewrite (proj2 A M)|rewrite (proj2 B M), orb_true_r]; reflexivity. }
  assert (get_axis cm d = Ok ax) as ->.
  { unfold get_axis. destruct (index_of d (cm_dims cm)) as [n|] eqn:Q.
    - f_equal. apply index_of_spec in Q. destruct Q as [Q _]. eapply NoDup_nth_error; [apply (wf_dims _ W)| |congruence]. apply nth_error_Some. congruence.
    - apply index_of_None in Q. destruct Q. eapply nth_error_In; exact X. }
  reflexivity.
Qed.
Lemma get_spacing_bad cm d : (forall c, assoc d (cm_coords cm) = Some (M1 c) -> ~ in_order c) -> get_spacing cm d = Err CoordError.
Proof.
  intros H. unfold get_spacing. destruct (assoc d (cm_coords cm)) as [[c| |]|] eqn:E; try reflexivity.
  specialize (H c eq_refl). destruct c as [r|k v|k v|n]; [destruct H; exact I|destruct H; exact I|reflexivity|reflexivity].
Qed.

(** ** Cutting *)
Lemma store_held ints m q : (q == m)%Q -> held ints q (store ints m).
Proof.
  intros E. unfold held, store. destruct ints; [|symmetry; exact E]. exists (Z.quot (Qnum m) (QDen m)). split; [reflexivity|].
  unfold cut. rewrite E. clear E q. destruct m as [a b]. cbn [Qnum Qden]. unfold Qle, Qlt, inject_Z. cbn [Qnum Qden].
  pose proof (Z.quot_rem' a (Zpos b)) as D. split; intros H; cbn in H.
  - assert (A : 0 <= a) by lia. pose proof (Z.rem_bound_pos a (Zpos b) A (Pos2Z.is_pos b)) as R.
    revert D R. generalize (a ÷ Zpos b) (Z.rem a (Zpos b)). intros t r D R. nia.
  - assert (A : a <= 0) by lia. pose proof (Z.rem_bound_pos_neg a (Zpos b) (Pos2Z.is_pos b) A) as R.
    revert D R. generalize (a ÷ Zpos b) (Z.rem a (Zpos b)). intros t r D R. nia.
Qed.

(** ** Derivatives *)
(** [e] is the spacing and axis of a dimension with an array of matching shape. *)
Definition fits (cm : cman) (s : list Z) (d : string) (e : spacing * nat) : Prop :=
  exists c, nth_error (cm_dims cm) (snd e) = Some d /\ assoc d (cm_coords cm) = Some (M1 c) /\ wf_coord c /\ in_order c /\
    fst e = spacing_of c /\ nth_error s (snd e) = Some (c_len c).
Lemma slope_line a ax ix i c s f vs m q :
  (forall k, 0 <= k < c_len c -> nd_get a (put ix ax k) = znth vs k) -> zlen vs = c_len c -> wf_coord c -> in_order c ->
  1 <= s -> 3 * s <= c_len c -> 0 <= i < c_len c -> f = spacing_of c ->
  let k := middle s (c_len c) i in
  slope_of_fit (at_ (xs_of c) (k - s)) (at_ vs (k - s)) (at_ (xs_of c) k) (at_ vs k) (at_ (xs_of c) (k + s)) (at_ vs (k + s)) (at_ (xs_of c) i) m ->
  forall b ints, nd_get b ix = Some q -> held ints m q ->
  exists x0 y0 x1 y1 x2 y2 x m q,
        label c (k - s) x0 /\ label c k x1 /\ label c (k + s) x2 /\ label c i x /\
        on_line a ax ix (k - s) y0 /\ on_line a ax ix k y1 /\ on_line a ax ix (k + s) y2 /\
        slope_of_fit x0 y0 x1 y1 x2 y2 x m /\ nd_get b ix = Some q /\ held ints m q.
Proof.
  intros V L W O S1 S3 B _ k F b ints Q H.
  assert (K : s <= k < c_len c - s) by (unfold k, middle; destruct (i <? s) eqn:Q1; [lia|destruct (c_len c - s <=? i) eqn:Q2; lia]).
  exists (at_ (xs_of c) (k - s)), (at_ vs (k - s)), (at_ (xs_of c) k), (at_ vs k), (at_ (xs_of c) (k + s)), (at_ vs (k + s)), (at_ (xs_of c) i), m, q.
  unfold on_line. rewrite !V by lia. rewrite !znth_at by lia.
  repeat (split; [first [apply xs_label; auto; lia | reflexivity | exact F | exact Q]|]). exact H.
Qed.
Lemma grad_axis_ok cm a d e : wf_nd a -> fits cm (nd_shape a) d e -> (forall c, assoc d (cm_coords cm) = Some (M1 c) -> 3 <= c_len c) ->
  exists b, grad_axis a e = Ok b /\ derivative false 1 cm d a b.
Proof.
  intros W (c & X & E & Wc & O & S & N) H3. specialize (H3 c E). unfold grad_axis. rewrite N. destruct (c_len c <? 3) eqn:Q; [lia|].
  destruct (nd_lines_ok (fun _ => gradient (fst e)) (snd e) a (c_len c) W N) as (b & Eb & Wb & Sb & H).
  { intros ix vs L _. rewrite gradient_len. exact L. }
  rewrite Eb. exists b. split; [reflexivity|]. split; [exact Wb|]. split; [exact Sb|]. exists (snd e), c. split; [exact X|]. split; [exact E|].
  intros ix i I Ei. destruct (H ix i I Ei) as (vs & q & L & V & G & Z). destruct (inb_axis _ _ _ _ I N) as (i' & Ei' & B). rewrite Ei in Ei'. injection Ei' as <-.
  destruct (gradient_fit (fst e) (xs_of c) vs (c_len c) i) as (m & Em & F); auto; try lia; [rewrite S; apply spacing_spaced; auto|apply xs_len; auto|apply xs_mono; auto|].
  rewrite Z in Em. injection Em as <-.
  apply (slope_line a (snd e) ix i c 1 (spacing_of c) vs q q); auto; try lia. reflexivity.
Qed.
Lemma strided_ok ints cm a d e s : wf_nd a -> fits cm (nd_shape a) d e -> 1 <= s -> (forall c, assoc d (cm_coords cm) = Some (M1 c) -> 3 * s <= c_len c) ->
  exists b, strided_diff ints s a [e] = Ok b /\ derivative ints s cm d a b.
Proof.
  intros W (c & X & E & Wc & O & S & N) S1 H3. specialize (H3 c E). unfold strided_diff. destruct e as [sp ax]. cbn [fst snd] in *. rewrite N.
  rewrite short_slices by lia. destruct (c_len c <? 3 * s) eqn:Q; [lia|].
  destruct (nd_lines_ok (fun _ => strided ints s sp) ax a (c_len c) W N) as (b & Eb & Wb & Sb & H).
  { intros ix vs L _. rewrite strided_len. exact L. }
  rewrite Eb. exists b. split; [reflexivity|]. split; [exact Wb|]. split; [exact Sb|]. exists ax, c. split; [exact X|]. split; [exact E|].
  intros ix i I Ei. destruct (H ix i I Ei) as (vs & q & L & V & G & Z). destruct (inb_axis _ _ _ _ I N) as (i' & Ei' & B). rewrite Ei in Ei'. injection Ei' as <-.
  destruct (strided_fit ints s sp (xs_of c) vs (c_len c) i) as (m & Em & F); auto; try lia; [rewrite S; apply spacing_spaced; auto|apply xs_len; auto|apply xs_mono; auto|].
  rewrite Z in Em. injection Em as ->.
  apply (slope_line a ax ix i c s sp vs m (store ints m)); auto. apply store_held. reflexivity.
Qed.

(** ** Sums *)
Lemma areas_len w f : 1 <= zlen f -> zlen (areas w f) = zlen f - 1.
Proof. intros H. unfold areas. apply zlen_mapr. lia. Qed.
Lemma cum_area (a : nd Q) ax ix c w vs :
  (forall k, 0 <= k < c_len c -> nd_get a (put ix ax k) = znth vs k) -> zlen vs = c_len c -> wf_coord c -> in_order c ->
  (forall j, 0 <= j -> j + 1 < c_len c -> (w j == at_ (xs_of c) (j + 1)%Z - at_ (xs_of c) j)%Q) ->
  area_below c a ax ix (fun i => psum 0 (areas w vs) (Z.to_nat i)).
Proof.
  intros V L Wc O Hw. pose proof (len_pos c Wc O) as LP. split; [destruct (areas w vs); reflexivity|].
  intros j J1 J2. exists (at_ (xs_of c) j), (at_ (xs_of c) (j + 1)), (at_ vs j), (at_ vs (j + 1)).
  split; [apply xs_label; auto; lia|]. split; [apply xs_label; auto; lia|]. unfold on_line. rewrite !V, !znth_at by lia. split; [reflexivity|]. split; [reflexivity|].
  replace (Z.to_nat (j + 1)) with (S (Z.to_nat j)) by lia. rewrite (psum_step _ _ _ ((at_ vs (j + 1)%Z + at_ vs j) * (w j / 2))%Q).
  - rewrite (Hw j J1 J2). field.
  - assert (Z : znth (areas w vs) j = Some ((at_ vs (j + 1)%Z + at_ vs j) * (w j / 2))%Q) by exact (znth_mapr (fun j => ((at_ vs (j + 1)%Z + at_ vs j) * (w j / 2))%Q) (zlen vs - 1) j ltac:(lia)).
    unfold znth in Z. destruct (j <? 0) eqn:Q; [lia|exact Z].
Qed.
(** The widths lie along the right axis. *)
Definition lies (c : coord) (last : bool) : Prop := match c with CRange _ => True | _ => last = true \/ c_len c = 2 end.
Lemma width_ok c last ix j : wf_coord c -> in_order c -> lies c last -> 0 <= j -> j + 1 < c_len c ->
  (width (spacing_of c) last ix j == at_ (xs_of c) (j + 1)%Z - at_ (xs_of c) j)%Q.
Proof.
  intros Wc O Li J1 J2. pose proof (spacing_spaced c Wc O) as S. pose proof (xs_len c Wc O) as L.
  destruct c as [r|k v|k v|n]; cbn [in_order] in O; try contradiction.
  - cbn [spacing_of width]. cbn [spacing_of spaced] in S. rewrite (S j) by lia. reflexivity.
  - cbn [spacing_of width]. set (xs := xs_of (CMono k v)) in *. cbv zeta. rewrite qdiffs_len by lia. cbn [lies] in Li. destruct (zlen xs - 1 =? 1) eqn:Q.
    + assert (j = 0) as -> by lia. rewrite qdiffs_at by lia. reflexivity.
    + assert (last = true) as -> by (destruct Li; auto; lia). rewrite qdiffs_at by lia. reflexivity.
Qed.
Lemma cum_axis_ok ints cm a d e : wf_nd a -> fits cm (nd_shape a) d e ->
  (forall c, assoc d (cm_coords cm) = Some (M1 c) -> lies c (Nat.eqb (S (snd e)) (List.length (nd_shape a)))) ->
  exists b, cum_axis ints a e = Ok b /\ running_integral ints cm d a b.
Proof.
  intros W (c & X & E & Wc & O & S & N) Li. specialize (Li c E). pose proof (len_pos c Wc O) as LP. unfold cum_axis. cbv zeta.
  set (last := Nat.eqb _ _) in *.
  assert (broadcasts (fst e) last (nd_shape a) = true) as ->.
  { rewrite S. pose proof (xs_len c Wc O) as L. destruct c as [r|k v|k v|n]; cbn [in_order] in O; try contradiction; cbn [spacing_of broadcasts]; [reflexivity|].
    cbn [lies] in Li. destruct Li as [->|Li]; [reflexivity|]. rewrite L, Li. destruct last; reflexivity. }
  cbn [negb]. destruct (nd_lines_ok (fun ix f => 0%Q :: map (store ints) (cumsum 0 (areas (width (fst e) last ix) f))) (snd e) a (c_len c) W N) as (b & Eb & Wb & Sb & H).
  { intros ix vs L _. rewrite zlen_cons, zlen_map, cumsum_len, areas_len by lia. lia. }
  rewrite Eb. exists b. split; [reflexivity|]. split; [exact Wb|]. split; [exact Sb|]. exists (snd e), c. split; [exact X|]. split; [exact E|].
  intros ix i I Ei. destruct (H ix i I Ei) as (vs & q & L & V & G & Z). destruct (inb_axis _ _ _ _ I N) as (i' & Ei' & B). rewrite Ei in Ei'. injection Ei' as <-.
  exists (fun i => psum 0 (areas (width (fst e) last ix) vs) (Z.to_nat i)), q. split; [|split; [exact G|]].
  - apply cum_area; auto. intros j J1 J2. rewrite S. apply width_ok; auto.
  - rewrite znth_cons in Z. destruct (i =? 0) eqn:Q.
    + injection Z as <-. assert (i = 0) as -> by lia. replace (psum 0 (areas (width (fst e) last ix) vs) (Z.to_nat 0)) with 0%Q by (destruct (areas _ _); reflexivity).
      pose proof (store_held ints 0 0 (Qeq_refl 0)) as SH. destruct ints; exact SH.
    + rewrite znth_map, cumsum_psum in Z by (rewrite areas_len; lia). cbn [option_map] in Z. injection Z as <-. replace (i - 1 + 1) with i by lia. apply store_held. reflexivity.
Qed.

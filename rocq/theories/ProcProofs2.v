(** Lemmas behind ProcProps.v: replacing one dimension of a patch; alignment. *)
From Verif Require Import Base BaseFacts CoordModel CoordSpec CoordProofs CoordProofs2 CoordProofs3
  CoordProofs4 CoordProofs5 NdModel NdSpec NdProofs NdProofs2 FrameModel FrameProofs5 ChunkModel CmModel CmSpec
  CmProofs CmProofs2 CmProofs3 CmProofs4 CmProofs5 CmProofs8 CmProofs10 CmProofs12 ProcModel ProcSpec ProcProofs.
From Coq Require Import Strings.String ZifyBool.
Ltac Zify.zify_post_hook ::= Z.div_mod_to_equations.
Local Open Scope Z_scope.
Local Open Scope list_scope.

Lemma axis_shape {A} (p : patch A) dim c ax : wf_patch p -> assoc dim (cm_coords (p_cm p)) = Some (M1 c) ->
  nth_error (cm_dims (p_cm p)) ax = Some dim -> nth_error (nd_shape (p_data p)) ax = Some (c_len c).
Proof.
  intros WP E Nax. pose proof (wp_shape _ WP) as F.
  revert ax Nax. induction F as [|d n ds s (c1 & Ec & L) F IH]; intros [|i] H; try discriminate; cbn in *.
  - injection H as ->. congruence.
  - apply IH; exact H.
Qed.

Lemma put_Forall2 {X Y} (R R' : X -> Y -> Prop) ds s ax d y : Forall2 R ds s -> NoDup ds -> nth_error ds ax = Some d ->
  R' d y -> (forall d' y', In d' ds -> d' <> d -> R d' y' -> R' d' y') -> Forall2 R' ds (put s ax y).
Proof.
  intros F. revert ax. induction F as [|d1 y1 ds s H F IH]; intros [|ax] ND E HY HO; try discriminate; cbn in *.
  - injection E as ->. constructor; [exact HY|]. inversion ND as [|? ? NI ND']; subst.
    clear - F NI HO. assert (G : forall d', In d' ds -> d' <> d /\ (d = d' \/ In d' ds)) by (intros d' J; split; [intros ->; contradiction|auto]).
    clear NI. induction F as [|d2 y2 ds s H F IH]; constructor.
    + destruct (G d2 (or_introl eq_refl)). apply HO; auto.
    + apply IH; [intros d' y' [->|J] N HR; apply HO; auto; right; right; exact J|].
      intros d' J. destruct (G d' (or_intror J)). split; [assumption|]. right. exact J.
  - inversion ND as [|? ? NI ND']; subst. constructor.
    + apply HO; auto. intros ->. apply NI. eapply nth_error_In; eauto.
    + apply IH; auto.
Qed.

Lemma resize_patch {A} (p : patch A) dim c c' ax (b : nd A) : wf_patch p -> plain_names (p_cm p) ->
  nth_error (cm_dims (p_cm p)) ax = Some dim -> assoc dim (cm_coords (p_cm p)) = Some (M1 c) ->
  okc c' -> recf (M1 c') = M1 c' -> wf_nd b -> nd_shape b = put (nd_shape (p_data p)) ax (c_len c') ->
  exists cm', cm_update (p_cm p) [(dim, KSimple (VCoord (M1 c')))] = Ok cm' /\
    new_patch cm' b = Ok (mkPatch cm' b) /\ refit p (mkPatch cm' b) dim c c'.
Proof.
  intros WP PN NX E K RC WB SB. destruct p as [cm a]. cbn [p_cm p_data] in *. pose proof (wp_cm _ WP) as W. cbn [p_cm] in W.
  assert (I : In dim (cm_dims cm)) by (eapply nth_error_In; eauto).
  destruct (one_update cm dim c c' W PN I E K) as (cm' & EU & W' & D' & U0 & U1 & U2 & U3). rewrite RC in U0.
  assert (SH : Forall2 (dim_len cm') (cm_dims cm) (nd_shape b)).
  { rewrite SB. apply (put_Forall2 (dim_len cm) (dim_len cm') (cm_dims cm) (nd_shape a) ax dim).
    - apply (wp_shape _ WP).
    - apply (wf_dims _ W).
    - exact NX.
    - exists c'. auto.
    - intros d n J N (c1 & E1 & L1). destruct (wf_dim_coord cm d W J) as (c0 & E0 & _ & D0).
      destruct (recf_M1 c1 (wf_okc _ (wf_vals _ W _ _ E1))) as (c2 & Q2 & L2 & _). exists c2. rewrite U2, E1.
      + cbn [option_map]. rewrite Q2. split; [reflexivity|congruence].
      + exact N.
      + intros [Q _]. unfold dims_of in Q. rewrite D0 in Q. destruct Q as [->|[]]. contradiction. }
  exists cm'. split; [exact EU|].
  destruct (new_patch_ok cm' b W' WB) as [NP WP'].
  { rewrite D'. apply (wp_some _ WP). } { rewrite D'. exact SH. }
  split; [exact NP|]. split; cbn [p_cm p_data].
  - exact WP'.
  - exact D'.
  - exact U0.
  - intros n m N Em.
    assert (KEPT : ~ (In dim (dims_of cm n) /\ c_len c <> c_len c') ->
       match assoc n (cm_coords cm') with
       | Some m' => carried m m' (full (m_shape m)) /\ assoc n (cm_dmap cm') = assoc n (cm_dmap cm)
       | None => In dim (dims_of cm n) /\ c_len c <> c_len c'
       end).
    { intros NR. rewrite (U2 n N NR), Em, U3 by auto. cbn [option_map]. split; [|reflexivity].
      apply carried_recf; [apply wf_okm, (wf_vals _ W _ _ Em)|]. apply carried_refl, (wf_vals _ W _ _ Em). }
    destruct (in_dec string_dec dim (dims_of cm n)) as [J|J]; [|apply KEPT; tauto].
    destruct (Z.eq_dec (c_len c) (c_len c')) as [Q|Q]; [apply KEPT; tauto|].
    rewrite (proj1 (U1 n N J Q)). auto.
  - intros n m N Em ST NR. rewrite (U2 n N NR), Em. cbn [option_map]. unfold recf. rewrite ST. reflexivity.
  - intros n En. assert (N : n <> dim) by congruence. rewrite (U2 n N); [rewrite En; reflexivity|].
    intros [J _]. unfold dims_of in J. destruct (assoc n (cm_dmap cm)) eqn:Dn; [|destruct J].
    destruct (con_coord _ (wf_con _ W) n l Dn) as (m & Em & _). congruence.
Qed.

(** Positions by name and multi-indices. *)
Lemma within_inb cm ds s pos : Forall2 (dim_len cm) ds s -> within cm ds pos -> inb s (map pos ds).
Proof.
  intros F. induction F as [|d n ds s H F IH]; intros WI; cbn [map]; constructor.
  - destruct (WI d (or_introl eq_refl)) as (n' & L & B). destruct H as (c & E & <-), L as (c2 & E2 & <-). congruence || (rewrite E in E2; injection E2 as <-; exact B).
  - apply IH. intros d' J. apply WI. right; exact J.
Qed.
Lemma at_dim_put {A} (p : patch A) pos dim ax i : NoDup (cm_dims (p_cm p)) -> nth_error (cm_dims (p_cm p)) ax = Some dim ->
  put (map pos (cm_dims (p_cm p))) ax i = map (at_dim pos dim i) (cm_dims (p_cm p)).
Proof. intros ND E. apply put_map_upd; assumption. Qed.

Lemma axes_gather {X} (l : list X) (f : string -> X) dims : forall ds axs, l = map f dims ->
  Forall2 (fun d ax => nth_error dims ax = Some d) ds axs -> gather_nat l axs = Some (map f ds).
Proof.
  intros ds axs -> F. induction F as [|d ax ds axs H F IH]; [reflexivity|]. cbn [gather_nat map].
  rewrite nth_error_map, H. cbn [option_map]. rewrite IH. reflexivity.
Qed.
Lemma axis_of_some cm d ax : axis_of cm d = Ok ax -> nth_error (cm_dims cm) ax = Some d.
Proof.
  unfold axis_of. destruct (index_of d (cm_dims cm)) as [i|] eqn:E; [|discriminate]. intros [= <-].
  revert i E. induction (cm_dims cm) as [|x t IH]; intros i; cbn [index_of]; [discriminate|].
  destruct (String.eqb_spec d x) as [->|N]; [intros [= <-]; reflexivity|].
  destruct (index_of d t) as [j|]; [|discriminate]. intros [= <-]. cbn. apply IH. reflexivity.
Qed.
Lemma axis_of_in cm d : In d (cm_dims cm) -> exists ax, axis_of cm d = Ok ax /\ nth_error (cm_dims cm) ax = Some d.
Proof. intros J. destruct (index_of_some d _ J) as (i & E & N). exists i. unfold axis_of. rewrite E. auto. Qed.
Lemma axes_of_in cm ds : (forall d, In d ds -> In d (cm_dims cm)) ->
  exists axs, map_result (axis_of cm) ds = Ok axs /\ Forall2 (fun d ax => nth_error (cm_dims cm) ax = Some d) ds axs.
Proof.
  induction ds as [|d ds IH]; intros H; [exists []; split; [reflexivity|constructor]|].
  destruct (axis_of_in cm d (H d (or_introl eq_refl))) as (ax & E & N).
  destruct IH as (axs & E' & F); [intros; apply H; right; assumption|].
  exists (ax :: axs). cbn [map_result]. rewrite E. cbn [bind]. rewrite E'. split; [reflexivity|]. constructor; assumption.
Qed.

(** ** Shifts *)
Definition mag (step : Z) (samples trunc : bool) (v a : Z) : Prop :=
  0 <= a /\
  if samples then a = Z.abs v
  else if trunc then a * step <= Z.abs v < (a + 1) * step
  else (a - 1) * step < Z.abs v <= a * step.
Definition truncating (r : crange) (m : amode) (vals : list Z) : bool :=
  match m with Full => existsb (fun v => r_max r - r_min r <? Z.abs v) vals | _ => false end.
Definition bounded (r : crange) (samples : bool) (v : Z) : Prop :=
  Z.abs v <= if samples then r_len r - 1 else r_max r - r_min r.

Lemma r_span r : wf_range r -> 0 < r_step r -> r_min r = r_start r /\ r_max r = r_start r + (r_len r - 1) * r_step r.
Proof.
  intros (Hs & Hn & Hstop) P. unfold r_min, r_max. rewrite Hstop.
  rewrite Z.min_l, Z.max_l by nia. split; [reflexivity|ring].
Qed.

Definition abs_indices (r : crange) (vals : list Z) (samples : bool) (m : amode) : result (list Z) :=
  let allow := match m with Full => true | _ => false end in
  if samples then next_index_samples (CRange r) (map Z.abs vals) allow
  else do l <- rel_values (CRange r) true (map Z.abs vals); next_index (CRange r) l allow.

Lemma rel_abs r vals : rel_values (CRange r) true (map Z.abs vals) = Ok (map (fun v => r_min r + Z.abs v) vals).
Proof.
  unfold rel_values. induction vals as [|v t IH]; [reflexivity|]. cbn [map map_result]. unfold relative_value at 1.
  replace (0 <=? Z.abs v) with true by lia. cbn [c_min bind]. rewrite IH. reflexivity.
Qed.

Lemma existsb_map {X Y} (f : X -> Y) (g : Y -> bool) l : existsb g (map f l) = existsb (fun x => g (f x)) l.
Proof. induction l as [|x l IH]; [reflexivity|]. cbn. rewrite IH. reflexivity. Qed.
Lemma existsb_ext' {X} (f g : X -> bool) l : (forall x, In x l -> f x = g x) -> existsb f l = existsb g l.
Proof.
  induction l as [|x l IH]; intros H; [reflexivity|]. cbn. rewrite (H x (or_introl eq_refl)), IH; [reflexivity|].
  intros; apply H; right; assumption.
Qed.
Lemma Forall2_map_in {X Y} (R : X -> Y -> Prop) (f : X -> Y) l : (forall x, In x l -> R x (f x)) -> Forall2 R l (map f l).
Proof.
  induction l as [|x l IH]; intros H; cbn; constructor; [apply H; left; reflexivity|].
  apply IH. intros; apply H; right; assumption.
Qed.

Lemma abs_indices_ok r vals samples m : wf_range r -> 0 < r_step r -> (samples = true \/ r_step r < 20000000000) ->
  (m = Full \/ forall v, In v vals -> bounded r samples v) ->
  exists l, abs_indices r vals samples m = Ok l /\
    Forall2 (mag (r_step r) samples (truncating r m vals)) vals l /\
    (m <> Full -> Forall (fun a => a <= r_len r - 1) l).
Proof.
  intros W P SM B. destruct (r_span r W P) as [Mn Mx]. pose proof W as (_ & Hn & Hstop).
  unfold abs_indices. destruct samples.
  - unfold next_index_samples. cbn [c_sorted c_len]. unfold r_sorted. replace (0 <=? r_step r) with true by lia. cbn [negb].
    destruct m.
    + cbn [negb andb]. eexists. split; [reflexivity|]. split; [|congruence].
      apply Forall2_map_in. intros v _. split; [lia|reflexivity].
    + destruct B as [B|B]; [discriminate|]. cbv iota. rewrite map_map.
      assert (map (fun x => if Z.abs x <? 0 then Z.abs x + (r_len r - 1) + 1 else Z.abs x) vals = map Z.abs vals) as ->.
      { apply map_ext. intros v. destruct (Z.ltb_spec (Z.abs v) 0); lia. }
      rewrite existsb_map, existsb_false_all by (intros v J; specialize (B v J); unfold bounded in B; lia).
      cbn [negb andb]. eexists. split; [reflexivity|]. split.
      * apply Forall2_map_in. intros v _. split; [lia|reflexivity].
      * intros _. apply Forall_forall. intros a J. apply in_map_iff in J as (v & <- & J). apply (B v J).
    + destruct B as [B|B]; [discriminate|]. cbv iota. rewrite map_map.
      assert (map (fun x => if Z.abs x <? 0 then Z.abs x + (r_len r - 1) + 1 else Z.abs x) vals = map Z.abs vals) as ->.
      { apply map_ext. intros v. destruct (Z.ltb_spec (Z.abs v) 0); lia. }
      rewrite existsb_map, existsb_false_all by (intros v J; specialize (B v J); unfold bounded in B; lia).
      cbn [negb andb]. eexists. split; [reflexivity|]. split.
      * apply Forall2_map_in. intros v _. split; [lia|reflexivity].
      * intros _. apply Forall_forall. intros a J. apply in_map_iff in J as (v & <- & J). apply (B v J).
  - destruct SM as [SM|SM]; [discriminate|]. rewrite rel_abs. cbn [bind].
    unfold next_index. cbn [c_sorted c_min c_max]. unfold r_sorted. replace (0 <=? r_step r) with true by lia. cbn [negb].
    rewrite existsb_map.
    rewrite (existsb_ext' _ (fun v => r_max r - r_min r <? Z.abs v)) by (intros; lia).
    replace (r_step r =? 0) with false by lia.
    assert (IN : (forall v, In v vals -> bounded r false v) ->
       Forall2 (mag (r_step r) false false) vals
         (map (fun x => r_raw_index r (if r_max r <? x then r_max r else if x <? r_min r then r_min r else x) true)
              (map (fun v => r_min r + Z.abs v) vals)) /\
       Forall (fun a => a <= r_len r - 1) (map (fun x => r_raw_index r (if r_max r <? x then r_max r else if x <? r_min r then r_min r else x) true)
              (map (fun v => r_min r + Z.abs v) vals))).
    { intros BB. rewrite map_map.
      assert (Q : forall v, In v vals -> let a := r_raw_index r (if r_max r <? r_min r + Z.abs v then r_max r else if r_min r + Z.abs v <? r_min r then r_min r else r_min r + Z.abs v) true in
                 mag (r_step r) false false v a /\ a <= r_len r - 1).
      { intros v J. specialize (BB v J). unfold bounded in BB. cbv zeta.
        destruct (Z.ltb_spec (r_max r) (r_min r + Z.abs v)); [lia|]. destruct (Z.ltb_spec (r_min r + Z.abs v) (r_min r)); [lia|].
        assert (F : forall i, r_raw_index r (r_min r + Z.abs v) true <= i <-> Z.abs v <= i * r_step r).
        { intros i. rewrite raw_forward_le by lia. rewrite Z.sgn_pos, (Z.abs_eq (r_step r)) by lia. rewrite Mn. split; intros; lia. }
        set (a := r_raw_index r (r_min r + Z.abs v) true) in *. clearbody a.
        assert (0 <= a).
        { destruct (Z_lt_dec a 0); [|lia]. exfalso. assert (X : a <= -1) by lia. apply F in X. lia. }
        split.
        - split; [assumption|]. split; [|apply F; lia].
          destruct (Z_lt_dec ((a - 1) * r_step r) (Z.abs v)); [assumption|]. exfalso. assert (a <= a - 1) by (apply F; lia). lia.
        - apply F. nia. }
      split; [apply Forall2_map_in; intros v J; apply (Q v J)|]. apply Forall_forall. intros a J.
      apply in_map_iff in J as (v & <- & J). apply (Q v J). }
    destruct m.
    + cbn [negb andb truncating]. destruct (existsb (fun v => r_max r - r_min r <? Z.abs v) vals) eqn:X.
      * eexists. split; [reflexivity|]. split; [|congruence]. rewrite map_map. apply Forall2_map_in. intros v _.
        replace (r_min r + Z.abs v - r_min r) with (Z.abs v) by lia. rewrite Z.quot_div_nonneg by lia.
        unfold mag. pose proof (Z.div_mod (Z.abs v) (r_step r) ltac:(lia)). pose proof (Z.mod_pos_bound (Z.abs v) (r_step r) P).
        split; [apply Z.div_pos; lia|]. nia.
      * eexists. split; [reflexivity|]. split; [|congruence]. apply IN. intros v J. unfold bounded.
        destruct (Z.ltb_spec (r_max r - r_min r) (Z.abs v)) as [G|G]; [|lia]. exfalso.
        assert (existsb (fun v => r_max r - r_min r <? Z.abs v) vals = true); [|congruence].
        apply existsb_exists. exists v. split; [exact J|lia].
    + destruct B as [B|B]; [discriminate|]. rewrite existsb_false_all by (intros v J; specialize (B v J); unfold bounded in B; lia).
      cbn [negb andb truncating]. eexists. split; [reflexivity|]. destruct (IN B). split; auto.
    + destruct B as [B|B]; [discriminate|]. rewrite existsb_false_all by (intros v J; specialize (B v J); unfold bounded in B; lia).
      cbn [negb andb truncating]. eexists. split; [reflexivity|]. destruct (IN B). split; auto.
Qed.

Lemma abs_indices_bad r vals samples m v : wf_range r -> 0 < r_step r -> m <> Full -> In v vals -> ~ bounded r samples v ->
  abs_indices r vals samples m = Err ValueError.
Proof.
  intros W P NM J B. destruct (r_span r W P) as [Mn Mx]. pose proof W as (_ & Hn & Hstop). unfold bounded in B.
  unfold abs_indices. destruct samples.
  - unfold next_index_samples. cbn [c_sorted c_len]. unfold r_sorted. replace (0 <=? r_step r) with true by lia. cbn [negb].
    assert (M : (match m with Full => true | _ => false end) = false) by (destruct m; congruence). rewrite M. cbn [negb andb].
    match goal with |- context [existsb ?f ?l] => assert (existsb f l = true) as -> end; [|reflexivity].
    apply existsb_exists. exists (Z.abs v). split; [|lia]. apply in_map_iff. exists (Z.abs v).
    split; [destruct (Z.ltb_spec (Z.abs v) 0); lia|]. apply in_map. exact J.
  - rewrite rel_abs. cbn [bind]. unfold next_index. cbn [c_sorted c_min c_max]. unfold r_sorted. replace (0 <=? r_step r) with true by lia. cbn [negb].
    assert (M : (match m with Full => true | _ => false end) = false) by (destruct m; congruence). rewrite M. cbn [negb andb].
    match goal with |- context [existsb ?f ?l] => assert (existsb f l = true) as -> end; [|reflexivity].
    apply existsb_exists. exists (r_min r + Z.abs v). split; [|lia]. apply in_map_iff. eauto.
Qed.

Lemma abs_indices_sorted r vals samples m l : wf_range r -> abs_indices r vals samples m = Ok l -> 0 < r_step r.
Proof.
  intros (N & _). unfold abs_indices. destruct (Z.leb_spec 0 (r_step r)); [lia|].
  destruct samples; unfold next_index_samples, next_index; cbn [c_sorted]; unfold r_sorted;
    (destruct (Z.leb_spec 0 (r_step r)); [lia|]); cbn [negb]; [discriminate|].
  rewrite rel_abs. discriminate.
Qed.

Lemma shift_indices_ok r vals reverse samples m inds : wf_range r -> (samples = true \/ r_step r < 20000000000) ->
  zlen (nd_flat vals) = size (nd_shape vals) ->
  shift_indices r vals reverse samples m = Ok inds ->
  0 < r_step r /\ nd_shape inds = nd_shape vals /\ zlen (nd_flat inds) = zlen (nd_flat vals) /\
  (forall i v, znth (nd_flat vals) i = Some v -> exists s, znth (nd_flat inds) i = Some s /\
     trace_shift (r_step r) samples reverse (truncating r m (nd_flat vals)) v s) /\
  (m <> Full -> Forall (fun s => - (r_len r - 1) <= s <= r_len r - 1) (nd_flat inds)).
Proof.
  intros W SM LV H. unfold shift_indices in H.
  assert (E : exists l, abs_indices r (nd_flat vals) samples m = Ok l /\
    inds = mkNd (nd_shape vals) (map (fun p => fst p * (Z.sgn (snd p) * (if reverse then -1 else 1))) (combine l (nd_flat vals)))).
  { unfold abs_indices. destruct samples.
    - destruct (next_index_samples _ _ _) as [l|[]]; try discriminate. injection H as <-. eauto.
    - destruct (rel_values _ _ _) as [l0|[]]; try discriminate. cbn [bind] in *.
      destruct (next_index _ _ _) as [l|[]]; try discriminate. injection H as <-. eauto. }
  destruct E as (l & E & ->). pose proof (abs_indices_sorted _ _ _ _ _ W E) as P.
  assert (B : m = Full \/ forall v, In v (nd_flat vals) -> bounded r samples v).
  { destruct m; [left; reflexivity| |]; right; intros v J; unfold bounded;
      (destruct (Z_le_gt_dec (Z.abs v) (if samples then r_len r - 1 else r_max r - r_min r)) as [|G]; [assumption|exfalso]);
      (rewrite (abs_indices_bad r (nd_flat vals) samples _ v W P) in E; [discriminate|congruence|exact J|unfold bounded; lia]). }
  destruct (abs_indices_ok r (nd_flat vals) samples m W P SM B) as (l' & E' & F & BD). rewrite E in E'. injection E' as <-.
  cbn [nd_shape nd_flat]. split; [exact P|]. split; [reflexivity|].
  set (tr := truncating r m (nd_flat vals)) in *. clearbody tr. clear - F BD.
  assert (LC : zlen (combine l (nd_flat vals)) = zlen (nd_flat vals)).
  { unfold zlen. rewrite combine_length, <- (Forall2_length _ _ _ F). lia. }
  split; [rewrite zlen_map; exact LC|]. split.
  - clear BD LC. induction F as [|v a vs l H F IH]; intros i x; [rewrite znth_nil; discriminate|].
    cbn [combine map]. rewrite !znth_cons. destruct (i =? 0).
    + intros [= <-]. eexists. split; [reflexivity|]. exists a. cbn [fst snd]. destruct H. auto.
    + apply IH.
  - intros NF. specialize (BD NF). clear LC NF. induction F as [|v a vs l H F IH]; cbn [combine map]; constructor.
    + cbn [fst snd]. inversion BD; subst. destruct H as [H0 _]. destruct reverse; destruct (Z.sgn_spec v) as [[? ->]|[[? ->]|[? ->]]]; lia.
    + apply IH. inversion BD; assumption.
Qed.

Lemma shift_indices_total r vals reverse samples m : wf_range r -> 0 < r_step r -> (samples = true \/ r_step r < 20000000000) ->
  (m = Full \/ forall v, In v (nd_flat vals) -> bounded r samples v) ->
  exists inds, shift_indices r vals reverse samples m = Ok inds.
Proof.
  intros W P SM B. destruct (abs_indices_ok r (nd_flat vals) samples m W P SM B) as (l & E & _).
  unfold shift_indices, abs_indices in *. destruct samples.
  - rewrite E. eauto.
  - destruct (rel_values _ _ _) as [l0|e]; [|discriminate]. cbn [bind] in *. rewrite E. eauto.
Qed.
Lemma shift_indices_bad r vals reverse samples m v : wf_range r -> 0 < r_step r -> m <> Full -> In v (nd_flat vals) ->
  ~ bounded r samples v -> shift_indices r vals reverse samples m = Err ParameterError.
Proof.
  intros W P NM J B. pose proof (abs_indices_bad r (nd_flat vals) samples m v W P NM J B) as E.
  unfold shift_indices, abs_indices in *. destruct samples.
  - rewrite E. reflexivity.
  - rewrite rel_abs in *. cbn [bind] in *. rewrite E. reflexivity.
Qed.

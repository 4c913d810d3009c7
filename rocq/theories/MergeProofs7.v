(** Lemmas behind C55: joining patches. *)
From Verif Require Import Base ProcProofs2 BaseFacts CoordModel CoordSpec CoordProofs CoordProofs2 CoordProofs3 CoordProofs5 NdModel NdSpec NdProofs
  FrameModel FrameProofs5 ChunkModel CmModel CmSpec CmProofs CmProofs2 CmProofs3 CmProofs4 CmProofs17 FourierProofs2 MergeModel MergeSpec MergeProofs
  MergeProofs2 MergeProofs3 MergeProofs4 MergeProofs5 MergeProofs6.
From Coq Require Import Strings.String ZifyBool Sorting.Permutation Sorting.Sorted.
Ltac Zify.zify_post_hook ::= Z.div_mod_to_equations.
Local Open Scope Z_scope.
Local Open Scope list_scope.

(** A strictly ascending list is its own stable sort. *)
Lemma sort_keyed_up {B} (key : B -> Z) l : StronglySorted (fun a b => key a < key b) l ->
  sort_keyed (map (fun x => (key x, x)) l) = map (fun x => (key x, x)) l.
Proof.
  induction 1 as [|x l S IH F]; [reflexivity|]. unfold sort_keyed in *. cbn [map fold_right fst snd]. rewrite IH.
  destruct l as [|y l]; [reflexivity|]. cbn [map insert_key]. inversion F; subst.
  replace (key x <=? key y) with true by lia. reflexivity.
Qed.
Lemma in_order_up d cms : StronglySorted (fun a b => start_of d a < start_of d b) cms -> in_order d cms = cms.
Proof. intros S. unfold in_order. rewrite (sort_keyed_up _ _ S), map_map. apply map_id. Qed.

(** The dimension that varies. *)
Lemma row_same_refl r : row_same r r = true.
Proof. induction r as [|[x|] r IH]; cbn; [reflexivity|rewrite Z.eqb_refl; exact IH|exact IH]. Qed.
Lemma filter_one (f : string -> bool) d : forall l, NoDup l -> In d l -> f d = true -> (forall e, In e l -> e <> d -> f e = false) ->
  filter f l = [d].
Proof.
  induction l as [|x l IH]; intros N I E H; [destruct I|]. inversion N as [|? ? Nx Nl]; subst. cbn [filter].
  destruct I as [->|I].
  - rewrite E. f_equal. assert (Q : forall e, In e l -> f e = false).
    { intros e Ie. apply H; [right; exact Ie|intros ->; contradiction]. }
    clear - Q. induction l as [|y l IH]; [reflexivity|]. cbn [filter]. rewrite (Q y (or_introl eq_refl)). apply IH. intros e Ie. apply Q. right; exact Ie.
  - rewrite (H x (or_introl eq_refl)); [|intros ->; contradiction]. apply IH; auto. intros e Ie. apply H. right; exact Ie.
Qed.
Lemma merge_dim_ok {A} drop D d k (ps : list (patch A)) : mergeable drop D d k ps -> merge_dim (map p_cm ps) = Ok (Some d).
Proof.
  intros M. pose proof (mb_join _ _ _ _ _ M) as J. pose proof (mb_up _ _ _ _ _ M) as U.
  destruct ps as [|p [|q ps]]; [exfalso; pose proof (mb_two _ _ _ _ _ M) as L; cbn in L; lia..|].
  set (cms := map p_cm (p :: q :: ps)) in *.
  assert (Ip : In (p_cm p) cms) by (left; reflexivity). assert (Iq : In (p_cm q) cms) by (right; left; reflexivity).
  unfold merge_dim. change cms with (p_cm p :: map p_cm (q :: ps)) at 1. cbv iota beta.
  assert (forallb (fun c => strs_eqb (cm_dims (p_cm p)) (cm_dims c)) (map p_cm (q :: ps)) = true) as ->.
  { apply forallb_forall. intros c I. rewrite (jn_dims _ _ _ _ J _ Ip), (jn_dims _ _ _ _ J c (or_intror I)). apply strs_eqb_eq. reflexivity. }
  rewrite (jn_dims _ _ _ _ J _ Ip). rewrite (filter_one (varies cms) d D).
  - reflexivity.
  - rewrite <- (jn_dims _ _ _ _ J _ Ip). apply wf_dims, (jn_wf _ _ _ _ J _ Ip).
  - apply (jn_dim _ _ _ _ J).
  - unfold varies. change cms with (p_cm p :: map p_cm (q :: ps)) at 1. cbv iota beta. apply Bool.negb_true_iff.
    apply Bool.not_true_iff_false. intros F. rewrite forallb_forall in F. specialize (F _ Iq).
    destruct (dim_min_ok D d k cms (p_cm p) J Ip) as (Mp & _). destruct (dim_min_ok D d k cms (p_cm q) J Iq) as (Mq & _).
    unfold dim_min in Mp, Mq. unfold dim_row in F.
    destruct (assoc d (cm_coords (p_cm p))) as [[cp| |]|]; try discriminate. destruct (assoc d (cm_coords (p_cm q))) as [[cq| |]|]; try discriminate.
    destruct (c_min cp) as [mp|]; [|discriminate]. destruct (c_min cq) as [mq|]; [|discriminate]. cbn [row_same] in F.
    apply andb_prop in F as [F _]. unfold cms in U. cbn [map] in U. inversion U as [|? ? _ U1]; subst. inversion U1 as [|? ? U2 _]; subst.
    assert (mp = start_of d (p_cm p)) by congruence. assert (mq = start_of d (p_cm q)) by congruence. lia.
  - intros e Ie Ne. unfold varies. change cms with (p_cm p :: map p_cm (q :: ps)) at 1. cbv iota beta. apply Bool.negb_false_iff.
    apply forallb_forall. intros c Ic. unfold cms in Ic. apply in_map_iff in Ic as (r & <- & Ir).
    unfold dim_row. rewrite (mb_same _ _ _ _ _ M e p r Ie Ne (or_introl eq_refl) Ir). apply row_same_refl.
Qed.

(** Steps. *)
Lemma insert_len x l : zlen (insert x l) = 1 + zlen l.
Proof. induction l as [|y l IH]; cbn [insert]; [reflexivity|]. destruct (x <=? y); rewrite !zlen_cons; lia. Qed.
Lemma np_sort_len l : zlen (np_sort l) = zlen l.
Proof. induction l as [|x l IH]; [reflexivity|]. unfold np_sort in *. cbn [fold_right]. rewrite insert_len, zlen_cons. lia. Qed.
Lemma median_const s l : l <> [] -> (forall x, In x l -> x = s) -> close_to_median l = true.
Proof.
  intros N H. assert (M : twice_median l = 2 * s).
  { assert (Q : forall i, (i < List.length l)%nat -> nth i l 0 = s) by (intros i L; apply H, nth_In, L).
    assert (0 < List.length l)%nat by (destruct l; [congruence|cbn; lia]).
    unfold twice_median. destruct (Nat.even (List.length l)) eqn:E.
    - assert (2 <= List.length l)%nat by (destruct (List.length l) as [|[|]]; [lia|discriminate|lia]).
      pose proof (Nat.div_lt (List.length l) 2). rewrite !Q; lia.
    - pose proof (Nat.div_lt (List.length l) 2). rewrite Q; lia. }
  unfold close_to_median. destruct l as [|x l]; [congruence|]. rewrite M. apply forallb_forall. intros y I. rewrite (H y I). lia.
Qed.
Lemma steps_close_ok D d k cms s : joinable D d k cms -> ranges_along d s cms -> steps_close cms d = Ok true.
Proof.
  intros J R. unfold steps_close.
  assert (E : some_steps (map step_of (map (fun cm => match assoc d (cm_coords cm) with Some (M1 c) => c | _ => CPart 0 end) cms)) = map (fun _ => s) cms).
  { clear J. induction cms as [|c cms IH]; [reflexivity|]. destruct (R c (or_introl eq_refl)) as (r & Er & Sr).
    cbn [map]. rewrite Er. cbn [step_of some_steps flat_map app]. fold (some_steps (map step_of (map (fun cm => match assoc d (cm_coords cm) with Some (M1 c0) => c0 | _ => CPart 0 end) cms))).
    rewrite IH; [rewrite Sr; reflexivity|]. intros c' I. apply R. right; exact I. }
  rewrite E. destruct cms as [|c cms]; [destruct (jn_some _ _ _ _ J); reflexivity|]. cbn [map].
  change (s :: map (fun _ => s) cms) with (map (fun _ : cman => s) (c :: cms)).
  rewrite zlen_map, Z.eqb_refl. cbn [andb]. f_equal. apply (median_const s).
  - intros Q. pose proof (np_sort_len (map (fun _ => s) (c :: cms))) as L. rewrite Q in L. rewrite zlen_map, zlen_cons, zlen_nil in L.
    pose proof (zlen_nonneg cms). lia.
  - intros x I. rewrite in_np_sort in I. apply in_map_iff in I as (? & <- & _). reflexivity.
Qed.
Lemma cm_snap_even argsort cm d r : wf_cm cm -> In d (cm_dims cm) -> assoc d (cm_coords cm) = Some (M1 (CRange r)) -> 0 < r_step r ->
  cm_snap argsort cm [d] false = Ok (cm, []).
Proof.
  intros W I E P. destruct (wf_dim_coord cm d W I) as (c & _ & _ & Dm).
  assert (S : cm_sort argsort cm [d] false = Ok None).
  { assert (V : validate_sort cm [d] = Ok tt) by (unfold validate_sort; cbn [map_result]; rewrite Dm; reflexivity).
    unfold cm_sort. rewrite V. cbn [bind forallb].
    assert (mem d (map fst (cm_coords cm)) = true) as -> by (apply mem_In', assoc_In; eauto). cbn [andb negb filter].
    rewrite E. cbn [m_sorted c_sorted]. unfold r_sorted. replace (0 <=? r_step r) with true by lia. reflexivity. }
  unfold cm_snap. rewrite S. cbn. rewrite E. reflexivity.
Qed.

(** ** Shapes *)
Lemma shape_at {A} D (p : patch A) n e : wf_patch p -> cm_dims (p_cm p) = D -> nth_error D n = Some e ->
  exists c, assoc e (cm_coords (p_cm p)) = Some (M1 c) /\ nth_error (nd_shape (p_data p)) n = Some (c_len c).
Proof.
  intros W E N. pose proof (wp_shape _ W) as F. rewrite E in F. clear E. revert n N.
  induction F as [|x m D' sh (c & Ec & Lc) F IH]; intros [|n] N; cbn in *; try discriminate.
  - injection N as ->. exists c. rewrite Lc. auto.
  - apply IH, N.
Qed.
Lemma some_steps_In x l : In x (some_steps l) <-> In (Some x) l.
Proof.
  unfold some_steps. rewrite in_flat_map. split.
  - intros (o & I & Q). destruct o as [y|]; [|destruct Q]. destruct Q as [<-|[]]. exact I.
  - intros I. exists (Some x). split; [exact I|left; reflexivity].
Qed.
Lemma steps_close_defined D d k cms : joinable D d k cms ->
  k = KTime \/ (exists cm r, In cm cms /\ assoc d (cm_coords cm) = Some (M1 (CRange r))) -> exists b, steps_close cms d = Ok b.
Proof.
  intros J H. unfold steps_close. set (cs := map (fun cm => match assoc d (cm_coords cm) with Some (M1 c) => c | _ => CPart 0 end) cms).
  destruct (some_steps (map step_of cs)) as [|x l] eqn:S; [|eauto].
  destruct cs as [|c [|c2 t]] eqn:C; [eauto|eauto|].
  assert (KC : c_kind c = k).
  { assert (Q : In c cs) by (rewrite C; left; reflexivity). apply in_map_iff in Q as (cm & Q & I).
    destruct (jn_vals _ _ _ _ J cm I) as (c' & E & _ & Kc). rewrite E in Q. congruence. }
  rewrite KC. destruct H as [->|(cm & r & I & E)]; [eauto|]. exfalso.
  assert (Q : In (r_step r) (some_steps (map step_of cs))).
  { apply some_steps_In. apply in_map_iff. exists (CRange r). split; [reflexivity|]. apply in_map_iff. exists cm. rewrite E. auto. }
  rewrite C, S in Q. destruct Q.
Qed.

Section Join.
Context {A : Type} (drop : bool) (D : list string) (d : string) (k : kind) (ps : list (patch A)).
Hypothesis (M : mergeable drop D d k ps).

Lemma mdims p : In p ps -> cm_dims (p_cm p) = D.
Proof. intros I. apply (jn_dims _ _ _ _ (mb_join _ _ _ _ _ M)). apply in_map. exact I. Qed.
Lemma axis_some : exists ax, index_of d D = Some ax /\ nth_error D ax = Some d.
Proof.
  pose proof (jn_dim _ _ _ _ (mb_join _ _ _ _ _ M)) as I.
  assert (E : exists ax, index_of d D = Some ax).
  { clear M. induction D as [|x l IH]; [destruct I|]. cbn. destruct (String.eqb_spec d x) as [Q|Q]; [eauto|].
    destruct I as [->|I]; [congruence|]. destruct (IH I) as [n ->]. eexists; reflexivity. }
  destruct E as [ax E]. exists ax. split; [exact E|]. apply (index_of_spec _ _ _ E).
Qed.
Lemma shape_len p : In p ps -> List.length (nd_shape (p_data p)) = List.length D.
Proof. intros I. pose proof (wp_shape _ (mb_wf _ _ _ _ _ M p I)) as F. rewrite (mdims p I) in F. symmetry. eapply Forall2_length. exact F. Qed.
Lemma off_axis ax p q : nth_error D ax = Some d -> In p ps -> In q ps ->
  put (nd_shape (p_data p)) ax 0 = put (nd_shape (p_data q)) ax 0.
Proof.
  intros X Ip Iq. apply list_ext. intros n. destruct (Nat.eq_dec ax n) as [<-|N].
  - assert (ax < List.length D)%nat by (apply nth_error_Some; congruence).
    rewrite !nth_put_same by (rewrite shape_len; assumption). reflexivity.
  - rewrite !nth_put_other by exact N. destruct (nth_error D n) as [e|] eqn:E.
    + destruct (shape_at D p n e (mb_wf _ _ _ _ _ M p Ip) (mdims p Ip) E) as (c & Ec & ->).
      destruct (shape_at D q n e (mb_wf _ _ _ _ _ M q Iq) (mdims q Iq) E) as (c' & Ec' & ->).
      assert (Ne : e <> d).
      { intros ->. apply N. assert (ND : NoDup D) by (rewrite <- (mdims p Ip); apply wf_dims, (wp_cm _ (mb_wf _ _ _ _ _ M p Ip))).
        apply (proj1 (NoDup_nth_error D) ND); [apply nth_error_Some; congruence|congruence]. }
      rewrite (mb_same _ _ _ _ _ M e p q (nth_error_In _ _ E) Ne Ip Iq) in Ec. assert (c = c') as -> by congruence. reflexivity.
    + apply nth_error_None in E. rewrite !(proj2 (nth_error_None _ _)) by (rewrite shape_len; assumption). reflexivity.
Qed.
Lemma axis_values ax p : nth_error D ax = Some d -> In p ps -> axis_len ax (p_data p) = zlen (values_of d (p_cm p)).
Proof.
  intros X I. destruct (shape_at D p ax d (mb_wf _ _ _ _ _ M p I) (mdims p I) X) as (c & Ec & L).
  unfold axis_len. rewrite L. unfold values_of. rewrite Ec.
  destruct (jn_vals _ _ _ _ (mb_join _ _ _ _ _ M) (p_cm p) (in_map p_cm _ _ I)) as (c' & E' & C & _).
  assert (c' = c) as -> by congruence. symmetry. apply c_ints_len; [|exact C].
  apply wf_okc. apply (wf_vals _ (wp_cm _ (mb_wf _ _ _ _ _ M p I)) _ _ Ec).
Qed.
Lemma total_values ax l : nth_error D ax = Some d -> (forall p, In p l -> In p ps) ->
  total (map (axis_len ax) (map p_data l)) = zlen (List.concat (map (values_of d) (map p_cm l))).
Proof.
  intros X. induction l as [|p l IH]; intros H; [reflexivity|]. cbn [map total fold_right List.concat].
  fold (total (map (axis_len ax) (map p_data l))). rewrite zlen_app, IH by (intros q I; apply H; right; exact I).
  rewrite (axis_values ax p X (H p (or_introl eq_refl))). reflexivity.
Qed.

Lemma join_data p0 ax : In p0 ps -> nth_error D ax = Some d ->
  exists data, nd_concat ax (map p_data ps) = Ok data /\ wf_nd data /\ stacked ax (map p_data ps) data /\
    nd_shape data = put (nd_shape (p_data p0)) ax (zlen (List.concat (map (values_of d) (map p_cm ps)))).
Proof.
  intros I X. destruct (nd_concat_ok ax (map p_data ps) (p_data p0)) as (data & E & W & S & T).
  - apply in_map, I.
  - intros a Ia. apply in_map_iff in Ia as (q & <- & Iq). split; [apply (wp_nd _ (mb_wf _ _ _ _ _ M q Iq))|].
    rewrite shape_len by exact Iq. apply nth_error_Some. congruence.
  - intros a Ia. apply in_map_iff in Ia as (q & <- & Iq). apply off_axis; assumption.
  - exists data. rewrite (total_values ax ps X) in S by auto. auto.
Qed.
Lemma join_shape p0 ax vs cm (data : nd A) : In p0 ps -> nth_error D ax = Some d -> merged_as D d (map p_cm ps) (p_cm p0) vs cm ->
  nd_shape data = put (nd_shape (p_data p0)) ax (zlen vs) -> Forall2 (dim_len cm) D (nd_shape data).
Proof.
  intros I X (W & Dm & (c & Ec & Rc) & O & _) S. rewrite S.
  pose proof (wp_shape _ (mb_wf _ _ _ _ _ M p0 I)) as F. rewrite (mdims p0 I) in F.
  pose proof (mb_join _ _ _ _ _ M) as J. pose proof (in_map p_cm _ _ I) as I'.
  apply (put_Forall2 (dim_len (p_cm p0)) (dim_len cm) D (nd_shape (p_data p0)) ax d (zlen vs) F).
  - rewrite <- Dm. apply wf_dims, W.
  - exact X.
  - exists c. split; [exact Ec|]. destruct Rc as (L & _). rewrite <- L. symmetry. apply c_len_values. apply wf_okc, (wf_vals _ W _ _ Ec).
  - intros e n Ie Ne (ce & Ee & Le).
    pose proof (dims_shared D d k _ J e Ie) as Sh.
    destruct (O e [e] (M1 ce) Sh Ne Ee) as [O1 _]. destruct O1 as (_ & m' & Em & Ca).
    { apply (mb_agree _ _ _ _ _ M e [e] (p_cm p0) Sh); [intros [Q|[]]; congruence|right; exact Ie|exact I']. }
    pose proof (wf_okm _ (wf_vals _ W _ _ Em)) as K. pose proof (carried_shape _ _ _ K Ca) as Q.
    destruct Ca as (c' & qs & -> & _). exists c'. split; [exact Em|]. cbn [m_shape full map] in Q.
    rewrite zlen_zrange in Q. assert (c_len c' = Z.max 0 (c_len ce)) by congruence.
    pose proof (c_len_nonneg ce (wf_vals _ (jn_wf _ _ _ _ J _ I') _ _ Ee)). lia.
Qed.

(** ** The joined patch *)
Lemma join_merge : exists cm p0 pt, ps = p0 :: pt /\ merge_cms None drop d (map p_cm ps) = Ok cm /\
  merged_as D d (map p_cm ps) (p_cm p0) (List.concat (map (values_of d) (map p_cm ps))) cm /\
  assoc d (cm_coords cm) = Some (recf (M1 (CArr k (List.concat (map (values_of d) (map p_cm ps)))))).
Proof.
  pose proof (mb_join _ _ _ _ _ M) as J. pose proof (in_order_up d _ (mb_up _ _ _ _ _ M)) as IO.
  destruct (dimc_values D d k (map p_cm ps) (map p_cm ps) J) as [V K]; [auto|].
  assert (N0 : map (dimc d) (map p_cm ps) <> []) by (intros Q; apply map_eq_nil in Q; apply (jn_some _ _ _ _ J Q)).
  assert (SN : snap_coords None (map (dimc d) (in_order d (map p_cm ps))) = Ok (map (dimc d) (map p_cm ps))) by (rewrite IO; reflexivity).
  destruct (merge_as None drop D d k (map p_cm ps) (map (dimc d) (map p_cm ps)) J (mb_alone _ _ _ _ _ M) (mb_agree _ _ _ _ _ M) SN N0 K)
    as (first & rest & cm & IO' & E & MA).
  destruct (merge_core None drop D d k (map p_cm ps) (map (dimc d) (map p_cm ps)) J (alone_leading _ _ _ _ J (mb_alone _ _ _ _ _ M)) (mb_agree _ _ _ _ _ M) SN N0 K)
    as (_ & _ & cm2 & _ & _ & E2 & _ & _ & Q & _).
  assert (cm2 = cm) as -> by congruence.
  destruct (Q d [d] (dims_shared D d k _ J d (jn_dim _ _ _ _ J)) (or_introl eq_refl)) as [Qc _].
  rewrite V in MA, Qc. rewrite IO in IO'. exists cm.
  destruct ps as [|p0 pt] eqn:Eps; [discriminate|]. assert (first = p_cm p0) as -> by (cbn in IO'; congruence).
  exists p0, pt. auto.
Qed.
Lemma join_build argsort snap cm out p0 : In p0 ps -> (exists pt, ps = p0 :: pt) ->
  merge_cms None drop d (map p_cm ps) = Ok cm -> joined_coords argsort snap drop d (map p_cm ps) = Ok out ->
  merged_as D d (map p_cm ps) (p_cm p0) (List.concat (map (values_of d) (map p_cm ps))) out ->
  exists data ax, index_of d D = Some ax /\ join_patches argsort snap drop ps = Ok (mkPatch out data) /\ wf_patch (mkPatch out data) /\
    stacked ax (map p_data ps) data.
Proof.
  intros I0 (pt & Eps) E JC MA. destruct axis_some as (ax & EX & X).
  destruct (join_data p0 ax I0 X) as (data & Ed & Wd & Sd & Hd).
  pose proof (join_shape p0 ax _ out data I0 X MA Hd) as F.
  pose proof MA as (Wc & Dc & _).
  destruct (new_patch_ok out data Wc Wd) as [NP WP].
  { rewrite Dc. intros Q. pose proof X as X'. rewrite Q in X'. destruct ax; discriminate. } { rewrite Dc. exact F. }
  exists data, ax. split; [exact EX|]. split; [|auto].
  unfold join_patches. rewrite (merge_dim_ok _ _ _ _ _ M). cbn [bind]. rewrite Eps at 1. unfold get_axis.
  rewrite (mdims p0 I0), EX. cbn [bind]. rewrite Ed. cbn [bind]. rewrite JC. cbn [bind]. exact NP.
Qed.
Lemma join_plain argsort :
  k = KTime \/ (exists p r, In p ps /\ assoc d (cm_coords (p_cm p)) = Some (M1 (CRange r))) ->
  exists p' ax first rest, index_of d D = Some ax /\ map p_cm ps = first :: rest /\
    join_patches argsort false drop ps = Ok p' /\ wf_patch p' /\ stacked ax (map p_data ps) (p_data p') /\
    merged_as D d (map p_cm ps) first (List.concat (map (values_of d) (map p_cm ps))) (p_cm p').
Proof.
  intros NT. destruct join_merge as (cm & p0 & pt & Eps & E & MA & _).
  assert (I0 : In p0 ps) by (rewrite Eps; left; reflexivity). pose proof (mb_join _ _ _ _ _ M) as J.
  destruct (steps_close_defined D d k (map p_cm ps) J) as [b SC].
  { destruct NT as [NT|(p & r & Ip & Er)]; [left; exact NT|right; exists (p_cm p), r; split; [apply in_map, Ip|exact Er]]. }
  assert (JC : joined_coords argsort false drop d (map p_cm ps) = Ok cm).
  { unfold joined_coords. rewrite E. cbn [bind]. rewrite SC. reflexivity. }
  destruct (join_build argsort false cm cm p0 I0 (ex_intro _ pt Eps) E JC MA) as (data & ax & EX & JP & WP & S).
  exists (mkPatch cm data), ax, (p_cm p0), (map p_cm pt). split; [exact EX|]. split; [rewrite Eps; reflexivity|]. auto.
Qed.

(** Patches that continue each other evenly. *)
Lemma even_values s cms : 0 < s -> joinable D d k cms -> ranges_along d s cms -> continues d s cms ->
  forall c t, cms = c :: t -> List.concat (map (values_of d) cms) = progression (start_of d c) s (zlen (List.concat (map (values_of d) cms))).
Proof.
  intros P J R C c t Ec. assert (C' : close_starts 0 1 s (start_of d c) (map (span_of d) cms)) by (rewrite Ec in *; exact C).
  assert (H : forall l a, (forall cm, In cm l -> In cm cms) -> close_starts 0 1 s a (map (span_of d) l) ->
    List.concat (map (values_of d) l) = progression a s (zlen (List.concat (map (values_of d) l)))).
  { induction l as [|x l IH]; intros a H Q; [reflexivity|]. cbn [map close_starts] in Q. unfold span_of at 1 in Q. destruct Q as [Q1 Q2].
    cbn [map List.concat]. rewrite zlen_app.
    destruct (range_along D d k cms s x J R P (H x (or_introl eq_refl))) as (r & Dr & Wr & Sr & _ & S1 & S2).
    destruct (dim_min_ok D d k cms x J (H x (or_introl eq_refl))) as (_ & _ & V & _). rewrite Dr in V. cbn [c_ints] in V.
    rewrite r_values_prog in V by exact Wr. rewrite (IH (a + zlen (values_of d x) * s)); [|intros cm I; apply H; right; exact I|].
    2:{ exact Q2. }
    rewrite <- progression_app by apply zlen_nonneg. rewrite zlen_progression, Z.max_r by apply zlen_nonneg. f_equal.
    rewrite S2, <- V, Sr. f_equal. lia. }
  apply H; [auto|exact C'].
Qed.
Lemma join_even argsort snap s : 0 < s -> ranges_along d s (map p_cm ps) -> continues d s (map p_cm ps) ->
  exists p' ax first rest c, index_of d D = Some ax /\ map p_cm ps = first :: rest /\
    join_patches argsort snap drop ps = Ok p' /\ wf_patch p' /\ stacked ax (map p_data ps) (p_data p') /\
    merged_as D d (map p_cm ps) first (List.concat (map (values_of d) (map p_cm ps))) (p_cm p') /\
    assoc d (cm_coords (p_cm p')) = Some (M1 c) /\
    c_values c = map Some (List.concat (map (values_of d) (map p_cm ps))).
Proof.
  intros P R C. destruct join_merge as (cm & p0 & pt & Eps & E & MA & Ed).
  assert (I0 : In p0 ps) by (rewrite Eps; left; reflexivity). pose proof (mb_join _ _ _ _ _ M) as J.
  pose proof (even_values s (map p_cm ps) P J R C (p_cm p0) (map p_cm pt)) as EV. rewrite Eps in EV at 1. specialize (EV eq_refl).
  set (n := zlen (List.concat (map (values_of d) (map p_cm ps)))) in *.
  assert (N2 : 2 <= n).
  { pose proof (mb_two _ _ _ _ _ M) as L. unfold n. rewrite Eps in L |- *. destruct pt as [|p1 pt]; [cbn in L; lia|].
    assert (G : forall p, In p ps -> 1 <= zlen (values_of d (p_cm p))).
    { intros p Ip. destruct (range_along D d k (map p_cm ps) s (p_cm p) J R P (in_map p_cm _ _ Ip)) as (r & _ & (_ & Wr & _) & _ & _ & _ & S2). lia. }
    cbn [map List.concat]. rewrite !zlen_app. pose proof (G p0 I0).
    assert (1 <= zlen (values_of d (p_cm p1))) by (apply G; rewrite Eps; right; left; reflexivity).
    pose proof (zlen_nonneg (List.concat (map (values_of d) (map p_cm pt)))). lia. }
  rewrite EV in Ed. unfold recf in Ed. cbn [recoord] in Ed. rewrite get_coord_even in Ed by lia. cbn [bind] in Ed.
  pose proof MA as (Wc & Dc & _).
  assert (JC : joined_coords argsort snap drop d (map p_cm ps) = Ok cm).
  { unfold joined_coords. rewrite E. cbn [bind]. rewrite (steps_close_ok D d k _ s J R). cbn [bind].
    destruct snap; cbn [andb]; [|reflexivity].
    rewrite (cm_snap_even argsort cm d (mkRange k (start_of d (p_cm p0)) (start_of d (p_cm p0) + s * n) s n) Wc); [reflexivity| |exact Ed|cbn; lia].
    rewrite Dc. apply (jn_dim _ _ _ _ J). }
  destruct (join_build argsort snap cm cm p0 I0 (ex_intro _ pt Eps) E JC MA) as (data & ax & EX & JP & WP & S).
  exists (mkPatch cm data), ax, (p_cm p0), (map p_cm pt), (CRange (mkRange k (start_of d (p_cm p0)) (start_of d (p_cm p0) + s * n) s n)).
  split; [exact EX|]. split; [rewrite Eps; reflexivity|]. do 4 (split; [assumption|]). split; [exact Ed|].
  cbn [c_values]. f_equal. rewrite EV. apply r_values_prog. unfold wf_range. cbn. lia.
Qed.
End Join.

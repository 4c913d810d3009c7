(** Facts behind MuteProps.v: the functions of the model. *)
From Verif Require Import Base BaseFacts CoordModel CoordSpec CoordProofs CoordProofs2 CoordProofs5 NdModel NdSpec NdProofs FrameModel
  ChunkModel CmModel CmSpec CmProofs CmProofs3 CmProofs4 ProcModel TaperProofs2 MuteModel MuteSpec MuteProofs.
From Coq Require Import Strings.String QArith Qabs Lqa Setoid Qfield Lia ZifyBool.
Local Open Scope Z_scope.
Local Open Scope list_scope.

(** ** The envelope *)
Lemma apply_envelope_muted {A} (mul : A -> Q -> A) p invert f region : wf_patch p ->
  (forall ix, inb (nd_shape (p_data p)) ix -> exists b, f ix = Some b /\ (b = true <-> region ix)) ->
  exists q, apply_envelope mul p invert f = Ok q /\ muted mul p q invert region.
Proof.
  intros W F. unfold apply_envelope. destruct p as [cm a]. cbn [p_cm p_data] in *.
  set (g := fun ix => match nd_get a ix, f ix with Some x, Some b => Some (mul x (envelope invert b)) | _, _ => None end).
  assert (P : Forall (fun n => 0 <= n) (nd_shape a)) by apply (wp_nd _ W).
  assert (T : exists b, nd_build (nd_shape a) g = Some b).
  { apply nd_build_total; [exact P|]. intros ix I. destruct (nd_get_total a ix (wp_nd _ W) I) as [x X].
    destruct (F _ I) as (b & B & _). unfold g. rewrite X, B. eexists; reflexivity. }
  destruct T as [b B]. rewrite B. destruct (nd_build_spec _ _ _ P B) as (S & Wb & G).
  destruct (new_patch_ok cm b (wp_cm _ W) Wb (wp_some _ W)) as [N _]; [rewrite S; exact (wp_shape _ W)|].
  rewrite N. eexists. split; [reflexivity|]. split; [reflexivity|]. split; [exact S|]. split; [exact Wb|].
  cbn [p_data]. intros ix I. destruct (G _ I) as (y & Y & Z). destruct (F _ I) as (t & Ft & R).
  unfold g in Y. destruct (nd_get a ix) as [x|]; [|discriminate]. rewrite Ft in Y. injection Y as <-.
  exists x. split; [reflexivity|]. rewrite Z. unfold envelope. split; intros H.
  - apply R in H. subst t. destruct invert; reflexivity.
  - destruct t; [destruct H; apply R; reflexivity|]. destruct invert; reflexivity.
Qed.

Lemma axis_at {A} (p : patch A) ax d : wf_patch p -> nth_error (cm_dims (p_cm p)) ax = Some d -> axis_of (p_cm p) d = Ok ax.
Proof.
  intros W H. unfold axis_of. destruct (index_of d (cm_dims (p_cm p))) as [n|] eqn:E.
  - f_equal. apply index_of_spec in E. destruct E as [E _].
    eapply NoDup_nth_error; [apply (wf_dims _ (wp_cm _ W))| |congruence]. apply nth_error_Some. congruence.
  - apply index_of_None in E. destruct E. eapply nth_error_In; exact H.
Qed.
Lemma shape_at {A} (p : patch A) ax d c : wf_patch p -> nth_error (cm_dims (p_cm p)) ax = Some d ->
  assoc d (cm_coords (p_cm p)) = Some (M1 c) -> nth_error (nd_shape (p_data p)) ax = Some (c_len c).
Proof.
  intros W H E. pose proof (wp_shape _ W) as F. revert ax H. induction F as [|x n l s D F IH]; intros [|ax] H; try discriminate.
  - cbn in *. injection H as ->. destruct D as (c' & E' & <-). rewrite E in E'. injection E' as <-. reflexivity.
  - cbn in *. apply IH. exact H.
Qed.

(** ** One dimension *)
Lemma memZ_In i ps : memZ i ps = true <-> In i ps.
Proof. unfold memZ. rewrite existsb_exists. split; [intros (x & I & E); apply Z.eqb_eq in E; subst; exact I|intros I; exists i; split; [exact I|apply Z.eqb_refl]]. Qed.

Lemma mem_dims d (l : list string) : mem d l = true <-> In d l.
Proof. apply mem_In'. Qed.

Lemma mute1_region {A} (mul : A -> Q -> A) p invert relative ax d c lo hi ps : wf_patch p ->
  nth_error (cm_dims (p_cm p)) ax = Some d -> assoc d (cm_coords (p_cm p)) = Some (M1 c) ->
  asks c relative false (SelPair lo hi) ps ->
  exists q, pt_line_mute1 mul p invert relative [(d, [lo; hi])] = Ok q /\
    muted mul p q invert (fun ix => exists i, nth_error ix ax = Some i /\ In i ps).
Proof.
  intros W H E K. unfold pt_line_mute1, named_dims. cbn [filter fst].
  rewrite (proj2 (mem_dims d _) (nth_error_In _ _ H)). cbn [bind Z.eqb zlen List.length].
  change (zlen [(d, [lo; hi])] =? zlen [(d, [lo; hi])]) with true. cbn [bind].
  rewrite (axis_at p ax d W H). cbn [bind]. rewrite E.
  destruct (c_sel_asks c relative false _ ps (wf_vals _ (wp_cm _ W) _ _ E) K) as (c' & ix & S & I & _).
  rewrite S. cbn [bind snd]. rewrite I. apply apply_envelope_muted; [exact W|].
  intros jx J. destruct (inb_axis _ _ _ _ J (shape_at p ax d c W H E)) as (i & Ni & _). rewrite Ni. cbn [option_map].
  eexists. split; [reflexivity|]. rewrite memZ_In. split; [intros L; eauto|intros (k & [= <-] & L); exact L].
Qed.

Lemma named_unknown {V} (dims : list string) (kw : list (string * V)) d v : In (d, v) kw -> ~ In d dims ->
  named_dims dims kw = Err ParameterError \/ named_dims dims kw = Err PatchCoordinateError.
Proof.
  intros I N. unfold named_dims. set (f := fun e : string * V => mem (fst e) dims).
  assert (L : (List.length (filter f kw) < List.length kw)%nat).
  { induction kw as [|e t IH]; [destruct I|]. cbn [filter List.length].
    assert (B : forall l, (List.length (filter f l) <= List.length l)%nat) by (induction l; cbn; [lia|destruct (f a); cbn; lia]).
    destruct I as [->|I].
    - destruct (f (d, v)) eqn:Ef; [unfold f in Ef; cbn in Ef; apply mem_dims in Ef; contradiction|]. specialize (B t). lia.
    - specialize (IH I). destruct (f e); cbn [List.length]; lia. }
  destruct (filter f kw) as [|e l] eqn:F; [left; reflexivity|].
  destruct (Z.eqb_spec (zlen (e :: l)) (zlen kw)) as [Q|]; [unfold zlen in Q; lia|right; reflexivity].
Qed.

Lemma mute1_refused {A} (mul : A -> Q -> A) p invert relative :
  pt_line_mute1 mul p invert relative [] = Err ParameterError /\
  (forall kw, 3 <= zlen kw -> pt_line_mute1 mul p invert relative kw = Err ParameterError) /\
  (forall d v, ~ In d (cm_dims (p_cm p)) -> pt_line_mute1 mul p invert relative [(d, v)] = Err ParameterError) /\
  (forall d v, zlen v <> 2 -> pt_line_mute1 mul p invert relative [(d, v)] = Err ParameterError).
Proof.
  split; [reflexivity|]. split; [|split].
  - intros [|a [|b [|c kw]]] L; unfold zlen in L; cbn [List.length] in L; try lia. reflexivity.
  - intros d v N. unfold pt_line_mute1, named_dims. cbn [filter fst].
    destruct (mem d (cm_dims (p_cm p))) eqn:E; [apply mem_dims in E; contradiction|]. reflexivity.
  - intros d v L. unfold pt_line_mute1, named_dims. cbn [filter fst].
    destruct (mem d (cm_dims (p_cm p))); [|reflexivity].
    change (zlen [(d, v)] =? zlen [(d, v)]) with true. cbn [bind].
    destruct v as [|a [|b [|c v]]]; try reflexivity. cbn in L. congruence.
Qed.

(** ** Labels *)
Lemma r_min_lowest r : wf_range r -> r_min r = lowest r.
Proof. intros (Hs & Hn & Hstop). unfold r_min, lowest. rewrite Hstop. nia. Qed.
Lemma r_max_highest r : wf_range r -> r_max r = highest r.
Proof. intros (Hs & Hn & Hstop). unfold r_max, highest. rewrite Hstop. nia. Qed.

Lemma offset_place r relative v : wf_range r -> offset (CRange r) relative v = Ok (place r relative v).
Proof.
  intros W. unfold offset. cbn [c_min c_max]. rewrite (r_min_lowest r W), (r_max_highest r W). reflexivity.
Qed.

Lemma extent_of r : wf_range r -> exists z, coord_range (CRange r) true = Ok z /\ to_fl (CRange r) z = extent r.
Proof.
  intros W. unfold coord_range. cbn [c_evenly negb andb c_min c_max].
  rewrite (r_min_lowest r W), (r_max_highest r W). eexists. split; reflexivity.
Qed.
Lemma num_pos r z : 0 < z -> (0 < number r z)%Q.
Proof. intros H. unfold number, inject_Z, Qlt. destruct (r_kind r); cbn; lia. Qed.
Lemma num_nonneg r z : 0 <= z -> (0 <= number r z)%Q.
Proof. intros H. unfold number, inject_Z, Qle. destruct (r_kind r); cbn; lia. Qed.
Lemma num_sub r a b : (number r a - number r b == number r (a - b))%Q.
Proof. unfold number, inject_Z, Qeq, Qminus, Qplus, Qopp. destruct (r_kind r); cbn; lia. Qed.
Lemma extent_pos r : wf_range r -> (0 < extent r)%Q.
Proof. intros (Hs & Hn & _). apply num_pos. unfold highest, lowest. lia. Qed.

Lemma offsets_of r : wf_range r -> exists xs, fl_offsets (CRange r) = Ok xs /\
  forall i, 0 <= i < r_len r -> znth xs i = Some (sample_at r i).
Proof.
  intros W. unfold fl_offsets. cbn [c_min c_ints]. eexists. split; [reflexivity|]. intros i I.
  rewrite znth_map, (r_values_prog r W), znth_progression by exact I. cbn [option_map].
  rewrite (r_min_lowest r W). reflexivity.
Qed.

(** ** Two lines *)
Definition fill_index (i1 i2 : bool) (f : option bool) : Prop :=
  (i1 = false -> i2 = false -> f = None) /\ (i1 = true -> i2 = false -> f = Some false) /\
  (i1 = false -> i2 = true -> f = Some true) /\ (i1 = true -> i2 = true -> f <> None).

Lemma filled_lines r1 r2 relative b1 b2 l1 l2 i1 i2 : wf_range r1 -> wf_range r2 ->
  bound_line r1 r2 relative (fst b1) (fst b2) l1 i1 -> bound_line r1 r2 relative (snd b1) (snd b2) l2 i2 ->
  exists f, filled (CRange r1) (CRange r2) relative b1 b2 = Ok (l1, l2, f) /\ fill_index i1 i2 f.
Proof.
  intros W1 W2 B1 B2. destruct b1 as [b1 b1'], b2 as [b2 b2']. cbn [fst snd] in *. unfold filled, fill_index. cbn [fst snd].
  inversion B1; subst; inversion B2; subst; cbn [fill];
    rewrite ?(offset_place _ _ _ W1), ?(offset_place _ _ _ W2); cbn [bind fst snd fill set_col negb];
    rewrite ?(offset_place _ _ _ W1), ?(offset_place _ _ _ W2); cbn [bind fst snd fill set_col negb line_of];
    eexists; (split; [reflexivity|]); repeat split; congruence.
Qed.

(** What is common to all two line mutes. *)
Lemma mute2_eq {A} (mul : A -> Q -> A) p invert relative d1 d2 a1 a2 df ds ds' r1 r2 rf rs b1 b2 l1 l2 i1 i2 : wf_patch p ->
  cm_dims (p_cm p) = df :: ds :: ds' ->
  nth_error (cm_dims (p_cm p)) a1 = Some d1 -> nth_error (cm_dims (p_cm p)) a2 = Some d2 ->
  assoc d1 (cm_coords (p_cm p)) = Some (M1 (CRange r1)) -> assoc d2 (cm_coords (p_cm p)) = Some (M1 (CRange r2)) ->
  assoc df (cm_coords (p_cm p)) = Some (M1 (CRange rf)) -> assoc ds (cm_coords (p_cm p)) = Some (M1 (CRange rs)) ->
  bound_line rf rs relative (fst b1) (fst b2) l1 i1 -> bound_line rf rs relative (snd b1) (snd b2) l2 i2 ->
  exists f, fill_index i1 i2 f /\
    (forall e, get_geometry (extent r1) (extent r2) l1 l2 f = Err e ->
       pt_line_mute2 mul p invert relative [(d1, b1); (d2, b2)] = Err e) /\
    (forall g region, get_geometry (extent r1) (extent r2) l1 l2 f = Ok g ->
       (forall i j, 0 <= i < r_len r1 -> 0 <= j < r_len r2 ->
          (inside g (extent r1) (extent r2) (sample_at r1 i, sample_at r2 j) = true <-> region (sample_at r1 i, sample_at r2 j))) ->
       exists q, pt_line_mute2 mul p invert relative [(d1, b1); (d2, b2)] = Ok q /\
         muted mul p q invert (sample_in r1 r2 a1 a2 region)).
Proof.
  intros W D N1 N2 E1 E2 Ef Es B1 B2.
  assert (W1 : wf_range r1) by apply (wf_vals _ (wp_cm _ W) _ _ E1).
  assert (W2 : wf_range r2) by apply (wf_vals _ (wp_cm _ W) _ _ E2).
  assert (Wf : wf_range rf) by apply (wf_vals _ (wp_cm _ W) _ _ Ef).
  assert (Ws : wf_range rs) by apply (wf_vals _ (wp_cm _ W) _ _ Es).
  destruct (filled_lines rf rs relative b1 b2 l1 l2 i1 i2 Wf Ws B1 B2) as (f & F & I).
  exists f. split; [exact I|].
  destruct (extent_of r1 W1) as (z1 & Z1 & X1). destruct (extent_of r2 W2) as (z2 & Z2 & X2).
  assert (Q : forall k, (do l <- named_dims (cm_dims (p_cm p)) [(d1, b1); (d2, b2)]; k l) = k [(d1, b1); (d2, b2)] :> result (patch A)).
  { intros k. unfold named_dims. cbn [filter fst]. rewrite (proj2 (mem_dims d1 _) (nth_error_In _ _ N1)), (proj2 (mem_dims d2 _) (nth_error_In _ _ N2)).
    change (zlen [(d1, b1); (d2, b2)] =? zlen [(d1, b1); (d2, b2)]) with true. reflexivity. }
  unfold pt_line_mute2. rewrite Q. rewrite D. cbv beta iota.
  rewrite (axis_at p a1 d1 W N1), (axis_at p a2 d2 W N2). cbn [bind].
  unfold coord_of. rewrite Ef, Es, E1, E2. cbn [bind]. rewrite F. cbn [bind].
  rewrite Z1, Z2. cbn [bind]. rewrite X1, X2. split.
  - intros e G. rewrite G. reflexivity.
  - intros g region G R. rewrite G. cbn [bind].
    destruct (offsets_of r1 W1) as (xs & Xs & Xn). destruct (offsets_of r2 W2) as (ys & Ys & Yn).
    rewrite Xs, Ys. cbn [bind]. apply apply_envelope_muted; [exact W|]. intros ix J.
    destruct (inb_axis _ _ _ _ J (shape_at p a1 d1 _ W N1 E1)) as (i & Ni & Hi).
    destruct (inb_axis _ _ _ _ J (shape_at p a2 d2 _ W N2 E2)) as (j & Nj & Hj). cbn [c_len] in Hi, Hj.
    rewrite Ni, Nj, Xn, Yn by assumption. eexists. split; [reflexivity|]. rewrite R by assumption.
    split; [intros H; exists i, j; auto|]. intros (i' & j' & Hi' & Hj' & H).
    rewrite Ni in Hi'. rewrite Nj in Hj'. injection Hi' as <-. injection Hj' as <-. exact H.
Qed.

(** Lemmas behind CmProps.v: updating some coordinates. *)
From Verif Require Import Base BaseFacts CoordModel CoordSpec CoordProofs CoordProofs2 CoordProofs3
  CoordProofs4 CoordProofs5 NdModel NdSpec NdProofs NdProofs2 FrameModel FrameProofs5 ChunkModel CmModel CmSpec
  CmProofs CmProofs2 CmProofs3.
From Coq Require Import Strings.String ZifyBool Sorting.Permutation Sorting.Sorted.
Ltac Zify.zify_post_hook ::= Z.div_mod_to_equations.
Local Open Scope Z_scope.
Local Open Scope list_scope.

(** [kw] gives new values [newf] to some existing coordinates. *)
Definition gives (cm : cman) (kw : list (string * kval)) (newf : string -> option mcoord) : Prop :=
  NoDup (map fst kw) /\
  (forall n, match assoc n kw with
             | None => newf n = None
             | Some v => exists m ds, newf n = Some m /\ okm m /\ assoc n (cm_dmap cm) = Some ds /\
                 (v = KTuple ds (VCoord m) \/ (v = KSimple (VCoord m) /\ In n (cm_dims cm)))
             end).

Definition latest (cm : cman) (newf : string -> option mcoord) (n : string) : option mcoord :=
  match newf n with Some m => Some m | None => assoc n (cm_coords cm) end.
(** A dimension of [n] gets another length. *)
Definition resized (cm : cman) (newf : string -> option mcoord) (n : string) : Prop :=
  exists ds d c c', assoc n (cm_dmap cm) = Some ds /\ In d ds /\ newf d = Some (M1 c') /\
    assoc d (cm_coords cm) = Some (M1 c) /\ c_len c <> c_len c'.

Definition fmS (e : string * kval) : mcoord :=
  match snd e with KTuple _ (VCoord m) | KSimple (VCoord m) => recf m | _ => MNP [] end.
Definition fdS (e : string * kval) : list string :=
  match snd e with KTuple ds _ => ds | _ => [fst e] end.

Lemma cm_update_sub cm kw newf : wf_cm cm -> plain_names cm -> gives cm kw newf ->
  (forall d m, In d (cm_dims cm) -> newf d = Some m -> exists c, m = M1 c) ->
  (forall n m ds, newf n = Some m -> assoc n (cm_dmap cm) = Some ds -> ds <> [] ->
     Forall2 (fun d k => exists c, latest cm newf d = Some (M1 c) /\ c_len c = k) ds (m_shape m)) ->
  exists cm', cm_update cm kw = Ok cm' /\ wf_cm cm' /\ cm_dims cm' = cm_dims cm /\
    (forall n m, newf n = Some m -> assoc n (cm_coords cm') = Some (recf m) /\
       assoc n (cm_dmap cm') = assoc n (cm_dmap cm)) /\
    (forall n, newf n = None -> resized cm newf n ->
       assoc n (cm_coords cm') = None /\ assoc n (cm_dmap cm') = None) /\
    (forall n, newf n = None -> ~ resized cm newf n ->
       assoc n (cm_coords cm') = option_map recf (assoc n (cm_coords cm)) /\
       assoc n (cm_dmap cm') = assoc n (cm_dmap cm)).
Proof.
  intros W PN [ND G] DM SH.
  assert (IN : forall e, In e kw -> exists m ds, newf (fst e) = Some m /\ okm m /\
     assoc (fst e) (cm_dmap cm) = Some ds /\ (forall d, In d ds -> In d (cm_dims cm)) /\ is_none e = false /\
     fmS e = recf m /\ fdS e = ds /\ coord_item (cm_dims cm) e = Ok (recf m, ds, false)).
  { intros [n v] J. apply (in_assoc _ _ _ ND) in J. specialize (G n). rewrite J in G. cbn [fst].
    destruct G as (m & ds & Nm & K & D & V). exists m, ds.
    destruct (con_coord _ (wf_con _ W) n ds D) as (m0 & _ & S & _).
    split; [exact Nm|]. split; [exact K|]. split; [exact D|]. split; [exact S|].
    destruct V as [->|[-> I]].
    - split; [reflexivity|]. split; [reflexivity|]. split; [reflexivity|].
      destruct (coord_item_tuple (cm_dims cm) n ds m K (or_introl S)) as (m' & R & _ & _ & C). rewrite C.
      replace (recf m) with m' by (unfold recf; rewrite R; reflexivity). f_equal. f_equal.
      destruct (strs_eqb ds [n]) eqn:Q; [|reflexivity]. apply strs_eqb_eq in Q. subst ds.
      rewrite (proj2 (mem_In' _ _)); [reflexivity|]. apply S. cbn; auto.
    - split; [reflexivity|]. split; [reflexivity|]. destruct (wf_dim_coord cm n W I) as (c & _ & _ & D').
      rewrite D in D'. injection D' as ->. split; [reflexivity|].
      unfold coord_item. cbn [fst snd]. rewrite (proj2 (mem_In' _ _) I). cbn [cval_coord].
      destruct (recf_spec m K) as (-> & _). reflexivity. }
  assert (NN : nones kw = []).
  { unfold nones. assert (forall e, In e kw -> is_none e = false).
    { intros e J. destruct (IN e J) as (m & ds & H). apply H. }
    revert H. generalize kw. clear. induction kw as [|e t IH]; cbn; intros H; [reflexivity|].
    rewrite (H e (or_introl eq_refl)). apply IH. intros; apply H; right; assumption. }
  assert (FF : filter (fun _ : string * kval => false) (adds kw) = []).
  { generalize (adds kw). clear. induction l; cbn; auto. }
  assert (DI : filter (fun x => negb (mem x (nones kw)))
     (cm_dims cm ++ map fst (filter (fun _ : string * kval => false) (adds kw))) = cm_dims cm).
  { rewrite FF, NN. cbn [map]. rewrite app_nil_r. generalize (cm_dims cm). clear. intros l. induction l; cbn in *; congruence. }
  assert (CI : forall e, In e kw -> coord_item (cm_dims cm) e = Ok (fmS e, fdS e, false)).
  { intros e J. destruct (IN e J) as (m & ds & _ & _ & _ & _ & _ & -> & -> & C). exact C. }
  destruct (cm_update_gen cm kw fmS fdS (fun _ => false)) as (C & D & EU & NC & ND' & KCD & H1 & H2 & H3).
  - exact W.
  - exact ND.
  - intros e J. destruct (IN e J) as (m & ds & _ & _ & Dn & _). apply PN, (wf_keys_iff cm W), assoc_In. eauto.
  - intros e J _. apply CI. exact J.
  - intros e J _ I. destruct (IN e J) as (m & ds & Nm & K & Dn & _ & _ & -> & -> & _).
    destruct (wf_dim_coord cm _ W I) as (c0 & _ & _ & Dd). rewrite Dd in Dn. injection Dn as <-.
    split; [reflexivity|]. destruct (DM _ _ I Nm) as [c ->]. destruct (recf_M1 c K) as (c' & -> & _). cbn. eauto.
  - intros e J _. rewrite DI. apply CI. exact J.
  - rewrite DI in EU.
    assert (L1 : forall n m, newf n = Some m -> assoc n C = Some (recf m) /\ assoc n D = assoc n (cm_dmap cm)).
    { intros n m Nm. pose proof (G n) as Gn. destruct (assoc n kw) as [v|] eqn:V; [|congruence].
      destruct Gn as (m' & ds & Nm' & K & Dn & Vv). rewrite Nm in Nm'. injection Nm' as <-.
      assert (v <> KNone) as Nv by (destruct Vv as [->|[-> _]]; discriminate).
      destruct (H1 n v V Nv) as [-> ->]. destruct (IN (n, v)) as (m2 & ds2 & Q1 & _ & Q2 & _ & _ & -> & -> & _).
      { apply assoc_in. exact V. }
      cbn [fst] in *. split; congruence. }
    assert (LR : forall n, lost cm kw fmS n <-> resized cm newf n).
    { intros n. unfold lost, resized. rewrite NN. split.
      - intros [[]|(ds & d & Dn & J & [[]|(e & k & c & Je & _ & <- & Id & Lm & Ec & Nk)])].
        destruct (IN e Je) as (m & ds' & Nm & K & _ & _ & _ & Fm & _). destruct (DM _ _ Id Nm) as [c' ->].
        exists ds, (fst e), c, c'. repeat split; auto. rewrite Fm in Lm. destruct (recf_M1 c' K) as (c2 & R & L2 & _).
        rewrite R in Lm. cbn in Lm. injection Lm as Lm. congruence.
      - intros (ds & d & c & c' & Dn & J & Nd & Ec & Nk). right. exists ds, d. split; [exact Dn|]. split; [exact J|].
        right. pose proof (G d) as Gd. destruct (assoc d kw) as [v|] eqn:V; [|congruence]. apply assoc_in in V.
        destruct (IN (d, v) V) as (m & ds' & Nm & K & _ & _ & Nn & Fm & _). cbn [fst] in *.
        rewrite Nd in Nm. injection Nm as <-. destruct (recf_M1 c' K) as (c2 & R & L2 & _).
        exists (d, v), (c_len c2), c. repeat split; auto.
        + destruct (con_coord _ (wf_con _ W) n ds Dn) as (_ & _ & S & _). apply S. exact J.
        + rewrite Fm, R. reflexivity.
        + congruence. }
    assert (KN : forall n, newf n = None -> assoc n kw = None).
    { intros n Q. pose proof (G n) as Gn. destruct (assoc n kw); [|reflexivity]. destruct Gn as (? & ? & ? & _). congruence. }
    assert (L2 : forall n, newf n = None -> resized cm newf n -> assoc n C = None /\ assoc n D = None).
    { intros n Q R. apply H2; [left; apply KN; exact Q|]. apply LR. exact R. }
    assert (L3 : forall n, newf n = None -> ~ resized cm newf n ->
       assoc n C = option_map recf (assoc n (cm_coords cm)) /\ assoc n D = assoc n (cm_dmap cm)).
    { intros n Q R. apply H3; [apply KN; exact Q|]. rewrite LR. exact R. }
    assert (DL : forall d, In d (cm_dims cm) -> exists c c', latest cm newf d = Some (M1 c) /\
       assoc d C = Some (M1 c') /\ c_len c' = c_len c /\ assoc d D = Some [d]).
    { intros d J. destruct (wf_dim_coord cm d W J) as (c0 & E0 & W0 & D0). unfold latest.
      destruct (newf d) as [m|] eqn:Nm.
      - destruct (DM d m J Nm) as [c ->]. destruct (L1 d _ Nm) as [Q1 Q2].
        pose proof (G d) as Gd. destruct (assoc d kw); [|congruence]. destruct Gd as (m' & ? & Q & K & _).
        rewrite Nm in Q. injection Q as <-. destruct (recf_M1 c K) as (c' & R & L & _).
        exists c, c'. rewrite Q1, R, Q2, D0. auto.
      - assert (~ resized cm newf d) as NR.
        { intros (ds & d1 & c & c' & Dn & J1 & Nd & _). rewrite D0 in Dn. injection Dn as <-.
          destruct J1 as [<-|[]]. congruence. }
        destruct (L3 d Nm NR) as [Q1 Q2]. rewrite E0 in *. cbn in Q1.
        destruct (recf_M1 c0) as (c' & R & L & _); [apply wf_okc; exact W0|].
        exists c0, c'. rewrite Q1, R, Q2, D0. auto. }
    assert (KP : forall n ds, assoc n D = Some ds -> assoc n (cm_dmap cm) = Some ds /\
        exists m, latest cm newf n = Some m /\ okm m /\ assoc n C = Some (recf m) /\
          (newf n = None -> ~ resized cm newf n)).
    { intros n ds E. unfold latest. destruct (newf n) as [m|] eqn:Nm.
      - destruct (L1 n m Nm) as [Q1 Q2]. split; [congruence|]. exists m. split; [reflexivity|].
        pose proof (G n) as Gn. destruct (assoc n kw); [|congruence]. destruct Gn as (m' & ? & Q & K & _).
        split; [congruence|]. split; [exact Q1|discriminate].
      - assert (NR : ~ resized cm newf n) by (intros R; destruct (L2 n Nm R); congruence).
        destruct (L3 n Nm NR) as [Q1 Q2]. rewrite Q2 in E. split; [exact E|].
        destruct (con_coord _ (wf_con _ W) n ds E) as (m & Em & _). exists m. rewrite Em in Q1.
        split; [exact Em|]. split; [apply wf_okm, (wf_vals _ W _ _ Em)|]. split; [exact Q1|auto]. }
    assert (W' : wf_cm (mkCm (cm_dims cm) C D)).
    { split; cbn; auto.
      - split; cbn.
        + intros d J. destruct (DL d J) as (c & c' & _ & -> & _ & ->). eauto.
        + intros n ds E. destruct (KP n ds E) as (Dn & m & Lm & K & -> & NR).
          destruct (con_coord _ (wf_con _ W) n ds Dn) as (m0 & Em & S & Fd).
          exists (recf m). split; [reflexivity|]. split; [exact S|].
          destruct ds as [|d0 ds0]; [left; reflexivity|right]. set (ds := d0 :: ds0) in *.
          destruct (recf_spec m K) as (_ & -> & _).
          assert (F : Forall2 (fun d k => exists c, latest cm newf d = Some (M1 c) /\ c_len c = k) ds (m_shape m)).
          { unfold latest in Lm. destruct (newf n) as [m1|] eqn:Nm.
            - injection Lm as ->. apply (SH n m ds Nm Dn). discriminate.
            - rewrite Em in Lm. injection Lm as ->. destruct Fd as [Fd|Fd]; [discriminate|].
              specialize (NR eq_refl). eapply Forall2_impl_in; [|exact Fd].
              intros d k Jd (c & Ec & <-). unfold latest. destruct (newf d) as [m1|] eqn:Nd; [|eauto].
              destruct (DM d m1 (S d Jd) Nd) as [c' ->]. exists c'. split; [reflexivity|].
              destruct (Z.eq_dec (c_len c) (c_len c')) as [Q|Q]; [congruence|].
              exfalso. apply NR. exists ds, d, c, c'. auto. }
          eapply Forall2_impl_in; [|exact F]. intros d k Jd (c & Lc & <-).
          destruct (DL d (S d Jd)) as (c1 & c' & Lc1 & E1 & L1' & _). exists c'. split; [exact E1|congruence].
      - apply (wf_dims _ W).
      - intros n. apply KCD.
      - intros n ds E. destruct (KP n ds E) as (Dn & _). apply (wf_distinct _ W _ _ Dn).
      - intros n m E. assert (In n (map fst D)) as J by (apply KCD, assoc_In; eauto).
        apply assoc_In in J. destruct J as [ds J]. destruct (KP n ds J) as (_ & m1 & _ & K & E1 & _).
        rewrite E in E1. injection E1 as ->. apply recf_spec. exact K. }
    exists (mkCm (cm_dims cm) C D). split; [rewrite EU; apply build_wf; exact W'|]. split; [exact W'|]. cbn. auto.
Qed.

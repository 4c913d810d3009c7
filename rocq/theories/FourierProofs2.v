(** Lemmas behind FourierProps.v: managers built from a full list of coordinates
    with their dimensions, and coordinates cut off from their dimensions. *)
From Verif Require Import Base BaseFacts CoordModel CoordSpec CoordProofs NdModel NdSpec NdProofs NdProofs2
  FrameModel FrameProofs5 ChunkModel CmModel CmSpec CmProofs CmProofs2 CmProofs3 ProcModel ProcSpec
  FourierModel FourierSpec FourierProofs.
From Coq Require Import Strings.String ZifyBool Sorting.Permutation.
Ltac Zify.zify_post_hook ::= Z.div_mod_to_equations.
Local Open Scope Z_scope.
Local Open Scope list_scope.

(** ** A manager from coordinates with dimensions *)
Definition ktup (v : kval) : option (list string * mcoord) :=
  match v with KTuple ds (VCoord m) => Some (ds, m) | _ => None end.

(** Every coordinate of [kw] fits the dimensions [dims]. *)
Record tuples_fit (kw : list (string * kval)) (dims : list string) : Prop :=
  { tf_keys : NoDup (map fst kw);
    tf_dims : NoDup dims;
    tf_all : forall n v, assoc n kw = Some v -> exists ds m, v = KTuple ds (VCoord m) /\ okm m /\ NoDup ds /\
      (forall d, In d ds -> In d dims) /\
      (ds = [] \/ Forall2 (fun d k => exists c, assoc d kw = Some (KTuple [d] (VCoord (M1 c))) /\ c_len c = k) ds (m_shape m));
    tf_each : forall d, In d dims -> exists c, assoc d kw = Some (KTuple [d] (VCoord (M1 c))) }.

Lemma get_cm_tuples kw dims : tuples_fit kw dims ->
  exists cm, get_cm kw (Some dims) None = Ok cm /\ wf_cm cm /\ cm_dims cm = dims /\
    map fst (cm_coords cm) = map fst kw /\
    (forall n, assoc n (cm_coords cm) = match assoc n kw with Some (KTuple _ (VCoord m)) => Some (recf m) | _ => None end) /\
    (forall n, assoc n (cm_dmap cm) = match assoc n kw with Some (KTuple ds (VCoord _)) => Some ds | _ => None end).
Proof.
  intros [ND DD AL EA]. unfold get_cm.
  assert (IT : forall e, In e kw -> coord_item dims e = Ok (fmC e, fdC e, false)).
  { intros [n v] J. apply (in_assoc _ _ _ ND) in J. destruct (AL n v J) as (ds & m & -> & K & NDs & S & F).
    destruct (coord_item_tuple dims n ds m K (or_introl S)) as (m' & R & Wm & Sh & E). rewrite E.
    unfold fmC, fdC. cbn [snd]. unfold recf. rewrite R. f_equal. f_equal.
    destruct (strs_eqb ds [n]) eqn:Q; [|reflexivity]. apply strs_eqb_eq in Q. subst ds.
    rewrite (proj2 (mem_In' n dims)); [reflexivity|]. apply S. cbn; auto. }
  rewrite (coord_dim_map_ok dims kw fmC fdC (fun _ => false) IT ND). cbn [bind].
  assert (filter (fun _ : string * kval => false) kw = []) as -> by (clear; induction kw; cbn; auto).
  cbn [map]. rewrite app_nil_r.
  set (C := map (fun e => (fst e, fmC e)) kw). set (D := map (fun e => (fst e, fdC e)) kw).
  assert (AC : forall n, assoc n C = match assoc n kw with Some (KTuple _ (VCoord m)) => Some (recf m) | _ => None end).
  { intros n. unfold C. rewrite (assoc_map fmC). destruct (assoc n kw) as [v|] eqn:Q; [|reflexivity].
    destruct (AL n v Q) as (ds & m & -> & _). reflexivity. }
  assert (AD : forall n, assoc n D = match assoc n kw with Some (KTuple ds (VCoord _)) => Some ds | _ => None end).
  { intros n. unfold D. rewrite (assoc_map fdC). destruct (assoc n kw) as [v|] eqn:Q; [|reflexivity].
    destruct (AL n v Q) as (ds & m & -> & _). reflexivity. }
  assert (ONE : forall d c, assoc d kw = Some (KTuple [d] (VCoord (M1 c))) ->
     exists c', assoc d C = Some (M1 c') /\ c_len c' = c_len c /\ wf_coord c').
  { intros d c Q. destruct (AL d _ Q) as (ds & m & E & K & _). assert (m = M1 c) by congruence. subst m.
    destruct (recf_M1 c K) as (c' & R & Lc & Wc). exists c'. rewrite AC, Q, R. auto. }
  assert (FIT : forall n ds m, assoc n kw = Some (KTuple ds (VCoord m)) ->
      ds = [] \/ Forall2 (fun d k => exists c, assoc d C = Some (M1 c) /\ c_len c = k) ds (m_shape (recf m))).
  { intros n ds m Q. destruct (AL n _ Q) as (ds' & m' & E & K & NDs & S & F).
    assert (ds' = ds) by congruence. assert (m' = m) by congruence. subst ds' m'.
    destruct F as [F|F]; [left; exact F|right]. destruct (recf_spec m K) as (_ & Sh & _). rewrite Sh.
    eapply Forall2_impl; [|exact F]. cbn. intros d k (c & A & B). destruct (ONE d c A) as (c' & X & Y & _). exists c'. rewrite Y. auto. }
  assert (KC : map fst C = map fst kw) by (unfold C; rewrite map_map; reflexivity).
  assert (KD : map fst D = map fst kw) by (unfold D; rewrite map_map; reflexivity).
  assert (ACC : accepted dims C D).
  { split; [|split].
    - intros d I. destruct (EA d I) as (c & Q). destruct (ONE d c Q) as (c' & X & _). eauto.
    - intros n ds I. apply in_assoc in I; [|rewrite KD; exact ND]. rewrite AD in I.
      destruct (assoc n kw) as [v|] eqn:Q; [|discriminate]. destruct (AL n v Q) as (ds' & m & -> & K & NDs & S & F).
      assert (ds' = ds) by congruence. subst ds'. exists (recf m). destruct (FIT n ds m Q) as [->|FF].
      + exists []. rewrite AC, Q. split; [reflexivity|]. split; [constructor|right; reflexivity].
      + exists (m_shape (recf m)). rewrite AC, Q. split; [reflexivity|]. split; [|left; reflexivity].
        assert (forall d, In d ds -> In d dims) as S' by exact S. clear - FF S'. induction FF as [|d k ds s H FF IH]; constructor.
        * split; [apply S'; left; reflexivity|]. destruct H as (c & X & Y). exists (M1 c). split; [exact X|]. cbn. rewrite Y. reflexivity.
        * apply IH. intros; apply S'; right; assumption.
    - intros d I. destruct (EA d I) as (c & Q). rewrite AD, Q. reflexivity. }
  destruct (build_cm_accepted dims C D) as [B _]. rewrite (B ACC).
  exists (mkCm dims C D). split; [reflexivity|]. cbn [cm_dims cm_coords cm_dmap].
  split; [|split; [reflexivity|split; [exact KC|split; [exact AC|exact AD]]]].
  constructor; cbn [cm_dims cm_coords cm_dmap].
  - constructor; cbn [cm_dims cm_coords cm_dmap].
    + intros d I. destruct (EA d I) as (c & Q). destruct (ONE d c Q) as (c' & X & _). rewrite AD, Q. eauto.
    + intros n ds Q. rewrite AD in Q. destruct (assoc n kw) as [v|] eqn:Qv; [|discriminate].
      destruct (AL n v Qv) as (ds' & m & -> & K & NDs & S & F). assert (ds' = ds) by congruence. subst ds'.
      exists (recf m). rewrite AC, Qv. split; [reflexivity|]. split; [exact S|]. destruct (FIT n ds m Qv) as [->|FF]; [left; reflexivity|right; exact FF].
  - exact DD.
  - rewrite KC. exact ND.
  - rewrite KD. exact ND.
  - intros n. rewrite KC, KD. auto.
  - intros n ds Q. rewrite AD in Q. destruct (assoc n kw) as [v|] eqn:Qv; [|discriminate].
    destruct (AL n v Qv) as (ds' & m & -> & K & NDs & S & F). assert (ds' = ds) by congruence. subst ds'. exact NDs.
  - intros n m Q. rewrite AC in Q. destruct (assoc n kw) as [v|] eqn:Qv; [|discriminate].
    destruct (AL n v Qv) as (ds' & m' & -> & K & _). assert (recf m' = m) by congruence. subst m. apply recf_spec. exact K.
Qed.

(** ** Cutting coordinates off *)
Lemma limit_key_rest dims d : limit_key dims d = true ->
  str_contains "_step" d = true \/ str_contains "_min" d = true \/ str_contains "_max" d = true.
Proof.
  assert (DR : forall p k s, str_contains p (str_drop k s) = true -> str_contains p s = true).
  { intros p k. induction k as [|k IH]; intros s; cbn [str_drop]; [auto|].
    destruct s as [|a s]; [auto|]. intros H. cbn [str_contains]. rewrite (IH s H). apply orb_true_r. }
  unfold limit_key. intros H. apply orb_true_iff in H. destruct H as [H|H].
  - apply existsb_exists in H. destruct H as (x & _ & H). apply andb_prop in H. destruct H as [_ H].
    rewrite !orb_true_iff in H. destruct H as [[H|H]|H]; apply DR in H; auto.
  - apply andb_prop in H. destruct H as [_ H]. rewrite !orb_true_iff in H. tauto.
Qed.

Lemma unlimited_key dims d : unlimited d -> limit_key dims d = false.
Proof.
  intros (A & B & C). apply not_true_is_false. intros H. apply limit_key_rest in H. destruct H as [H|[H|H]]; congruence.
Qed.

Lemma set_all_nil {A} (l : list (string * A)) : NoDup (map fst l) -> set_all l [] = l.
Proof.
  intros ND. unfold set_all.
  assert (H : forall acc, NoDup (map fst (acc ++ l)) -> fold_left (fun acc e => assoc_set (fst e) (snd e) acc) l acc = acc ++ l).
  { clear. induction l as [|[k v] l IH]; intros acc ND; cbn [fold_left]; [symmetry; apply app_nil_r|].
    cbn [fst snd]. rewrite assoc_set_new.
    - rewrite IH; rewrite <- app_assoc; [reflexivity|exact ND].
    - rewrite map_app in ND. apply NoDup_remove in ND. intros I. apply ND. apply in_or_app. left. exact I. }
  apply (H []). exact ND.
Qed.

Lemma disassociate_ok cm names : wf_cm cm -> NoDup names -> (forall n, In n names -> In n (cm_dims cm)) ->
  (forall n, In n names -> unlimited n) ->
  exists cm', disassociate cm names = Ok cm' /\ wf_cm cm' /\
    cm_dims cm' = filter (fun d => negb (mem d names)) (cm_dims cm) /\
    (forall n, assoc n (cm_coords cm') = if mem n names then option_map recf (assoc n (cm_coords cm))
                                         else if droppedb cm names n then None else option_map recf (assoc n (cm_coords cm))) /\
    (forall n, assoc n (cm_dmap cm') = if mem n names then Some []
                                       else if droppedb cm names n then None else assoc n (cm_dmap cm)).
Proof.
  intros W ND IN UN. unfold disassociate.
  set (f := fun n => match assoc n (cm_coords cm) with Some m => m | None => MNP [] end).
  assert (FC : forall n, In n names -> assoc n (cm_coords cm) = Some (f n) /\ exists c, f n = M1 c /\ wf_coord c).
  { intros n I. destruct (wf_dim_coord cm n W (IN n I)) as (c & A & B & _). unfold f. rewrite A. eauto. }
  set (new := map (fun n => (n, KTuple [] (VCoord (f n)))) names).
  assert (map_result (fun n => match assoc n (cm_coords cm) with
                     | Some m => Ok (n, KTuple [] (VCoord m)) | None => Err KeyError end) names = Ok new) as ->.
  { apply map_result_map. intros n I. destruct (FC n I) as [-> _]. reflexivity. }
  cbn [bind]. destruct (drop_coords_spec cm names W) as (cm1 & E1 & W1 & D1 & C1 & M1').
  rewrite E1. cbn [bind fst].
  assert (KN : map fst new = names) by (unfold new; rewrite map_map; apply map_id).
  rewrite set_all_nil by (rewrite KN; exact ND).
  assert (AN : forall n, assoc n new = if mem n names then Some (KTuple [] (VCoord (f n))) else None).
  { intros n. destruct (mem n names) eqn:Q.
    - apply mem_In' in Q. apply in_assoc; [rewrite KN; exact ND|]. unfold new. apply in_map_iff. eauto.
    - apply mem_false in Q. apply assoc_None. rewrite KN. exact Q. }
  assert (NO : forall n, In n names -> ~ In n (cm_dims cm1)).
  { intros n I J. rewrite D1 in J. apply filter_In in J. destruct J as [_ J]. apply negb_true_iff, mem_false in J. contradiction. }
  assert (NS : nones new = []).
  { unfold nones, new. clear. induction names as [|x l IH]; cbn; [reflexivity|exact IH]. }
  assert (AS : adds new = new).
  { unfold adds, new. clear. induction names as [|x l IH]; cbn; [reflexivity|f_equal; exact IH]. }
  assert (IE : forall e, In e new -> exists n, In n names /\ e = (n, KTuple [] (VCoord (f n)))).
  { intros e J. unfold new in J. apply in_map_iff in J. destruct J as (n & <- & I). eauto. }
  assert (CI : forall dims e, In e new -> coord_item dims e = Ok (fmC e, fdC e, false)).
  { intros dims e J. destruct (IE e J) as (n & I & ->). destruct (FC n I) as (_ & c & Fc & Wc).
    destruct (coord_item_tuple dims n [] (f n)) as (m' & R & _ & _ & E).
    - rewrite Fc. apply wf_okc. exact Wc.
    - left. intros d [].
    - rewrite E. unfold fmC, fdC. cbn [snd]. unfold recf. rewrite R. reflexivity. }
  destruct (cm_update_gen cm1 new fmC fdC (fun _ => false) W1) as (C & D & E & K1 & K2 & K3 & L1 & L2 & L3).
  - rewrite KN. exact ND.
  - intros e J. destruct (IE e J) as (n & I & ->). apply unlimited_key, UN. exact I.
  - intros e J _. apply CI. exact J.
  - intros e J _ I. destruct (IE e J) as (n & In' & ->). exfalso. apply (NO n In' I).
  - intros e J _. apply CI. exact J.
  - rewrite E. rewrite NS in *. cbn [nones filter] in *.
    assert (filter (fun _ : string * kval => false) (adds new) = []) as X by (clear; induction (adds new); cbn; auto).
    rewrite X in *. cbn [map] in *. rewrite app_nil_r in *.
    assert (filter (fun x => negb (mem x [])) (cm_dims cm1) = cm_dims cm1) as Y.
    { clear. induction (cm_dims cm1); cbn; [reflexivity|f_equal; assumption]. }
    rewrite Y in *.
    assert (NL : forall n, ~ lost cm1 new fmC n).
    { intros n [H|(ds & d & _ & _ & [H|H])]; [rewrite NS in H; destruct H|rewrite NS in H; destruct H|].
      destruct H as (e & k & c & J & _ & <- & I & _). destruct (IE e J) as (n' & In' & ->). apply (NO n' In' I). }
    assert (AC : forall n, assoc n C = if mem n names then option_map recf (assoc n (cm_coords cm))
         else if droppedb cm names n then None else option_map recf (assoc n (cm_coords cm))).
    { intros n. destruct (mem n names) eqn:Q.
      - destruct (L1 n (KTuple [] (VCoord (f n)))) as [-> _]; [rewrite AN, Q; reflexivity|discriminate|].
        apply mem_In' in Q. destruct (FC n Q) as [-> _]. reflexivity.
      - destruct (L3 n) as [-> _]; [rewrite AN, Q; reflexivity|apply NL|]. rewrite C1. destruct (droppedb cm names n); reflexivity. }
    assert (AD : forall n, assoc n D = if mem n names then Some []
         else if droppedb cm names n then None else assoc n (cm_dmap cm)).
    { intros n. destruct (mem n names) eqn:Q.
      - destruct (L1 n (KTuple [] (VCoord (f n)))) as [_ ->]; [rewrite AN, Q; reflexivity|discriminate|]. reflexivity.
      - destruct (L3 n) as [_ ->]; [rewrite AN, Q; reflexivity|apply NL|]. apply M1'. }
    assert (DL : forall d k, dim_len cm1 d k -> exists c, assoc d C = Some (M1 c) /\ c_len c = k).
    { intros d k (c & A & B). rewrite C1 in A. destruct (droppedb cm names d) eqn:Q; [discriminate|].
      assert (wf_coord c) as Wc by apply (wf_vals _ W _ _ A).
      destruct (recf_M1 c (wf_okc _ Wc)) as (c' & R & Lc & _). exists c'. rewrite AC, A, Q. cbn [option_map]. rewrite R.
      destruct (mem d names); split; congruence. }
    assert (CON : forall n ds, assoc n D = Some ds -> exists m, assoc n C = Some m /\ wf_mcoord m /\
        (forall d, In d ds -> In d (cm_dims cm1)) /\ NoDup ds /\
        (ds = [] \/ Forall2 (fun d k => exists c, assoc d C = Some (M1 c) /\ c_len c = k) ds (m_shape m))).
    { intros n ds Q. rewrite AD in Q. rewrite AC. destruct (mem n names) eqn:Mn.
      - apply mem_In' in Mn. destruct (FC n Mn) as (A & c & Fc & Wc). rewrite A. cbn [option_map]. exists (recf (f n)).
        assert (ds = []) by congruence. subst ds. split; [reflexivity|]. rewrite Fc.
        split; [apply recf_spec; apply wf_okc; exact Wc|]. split; [intros d []|]. split; [constructor|auto].
      - destruct (droppedb cm names n) eqn:Dn; [discriminate|].
        assert (Q1 : assoc n (cm_dmap cm1) = Some ds) by (rewrite M1', Dn; exact Q).
        destruct (con_coord _ (wf_con _ W1) n ds Q1) as (m & A & S & F). rewrite C1, Dn in A. rewrite A. cbn [option_map].
        assert (wf_mcoord m) as Wm by apply (wf_vals _ W _ _ A).
        destruct (recf_spec m (wf_okm m Wm)) as (_ & Sh & Wr). exists (recf m). split; [reflexivity|]. split; [exact Wr|].
        split; [exact S|]. split; [apply (wf_distinct _ W1 _ _ Q1)|]. destruct F as [F|F]; [auto|right]. rewrite Sh.
        eapply Forall2_impl; [|exact F]. cbn. apply DL. }
    assert (DIM : forall d, In d (cm_dims cm1) -> (exists c, assoc d C = Some (M1 c)) /\ assoc d D = Some [d]).
    { intros d I. destruct (wf_dim_coord cm1 d W1 I) as (c & A & _ & Dd). split.
      - destruct (DL d (c_len c)) as (c' & X' & _); [exists c; auto|eauto].
      - destruct (L3 d) as [_ ->]; [|apply NL|exact Dd]. rewrite AN. replace (mem d names) with false; [reflexivity|].
        symmetry. apply mem_false. intros J. apply (NO d J I). }
    destruct (build_cm_accepted (cm_dims cm1) C D) as [B _]. rewrite B.
    2: { split; [|split].
      - intros d I. destruct (DIM d I) as [(c & X') _]. eauto.
      - intros n ds I. apply in_assoc in I; [|exact K2]. destruct (CON n ds I) as (m & A & _ & S & _ & F).
        exists m. destruct F as [->|F].
        + exists []. split; [exact A|]. split; [constructor|auto].
        + exists (m_shape m). split; [exact A|]. split; [|auto].
          clear - F S. induction F as [|d k ds s H F IH]; constructor.
          * split; [apply S; left; reflexivity|]. destruct H as (c & X & Y). exists (M1 c). split; [exact X|]. cbn. rewrite Y. reflexivity.
          * apply IH. intros; apply S; right; assumption.
      - intros d I. apply (DIM d I). }
    eexists. split; [reflexivity|]. cbn [cm_dims cm_coords cm_dmap]. split; [|split; [exact D1|split; [exact AC|exact AD]]].
    constructor; cbn [cm_dims cm_coords cm_dmap].
    + constructor; cbn [cm_dims cm_coords cm_dmap]; [exact DIM|].
      intros n ds Q. destruct (CON n ds Q) as (m & A & _ & S & _ & F). exists m. auto.
    + apply (wf_dims _ W1).
    + exact K1.
    + exact K2.
    + intros n I. apply K3. exact I.
    + intros n ds Q. destruct (CON n ds Q) as (m & _ & _ & _ & N & _). exact N.
    + intros n m Q. assert (In n (map fst D)) as I by (apply K3, assoc_In; eauto).
      apply assoc_In in I. destruct I as [ds I]. destruct (CON n ds I) as (m' & A & Wm & _). congruence.
Qed.

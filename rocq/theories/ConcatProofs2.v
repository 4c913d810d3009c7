(** Lemmas behind ConcatProps.v: one group end to end along a dimension. *)
From Verif Require Import Base ProcProofs2 BaseFacts CoordModel CoordSpec CoordProofs CoordProofs2 CoordProofs3
  CoordProofs4 CoordProofs5 NdModel NdSpec NdProofs NdProofs2 FrameModel FrameProofs5 ChunkModel CmModel CmSpec
  CmProofs CmProofs2 CmProofs3 CmProofs4 CmProofs12 CmProofs13 CmProofs17 MergeModel MergeSpec MergeProofs MergeProofs5 MergeProofs6 MergeProofs7 BinOpModel ConcatModel ConcatSpec ConcatProofs.
From Coq Require Import Strings.String Strings.Ascii ZifyBool.
Ltac Zify.zify_post_hook ::= Z.div_mod_to_equations.
Local Open Scope Z_scope.
Local Open Scope list_scope.

(** ** An update depends on the coordinate its argument makes *)
Lemma coord_items_cong dims kw kw' : Forall2 (fun e e' => fst e = fst e' /\ coord_item dims e = coord_item dims e') kw kw' ->
  forall acc, coord_items dims kw acc = coord_items dims kw' acc.
Proof.
  induction 1 as [|e e' kw kw' [E1 E2] F IH]; intros acc; [reflexivity|]. cbn [coord_items]. rewrite <- E2, <- E1.
  destruct (coord_item dims e) as [[[m ds] new]|]; [|reflexivity]. cbn [bind]. destruct acc as [[c d] nd]. apply IH.
Qed.
Lemma assoc_set_cong {B} (R : string * B -> string * B -> Prop) d v v' l : (forall e, R e e) -> R (d, v) (d, v') ->
  Forall2 R (assoc_set d v l) (assoc_set d v' l).
Proof.
  intros R0 R1. induction l as [|[n x] l IH]; cbn [assoc_set]; [repeat constructor; exact R1|].
  destruct (String.eqb d n) eqn:E; constructor; auto. clear - R0. induction l; constructor; auto.
Qed.
Lemma cm_update_cong cm d v v' : limit_key (cm_dims cm) d = false -> cval_coord v = cval_coord v' ->
  cm_update cm [(d, KSimple v)] = cm_update cm [(d, KSimple v')].
Proof.
  intros L E. unfold cm_update. cbn [filter fst]. rewrite L. cbn [negb filter is_none snd map app].
  assert (CI : forall dims, coord_item dims (d, KSimple v) = coord_item dims (d, KSimple v')).
  { intros dims. unfold coord_item. cbn [fst snd]. rewrite E. reflexivity. }
  assert (CM : forall dims, coord_dim_map [(d, KSimple v)] dims = coord_dim_map [(d, KSimple v')] dims).
  { intros dims. unfold coord_dim_map. rewrite (coord_items_cong dims [(d, KSimple v)] [(d, KSimple v')]); [reflexivity|].
    constructor; [|constructor]. cbn [fst]. auto. }
  rewrite CM. destruct (coord_dim_map [(d, KSimple v')] (cm_dims cm)) as [[[c dm] dims]|]; [|reflexivity]. cbn [bind].
  destruct (dim_change_drop cm c dm) as [ind|]; [|reflexivity]. cbn [bind].
  destruct (drop_coords cm ind) as [kept|]; [|reflexivity]. cbn [bind]. destruct (as_kwargs (fst kept)) as [base|]; [|reflexivity].
  cbn [bind apply_limits fold_left set_all fst snd]. unfold get_cm, coord_dim_map.
  rewrite (coord_items_cong _ (assoc_set d (KSimple v) base) (assoc_set d (KSimple v') base)); [reflexivity|].
  apply assoc_set_cong; [auto|]. cbn [fst]. auto.
Qed.

(** ** Data *)
Lemma index_of_In d D : In d D -> exists ax, index_of d D = Some ax /\ nth_error D ax = Some d.
Proof.
  intros I. assert (E : exists ax, index_of d D = Some ax).
  { induction D as [|x l IH]; [destruct I|]. cbn. destruct (String.eqb_spec d x) as [Q|Q]; [eauto|].
    destruct I as [->|I]; [congruence|]. destruct (IH I) as [n ->]. eexists; reflexivity. }
  destruct E as [ax E]. exists ax. split; [exact E|]. apply (index_of_spec _ _ _ E).
Qed.

Section Group.
Context {A : Type} (D : list string) (d : string) (qs : list (patch A)).
Hypothesis (WF : forall q, In q qs -> wf_patch q).
Hypothesis (DM : forall q, In q qs -> cm_dims (p_cm q) = D).
Hypothesis (EQ : forall e q q', In e D -> e <> d -> In q qs -> In q' qs -> length_of e q = length_of e q').

Lemma g_shape_len q : In q qs -> List.length (nd_shape (p_data q)) = List.length D.
Proof. intros I. pose proof (wp_shape _ (WF q I)) as F. rewrite (DM q I) in F. symmetry. eapply Forall2_length. exact F. Qed.
Lemma g_shape_at n e q : In q qs -> nth_error D n = Some e -> nth_error (nd_shape (p_data q)) n = Some (length_of e q).
Proof. intros I N. destruct (shape_at D q n e (WF q I) (DM q I) N) as (c & Ec & L). unfold length_of. rewrite Ec. exact L. Qed.
Lemma g_nodup q : In q qs -> NoDup D.
Proof. intros I. rewrite <- (DM q I). apply wf_dims, (wp_cm _ (WF q I)). Qed.
Lemma g_off_axis ax q q' : nth_error D ax = Some d -> In q qs -> In q' qs ->
  put (nd_shape (p_data q)) ax 0 = put (nd_shape (p_data q')) ax 0.
Proof.
  intros X Ip Iq. apply list_ext. intros n. destruct (Nat.eq_dec ax n) as [<-|N].
  - assert (ax < List.length D)%nat by (apply nth_error_Some; congruence).
    rewrite !nth_put_same by (rewrite g_shape_len; assumption). reflexivity.
  - rewrite !nth_put_other by exact N. destruct (nth_error D n) as [e|] eqn:E.
    + rewrite (g_shape_at n e q Ip E), (g_shape_at n e q' Iq E). f_equal. apply EQ; auto; [eapply nth_error_In; exact E|].
      intros ->. apply N. apply (proj1 (NoDup_nth_error D) (g_nodup q Ip)); [apply nth_error_Some; congruence|congruence].
    + apply nth_error_None in E. rewrite !(proj2 (nth_error_None _ _)) by (rewrite g_shape_len; assumption). reflexivity.
Qed.
Lemma g_total ax : nth_error D ax = Some d -> total (map (axis_len ax) (map p_data qs)) = total (map (length_of d) qs).
Proof.
  intros X. f_equal. rewrite map_map. apply map_ext_in. intros q I. unfold axis_len. rewrite (g_shape_at ax d q I X). reflexivity.
Qed.
Lemma g_data q0 ax : In q0 qs -> nth_error D ax = Some d ->
  exists data, nd_concat ax (map p_data qs) = Ok data /\ wf_nd data /\ stacked ax (map p_data qs) data /\
    nd_shape data = put (nd_shape (p_data q0)) ax (total (map (length_of d) qs)).
Proof.
  intros I X. destruct (nd_concat_ok ax (map p_data qs) (p_data q0)) as (data & E & W & S & T).
  - apply in_map, I.
  - intros a Ia. apply in_map_iff in Ia as (q & <- & Iq). split; [apply (wp_nd _ (WF q Iq))|].
    rewrite g_shape_len by exact Iq. apply nth_error_Some. congruence.
  - intros a Ia. apply in_map_iff in Ia as (q & <- & Iq). apply g_off_axis; assumption.
  - exists data. rewrite (g_total ax X) in S. auto.
Qed.
End Group.

(** ** One group *)
Lemma group_ok {A} D d (q0 : patch A) qt c c' v :
  (forall q, In q (q0 :: qt) -> wf_patch q) -> (forall q, In q (q0 :: qt) -> cm_dims (p_cm q) = D) ->
  (forall e q q', In e D -> e <> d -> In q (q0 :: qt) -> In q' (q0 :: qt) -> length_of e q = length_of e q') ->
  plain_names (p_cm q0) -> In d D -> assoc d (cm_coords (p_cm q0)) = Some (M1 c) ->
  cval_coord v = recoord (M1 c') -> okc c' -> c_len c' = total (map (length_of d) (q0 :: qt)) ->
  (do cs <- map_result (fun p => dim_coord d (p_cm p)) (q0 :: qt); joined_values cs) = Ok v ->
  exists ax out, index_of d D = Some ax /\ nth_error D ax = Some d /\
    (do a <- output_array (q0 :: qt) ax false; do cm <- new_coords (q0 :: qt) d false; new_patch cm a) = Ok out /\
    wf_patch out /\ cm_dims (p_cm out) = D /\ stacked ax (map p_data (q0 :: qt)) (p_data out) /\
    assoc d (cm_coords (p_cm out)) = Some (recf (M1 c')) /\
    (forall n, n <> d -> In d (dims_of (p_cm q0) n) -> c_len c <> c_len c' -> lacks_coord out n) /\
    (forall n, n <> d -> ~ (In d (dims_of (p_cm q0) n) /\ c_len c <> c_len c') ->
       assoc n (cm_coords (p_cm out)) = option_map recf (assoc n (cm_coords (p_cm q0))) /\
       assoc n (cm_dmap (p_cm out)) = assoc n (cm_dmap (p_cm q0))).
Proof.
  intros WF DM EQ PN J E CV K L JV. set (qs := q0 :: qt) in *. assert (I0 : In q0 qs) by (left; reflexivity).
  pose proof (WF q0 I0) as W0. pose proof (wp_cm _ W0) as Wc. pose proof (DM q0 I0) as D0.
  assert (J0 : In d (cm_dims (p_cm q0))) by (rewrite D0; exact J).
  destruct (index_of_In d D J) as (ax & IX & X).
  destruct (g_data D d qs WF DM EQ q0 ax I0 X) as (a & Ea & Wa & Sa & Sh).
  destruct (one_update (p_cm q0) d c c' Wc PN J0 E K) as (cm & EU & W' & D' & Nd & Gone & Kept & Dm).
  assert (LK : limit_key (cm_dims (p_cm q0)) d = false).
  { apply PN. apply assoc_In. eauto. }
  assert (EC : new_coords qs d false = Ok cm).
  { unfold new_coords, qs. fold qs. cbv iota. destruct (map_result (fun p => dim_coord d (p_cm p)) qs) as [cs|]; [|discriminate].
    cbn [bind] in JV |- *. rewrite JV. cbn [bind]. rewrite (cm_update_cong _ d v (VCoord (M1 c')) LK); [exact EU|]. exact CV. }
  assert (EO : output_array qs ax false = Ok a).
  { unfold output_array. rewrite (map_result_map _ p_data) by reflexivity. exact Ea. }
  destruct (recf_M1 c' K) as (c2 & R1 & R2 & _).
  assert (SH : Forall2 (dim_len cm) D (nd_shape a)).
  { rewrite Sh. pose proof (wp_shape _ W0) as F. rewrite D0 in F.
    apply (put_Forall2 (dim_len (p_cm q0)) (dim_len cm) D (nd_shape (p_data q0)) ax d _ F).
    - apply (g_nodup D qs WF DM q0 I0).
    - exact X.
    - exists c2. rewrite Nd, R1. split; [reflexivity|]. unfold qs in L |- *. lia.
    - intros e n Ie Ne (ce & Ee & Le). assert (Ke : okc ce) by (apply wf_okc; exact (wf_vals _ Wc _ _ Ee)).
      destruct (recf_M1 ce Ke) as (ce2 & Q1 & Q2 & _). exists ce2. rewrite (Kept e Ne), Ee; [cbn [option_map]; rewrite Q1; split; [reflexivity|lia]|].
      intros [Q _]. unfold dims_of in Q. destruct (wf_dim_coord (p_cm q0) e Wc) as (? & _ & _ & De); [rewrite D0; exact Ie|].
      rewrite De in Q. destruct Q as [Q|[]]. congruence. }
  assert (NE : cm_dims cm <> []) by (rewrite D'; apply (wp_some _ W0)).
  assert (SH' : Forall2 (dim_len cm) (cm_dims cm) (nd_shape a)) by (rewrite D', D0; exact SH).
  exists ax, (mkPatch cm a). split; [exact IX|]. split; [exact X|]. split.
  { rewrite EO. cbn [bind]. rewrite EC. cbn [bind]. unfold new_patch.
    assert (cm_shape cm = Ok (nd_shape a)) as ->.
    { clear - NE SH'. unfold cm_shape. destruct (cm_dims cm) as [|x t]; [congruence|]. revert SH'. generalize (x :: t). intros l F.
      induction F as [|y n l s (c & Ec & Lc) F IH]; [reflexivity|]. cbn [map_result]. rewrite Ec. cbn [m_len m_shape bind]. rewrite IH. cbn [bind]. rewrite Lc. reflexivity. }
    cbn [bind]. rewrite (proj2 (CmProofs.zlist_eqb_eq _ _) eq_refl). reflexivity. }
  split; [split; cbn [p_cm p_data]; assumption|]. cbn [p_cm p_data]. split; [congruence|]. split; [exact Sa|]. split; [exact Nd|].
  split.
  - intros n N I Q. destruct (Gone n N I Q). split; assumption.
  - intros n N Q. split; [apply Kept; assumption|]. apply Dm. right. exact Q.
Qed.

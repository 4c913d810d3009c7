(** Lemmas behind CmProps.v: update_coords, set_dims and the refusals of select and
    sort. *)
From Verif Require Import Base BaseFacts CoordModel CoordSpec CoordProofs CoordProofs2 CoordProofs3
  CoordProofs4 CoordProofs5 NdModel NdSpec NdProofs NdProofs2 NdProofs3 FrameModel FrameProofs5 ChunkModel CmModel CmSpec
  CmProofs CmProofs2 CmProofs3 CmProofs5 CmProofs10 CmProofs12 CmProofs13 CmProofs14 CmProofs16.
From Coq Require Import Strings.String ZifyBool Sorting.Permutation Sorting.Sorted.
Ltac Zify.zify_post_hook ::= Z.div_mod_to_equations.
Local Open Scope Z_scope.
Local Open Scope list_scope.

Lemma shape_of cm s : wf_cm cm -> cm_dims cm <> [] -> Forall2 (dim_len cm) (cm_dims cm) s -> cm_shape cm = Ok s.
Proof.
  intros _ NE F. unfold cm_shape. destruct (cm_dims cm) as [|d t] eqn:D; [congruence|]. clear D NE. revert F. generalize (d :: t). intros l F.
  induction F as [|x n l s (c & E & L) F IH]; [reflexivity|]. cbn [map_result]. rewrite E. cbn [m_len m_shape bind]. rewrite IH. cbn [bind]. rewrite L. reflexivity.
Qed.

Lemma filter_id {B} (f : B -> bool) l : (forall x, In x l -> f x = true) -> filter f l = l.
Proof.
  induction l as [|x t IH]; intros H; cbn [filter]; [reflexivity|]. rewrite (H x (or_introl eq_refl)). f_equal. apply IH. intros; apply H; right; assumption.
Qed.

(** Replacing the coordinate of a dimension. *)
Lemma pt_update_dim {A} (p : patch A) d c c' : wf_patch p -> plain_names (p_cm p) -> In d (cm_dims (p_cm p)) ->
  assoc d (cm_coords (p_cm p)) = Some (M1 c) -> wf_coord c' ->
  (c_len c' = c_len c -> exists p', pt_update_coords p [(d, KSimple (VCoord (M1 c')))] = Ok p' /\ wf_patch p' /\
     p_data p' = p_data p /\ cm_dims (p_cm p') = cm_dims (p_cm p) /\
     (forall n, assoc n (cm_dmap (p_cm p')) = assoc n (cm_dmap (p_cm p))) /\
     forall n, match (if String.eqb n d then Some (M1 c') else assoc n (cm_coords (p_cm p))), assoc n (cm_coords (p_cm p')) with
               | Some m, Some m' => carried m m' (full (m_shape m))
               | None, None => True | _, _ => False end) /\
  (c_len c' <> c_len c -> pt_update_coords p [(d, KSimple (VCoord (M1 c')))] = Err CoordDataError).
Proof.
  intros W PN J E Wc'. pose proof (wp_cm _ W) as Wc.
  destruct (one_update (p_cm p) d c c' Wc PN J E (wf_okc _ Wc')) as (cm' & EU & W' & D' & Nd & Gone & Kept & Dm).
  assert (SE : forall x, c_len c' = x -> Forall2 (dim_len cm') (cm_dims cm') (map (fun y => match assoc y (cm_coords cm') with Some (M1 c0) => c_len c0 | _ => 0 end) (cm_dims cm'))).
  { intros x _. assert (Q : forall l, (forall y, In y l -> In y (cm_dims cm')) -> Forall2 (dim_len cm') l (map (fun y => match assoc y (cm_coords cm') with Some (M1 c0) => c_len c0 | _ => 0 end) l)); [|apply Q; auto].
    induction l as [|y t IH]; intros Q; cbn [map]; constructor; [|apply IH; intros; apply Q; right; assumption].
    destruct (wf_dim_coord _ y W' (Q y (or_introl eq_refl))) as (cy & Ey & _). exists cy. rewrite Ey. auto. }
  destruct (recf_M1 c' (wf_okc _ Wc')) as (c2 & R1 & R2 & _).
  split; intros L.
  - assert (C : forall n, match (if String.eqb n d then Some (M1 c') else assoc n (cm_coords (p_cm p))) with Some m => wf_mcoord m /\ assoc n (cm_coords cm') = Some (recf m) | None => assoc n (cm_coords cm') = None end).
    { intros n. destruct (String.eqb_spec n d) as [->|N]; [split; [exact Wc'|exact Nd]|].
      rewrite (Kept n N) by (intros [_ Q]; lia). destruct (assoc n (cm_coords (p_cm p))) as [m|] eqn:En; [|reflexivity]. split; [apply (wf_vals _ Wc _ _ En)|reflexivity]. }
    assert (SH : Forall2 (dim_len cm') (cm_dims cm') (nd_shape (p_data p))).
    { rewrite D'. eapply Forall2_impl_in; [|apply (wp_shape _ W)]. cbv beta. intros y n Jy (cy & Ey & Ly). pose proof (C y) as Cy. clear C. rename Cy into C.
      destruct (String.eqb y d) eqn:Q; [apply String.eqb_eq in Q; subst y|].
      - exists c2. rewrite R1 in C. split; [apply C|]. rewrite E in Ey. injection Ey as <-. lia.
      - rewrite Ey in C. destruct C as [Wy C]. destruct (recf_M1 cy (wf_okc _ Wy)) as (cy2 & Ry & Ly2 & _). exists cy2. rewrite C, Ry. split; [reflexivity|lia]. }
    exists (mkPatch cm' (p_data p)).
    assert (NE : cm_dims cm' <> []) by (rewrite D'; apply (wp_some _ W)).
    split.
    { unfold pt_update_coords. rewrite EU. cbn [bind]. unfold new_patch. rewrite (shape_of cm' _ W' NE SH). cbn [bind].
      rewrite (proj2 (zlist_eqb_eq _ _) eq_refl). reflexivity. }
    split; [split; cbn [p_cm p_data]; [exact W'|apply (wp_nd _ W)|exact NE|exact SH]|]. split; [reflexivity|]. split; [exact D'|].
    split; [intros n; apply Dm; right; intros [_ Q]; lia|].
    intros n. specialize (C n). cbn [p_cm]. destruct (if String.eqb n d then _ else _) as [m|]; [|rewrite C; exact Logic.I].
    destruct C as [Wm ->]. apply carried_recf; [apply wf_okm, Wm|apply carried_refl, Wm].
  - unfold pt_update_coords. rewrite EU. cbn [bind]. unfold new_patch.
    assert (NE : cm_dims cm' <> []) by (rewrite D'; apply (wp_some _ W)).
    rewrite (shape_of cm' _ W' NE (SE _ eq_refl)). cbn [bind].
    destruct (zlist_eqb _ _) eqn:Q; [|reflexivity]. exfalso. apply zlist_eqb_eq in Q.
    pose proof (wp_shape _ W) as F. rewrite <- Q, D' in F. clear Q SE EU D' Dm Kept Gone NE PN W' W Wc.
    revert J F. generalize (cm_dims (p_cm p)) at 1 2 3. intros l. induction l as [|y t IH]; intros J F; [destruct J|].
    cbn [map] in F. inversion F as [|? ? ? ? Hy F']; subst. destruct J as [->|J]; [|apply IH; assumption].
    rewrite Nd, R1 in Hy. destruct Hy as (c3 & E3 & L3). rewrite E in E3. injection E3 as <-. lia.
Qed.

(** A coordinate that is not there yet (or not a dimension) is added on known
    dimensions. *)
Lemma pt_update_new {A} (p : patch A) n ds m : wf_patch p -> plain_names (p_cm p) ->
  limit_key (cm_dims (p_cm p)) n = false -> ~ In n (cm_dims (p_cm p)) -> NoDup ds ->
  (forall d, In d ds -> In d (cm_dims (p_cm p))) -> wf_mcoord m ->
  (ds = [] \/ Forall2 (dim_len (p_cm p)) ds (m_shape m)) ->
  exists p', pt_update_coords p [(n, KTuple ds (VCoord m))] = Ok p' /\ wf_patch p' /\
     p_data p' = p_data p /\ cm_dims (p_cm p') = cm_dims (p_cm p) /\
     (forall k, assoc k (cm_dmap (p_cm p')) = if String.eqb k n then Some ds else assoc k (cm_dmap (p_cm p))) /\
     forall k, match (if String.eqb k n then Some m else assoc k (cm_coords (p_cm p))), assoc k (cm_coords (p_cm p')) with
               | Some m, Some m' => carried m m' (full (m_shape m))
               | None, None => True | _, _ => False end.
Proof.
  intros W PN LK NI ND SB Wm SH. pose proof (wp_cm _ W) as Wc. set (cm := p_cm p) in *.
  set (kw := [(n, KTuple ds (VCoord m))]).
  destruct (recf_spec m (wf_okm _ Wm)) as (R1 & R2 & R3).
  assert (NE : strs_eqb ds [n] = false).
  { destruct (strs_eqb ds [n]) eqn:Q; [|reflexivity]. apply strs_eqb_eq in Q. subst ds. exfalso. apply NI, SB. left; reflexivity. }
  assert (CI : coord_item (cm_dims cm) (n, KTuple ds (VCoord m)) = Ok (recf m, ds, false)).
  { destruct (coord_item_tuple (cm_dims cm) n ds m (wf_okm _ Wm) (or_introl SB)) as (m' & R & _ & _ & C).
    rewrite C, NE. rewrite R1 in R. injection R as <-. reflexivity. }
  assert (DI : filter (fun x => negb (mem x (nones kw))) (cm_dims cm ++ map fst (filter (fun _ : string * kval => false) (adds kw))) = cm_dims cm).
  { cbn. rewrite app_nil_r. apply filter_id. intros; reflexivity. }
  destruct (cm_update_gen cm kw (fun _ => recf m) (fun _ => ds) (fun _ => false)) as (C & D & EU & NC & ND' & KCD & H1 & H2 & H3).
  - exact Wc.
  - repeat constructor; intros [].
  - intros e [<-|[]]. exact LK.
  - intros e [<-|[]] _. exact CI.
  - intros e [<-|[]] _ Q. contradiction.
  - rewrite DI. intros e [<-|[]] _. exact CI.
  - rewrite DI in EU.
    assert (NL : forall k, k <> n -> ~ lost cm kw (fun _ => recf m) k).
    { intros k N [[]|(ds' & d & _ & _ & [[]|(e & l & c & [<-|[]] & _ & Q & Q2 & _)])]. cbn in Q. subst d. contradiction. }
    assert (LC : forall k, assoc k C = if String.eqb k n then Some (recf m) else option_map recf (assoc k (cm_coords cm))).
    { intros k. destruct (String.eqb_spec k n) as [->|N].
      - apply (H1 n (KTuple ds (VCoord m))); [cbn [assoc kw]; rewrite String.eqb_refl; reflexivity|discriminate].
      - apply H3; [cbn [assoc kw]; destruct (String.eqb_spec k n); [congruence|reflexivity]|apply NL, N]. }
    assert (LD : forall k, assoc k D = if String.eqb k n then Some ds else assoc k (cm_dmap cm)).
    { intros k. destruct (String.eqb_spec k n) as [->|N].
      - apply (H1 n (KTuple ds (VCoord m))); [cbn [assoc kw]; rewrite String.eqb_refl; reflexivity|discriminate].
      - apply H3; [cbn [assoc kw]; destruct (String.eqb_spec k n); [congruence|reflexivity]|apply NL, N]. }
    assert (DL : forall d k, In d (cm_dims cm) -> dim_len cm d k -> dim_len (mkCm (cm_dims cm) C D) d k).
    { intros d k J (c & E & L). unfold dim_len. cbn [cm_coords]. rewrite LC. destruct (String.eqb_spec d n) as [->|N]; [contradiction|].
      rewrite E. cbn [option_map]. destruct (recf_M1 c) as (c2 & Q1 & Q2 & _); [apply wf_okc; exact (wf_vals _ Wc _ _ E)|]. exists c2. rewrite Q1. split; [reflexivity|lia]. }
    assert (CON : consistent (mkCm (cm_dims cm) C D)).
    { split; cbn [cm_dims cm_dmap cm_coords].
      - intros d J. destruct (wf_dim_coord cm d Wc J) as (c & E & Wd & Dd). rewrite LC, LD. destruct (String.eqb_spec d n) as [->|N]; [contradiction|].
        rewrite E, Dd. cbn [option_map]. destruct (recf_M1 c (wf_okc _ Wd)) as (c2 & Q1 & _). rewrite Q1. eauto.
      - intros k ds' E. rewrite LD in E. rewrite LC. destruct (String.eqb_spec k n) as [->|N].
        + injection E as <-. exists (recf m). split; [reflexivity|]. split; [exact SB|]. destruct SH as [->|SH]; [left; reflexivity|right].
          rewrite R2. eapply Forall2_impl_in; [|exact SH]. cbv beta. intros d x J Hd. apply DL; [apply SB, J|exact Hd].
        + destruct (con_coord _ (wf_con _ Wc) k ds' E) as (m0 & Em & S & F). rewrite Em. cbn [option_map]. exists (recf m0).
          destruct (recf_spec m0 (wf_okm _ (wf_vals _ Wc _ _ Em))) as (_ & Q2 & _).
          split; [reflexivity|]. split; [exact S|]. destruct F as [F|F]; [left; exact F|right]. rewrite Q2.
          eapply Forall2_impl_in; [|exact F]. cbv beta. intros d x J Hd. apply DL; [apply S, J|exact Hd]. }
    assert (WF : wf_cm (mkCm (cm_dims cm) C D)).
    { split; cbn [cm_dims cm_dmap cm_coords].
      - exact CON.
      - apply (wf_dims _ Wc).
      - exact NC.
      - exact ND'.
      - intros k J. apply KCD, J.
      - intros k ds' E. rewrite LD in E. destruct (String.eqb k n); [injection E as <-; exact ND|apply (wf_distinct _ Wc _ _ E)].
      - intros k m0 E. rewrite LC in E. destruct (String.eqb k n); [injection E as <-; exact R3|].
        destruct (assoc k (cm_coords cm)) as [m1|] eqn:E1; [|discriminate]. injection E as <-. apply recf_spec, wf_okm, (wf_vals _ Wc _ _ E1). }
    assert (SHP : Forall2 (dim_len (mkCm (cm_dims cm) C D)) (cm_dims cm) (nd_shape (p_data p))).
    { eapply Forall2_impl_in; [|apply (wp_shape _ W)]. cbv beta. intros d x J Hd. apply DL; assumption. }
    exists (mkPatch (mkCm (cm_dims cm) C D) (p_data p)). split.
    { unfold pt_update_coords. fold cm. fold kw. rewrite EU, (build_wf _ _ _ WF). cbn [bind]. unfold new_patch.
      rewrite (shape_of (mkCm (cm_dims cm) C D) (nd_shape (p_data p)) WF); [|apply (wp_some _ W)|exact SHP]. cbn [bind].
      rewrite (proj2 (zlist_eqb_eq _ _) eq_refl). reflexivity. }
    split; [split; cbn [p_cm p_data]; [exact WF|apply (wp_nd _ W)|apply (wp_some _ W)|exact SHP]|].
    split; [reflexivity|]. split; [reflexivity|]. split; [exact LD|].
    intros k. cbn [p_cm cm_coords]. rewrite LC. destruct (String.eqb k n).
    + apply carried_recf; [apply wf_okm, Wm|apply carried_refl, Wm].
    + destruct (assoc k (cm_coords cm)) as [m1|] eqn:E1; [|exact Logic.I]. cbn [option_map].
      apply carried_recf; [apply wf_okm, (wf_vals _ Wc _ _ E1)|apply carried_refl, (wf_vals _ Wc _ _ E1)].
Qed.

(** set_dims with one pair: an associated coordinate takes over a dimension. *)
Lemma index_of_in x l i : index_of x l = Some i -> nth_error l i = Some x.
Proof.
  revert i. induction l as [|y t IH]; intros i; cbn [index_of]; [discriminate|].
  destruct (String.eqb_spec x y) as [->|]; [intros [= <-]; reflexivity|]. destruct (index_of x t); [|discriminate]. intros [= <-]. apply IH. reflexivity.
Qed.
Lemma assoc_app' {B} k (a b : list (string * B)) : assoc k (a ++ b) = match assoc k a with Some v => Some v | None => assoc k b end.
Proof. induction a as [|[x v] t IH]; cbn [assoc app]; [reflexivity|]. destruct (String.eqb k x); [reflexivity|exact IH]. Qed.
Lemma zip_swap old new l : NoDup l -> forall d, In d l -> zip_get l (map (swap_name old new) l) d = Ok (swap_name old new d).
Proof.
  intros ND d J. unfold zip_get.
  assert (Q : assoc d (rev (combine l (map (swap_name old new) l))) = Some (swap_name old new d)); [|rewrite Q; reflexivity].
  induction l as [|x t IH]; [destruct J|]. inversion ND as [|? ? N ND']; subst. cbn [map combine rev]. rewrite assoc_app'.
  destruct (string_dec d x) as [->|Nx].
  - assert (assoc x (rev (combine t (map (swap_name old new) t))) = None) as ->.
    { destruct (assoc x (rev (combine t (map (swap_name old new) t)))) eqn:E; [|reflexivity]. exfalso. apply N.
      apply assoc_in in E. apply in_rev in E. eapply in_combine_l, E. }
    cbn [assoc]. rewrite String.eqb_refl. reflexivity.
  - destruct J as [J|J]; [congruence|]. rewrite (IH ND' J). reflexivity.
Qed.
Lemma pt_set_dims_ok {A} (p : patch A) old new c : wf_patch p -> In old (cm_dims (p_cm p)) -> ~ In new (cm_dims (p_cm p)) ->
  assoc new (cm_coords (p_cm p)) = Some (M1 c) -> assoc new (cm_dmap (p_cm p)) = Some [old] ->
  exists p', pt_set_dims p [(old, new)] = Ok p' /\ wf_patch p' /\ p_data p' = p_data p /\
    cm_coords (p_cm p') = cm_coords (p_cm p) /\
    cm_dims (p_cm p') = map (renamed [(old, new)]) (cm_dims (p_cm p)) /\
    (forall n, assoc n (cm_dmap (p_cm p')) = option_map (map (renamed [(old, new)])) (assoc n (cm_dmap (p_cm p)))).
Proof.
  intros W Jo Jn En Dn. destruct p as [cm a]. cbn [p_cm p_data] in *. pose proof (wp_cm _ W) as Wc. cbn [p_cm] in Wc.
  destruct (wf_dim_coord cm old Wc Jo) as (co & Eo & Wo & Do).
  assert (Lc : c_len co = c_len c).
  { destruct (con_coord _ (wf_con _ Wc) new [old] Dn) as (m & Em & _ & [Q|F]); [discriminate|]. rewrite En in Em. injection Em as <-.
    inversion F as [|? ? ? ? (c1 & E1 & L1) _]; subst. rewrite Eo in E1. injection E1 as <-. exact L1. }
  destruct (proj2 (index_of_In old (cm_dims cm)) Jo) as [i Hi].
  set (sw := swap_name old new).
  assert (RS : forall x, renamed [(old, new)] x = sw x) by reflexivity.
  assert (PUT : put (cm_dims cm) i new = map sw (cm_dims cm)) by (apply put_swap; [apply (wf_dims _ Wc)|exact Hi]).
  set (D := map (fun e => (fst e, map sw (snd e))) (cm_dmap cm)).
  assert (LD : forall n, assoc n D = option_map (map sw) (assoc n (cm_dmap cm))).
  { intros n. unfold D. generalize (cm_dmap cm). induction l as [|[k v] t IH]; cbn [map assoc fst snd]; [reflexivity|]. destruct (String.eqb n k); [reflexivity|exact IH]. }
  set (cm' := mkCm (map sw (cm_dims cm)) (cm_coords cm) D).
  assert (NDD : NoDup (map sw (cm_dims cm))).
  { apply NoDup_map_inj; [|apply (wf_dims _ Wc)]. intros x y X Y. apply (swap_inj old new (cm_dims cm)); assumption. }
  assert (SW : forall d, In d (cm_dims cm) -> exists cd, assoc (sw d) (cm_coords cm) = Some (M1 cd) /\ dim_len cm d (c_len cd) /\ assoc (sw d) (cm_dmap cm) = Some [d]).
  { intros d J. unfold sw, swap_name. destruct (String.eqb_spec d old) as [->|N].
    - exists c. split; [exact En|]. split; [exists co; auto|exact Dn].
    - destruct (wf_dim_coord cm d Wc J) as (cd & Ed & _ & Dd). exists cd. split; [exact Ed|]. split; [exists cd; auto|exact Dd]. }
  assert (DL : forall d k, In d (cm_dims cm) -> dim_len cm d k -> dim_len cm' (sw d) k).
  { intros d k J (cd & Ed & Ld). destruct (SW d J) as (c2 & E2 & (c3 & E3 & L3) & _). rewrite Ed in E3. injection E3 as <-.
    exists c2. cbn [cm' cm_coords]. split; [exact E2|lia]. }
  assert (CON : consistent cm').
  { split; cbn [cm' cm_dims cm_coords cm_dmap].
    - intros d J. apply in_map_iff in J as (x & <- & J). destruct (SW x J) as (cd & Ed & _ & Dd). split; [eauto|]. rewrite LD, Dd. reflexivity.
    - intros n ds E. rewrite LD in E. destruct (assoc n (cm_dmap cm)) as [ds0|] eqn:E0; [|discriminate]. injection E as <-.
      destruct (con_coord _ (wf_con _ Wc) n ds0 E0) as (m & Em & S & F). exists m. split; [exact Em|]. split.
      + intros d J. apply in_map_iff in J as (x & <- & J). apply in_map, S, J.
      + destruct F as [->|F]; [left; reflexivity|right]. clear - F S DL. induction F as [|d k l s Hd F IH]; cbn [map]; constructor.
        * apply DL; [apply S; left; reflexivity|exact Hd].
        * apply IH. intros; apply S; right; assumption. }
  assert (WF : wf_cm cm').
  { split; cbn [cm' cm_dims cm_coords cm_dmap].
    - exact CON.
    - exact NDD.
    - apply (wf_ckeys _ Wc).
    - unfold D. rewrite map_map. cbn [fst]. apply (wf_dkeys _ Wc).
    - intros n J. unfold D. rewrite map_map. cbn [fst]. apply (wf_keys _ Wc n J).
    - intros n ds E. rewrite LD in E. destruct (assoc n (cm_dmap cm)) as [ds0|] eqn:E0; [|discriminate]. injection E as <-.
      destruct (con_coord _ (wf_con _ Wc) n ds0 E0) as (m & Em & S & F).
      apply NoDup_map_inj; [|apply (wf_distinct _ Wc _ _ E0)]. intros x y X Y. apply (swap_inj old new (cm_dims cm)); auto.
    - apply (wf_vals _ Wc). }
  assert (SHP : Forall2 (dim_len cm') (cm_dims cm') (nd_shape a)).
  { cbn [cm' cm_dims]. pose proof (wp_shape _ W) as F. cbn [p_cm p_data] in F.
    assert (S : forall d, In d (cm_dims cm) -> In d (cm_dims cm)) by auto. revert F S. generalize (cm_dims cm) at 1 2 4. intros l F S.
    induction F as [|d k l s Hd F IH]; cbn [map]; constructor; [apply DL; [apply S; left; reflexivity|exact Hd]|apply IH; intros; apply S; right; assumption]. }
  assert (NE : cm_dims cm' <> []). { cbn [cm' cm_dims]. pose proof (wp_some _ W) as Q. cbn [p_cm] in Q. destruct (cm_dims cm); [congruence|discriminate]. }
  exists (mkPatch cm' a). split.
  { unfold pt_set_dims, set_dims. cbn [p_cm p_data set_dims_loop]. rewrite Hi, Eo, En. cbn [m_shape]. rewrite Lc.
    rewrite (proj2 (zlist_eqb_eq [c_len c] [c_len c]) eq_refl). cbn [andb]. change (zlen [c_len c] =? 1) with true. cbn [bind]. rewrite PUT.
    assert (map_result (fun e => do ds <- map_result (zip_get (cm_dims cm) (map sw (cm_dims cm))) (snd e); Ok (fst e, ds)) (cm_dmap cm) = Ok D) as ->.
    { unfold D. apply map_result_map. intros [n ds] J. cbn [fst snd].
      rewrite (map_result_map (zip_get (cm_dims cm) (map sw (cm_dims cm))) sw); [reflexivity|]. intros d Jd. apply zip_swap; [apply (wf_dims _ Wc)|].
      apply (in_assoc _ _ _ (wf_dkeys _ Wc)) in J. destruct (con_coord _ (wf_con _ Wc) n ds J) as (m & _ & S & _). apply S, Jd. }
    cbn [bind]. change (build_cm (map sw (cm_dims cm)) (cm_coords cm) D) with (build_cm (cm_dims cm') (cm_coords cm') (cm_dmap cm')).
    destruct cm' as [x y z] eqn:Q. cbn [cm_dims cm_coords cm_dmap]. rewrite (build_wf _ _ _ WF). cbn [bind].
    unfold new_patch. rewrite (shape_of _ _ WF NE SHP). cbn [bind]. rewrite (proj2 (zlist_eqb_eq _ _) eq_refl). reflexivity. }
  split; [split; cbn [p_cm p_data]; [exact WF|apply (wp_nd _ W)|exact NE|exact SHP]|].
  split; [reflexivity|]. split; [reflexivity|]. split; [reflexivity|]. exact LD.
Qed.

(** ** Refusals *)
Lemma pt_select_unknown {A} (p : patch A) rel smp kw : (exists e, In e kw /\ ~ In (fst e) (map fst (cm_coords (p_cm p)))) ->
  pt_select p rel smp kw = Err PatchCoordinateError.
Proof.
  intros (e & J & N). unfold pt_select. assert (forallb (fun e => mem (fst e) (map fst (cm_coords (p_cm p)))) kw = false) as ->; [|reflexivity].
  apply Bool.not_true_is_false. intros H. rewrite forallb_forall in H. apply N, mem_In', H, J.
Qed.
Lemma dup_dims_spec l : dup_dims l = false <-> NoDup l.
Proof.
  induction l as [|x t IH]; cbn [dup_dims]; [split; [constructor|reflexivity]|]. rewrite Bool.orb_false_iff, IH. split.
  - intros [H1 H2]. constructor; [|exact H2]. intros J.
    assert (existsb (strs_eqb x) t = true); [|congruence]. apply existsb_exists. exists x. split; [exact J|apply strs_eqb_eq; reflexivity].
  - intros H. inversion H as [|? ? N ND]; subst. split; [|exact ND]. apply Bool.not_true_is_false. intros Q. apply existsb_exists in Q as (y & Y & E).
    apply strs_eqb_eq in E. subst y. contradiction.
Qed.
Lemma pt_select_shared {A} (p : patch A) rel smp kw : wf_patch p -> rel || smp = true ->
  (forall e, In e kw -> In (fst e) (map fst (cm_coords (p_cm p)))) -> ~ separate (p_cm p) (map fst kw) ->
  pt_select p rel smp kw = Err CoordError.
Proof.
  intros W RS K NS. unfold pt_select. assert (forallb (fun e => mem (fst e) (map fst (cm_coords (p_cm p)))) kw = true) as ->.
  { apply forallb_forall. intros e J. apply mem_In', K, J. }
  cbn [negb]. unfold cm_select. rewrite RS. unfold check_relative.
  assert (filter (fun n => mem n (map fst (cm_coords (p_cm p)))) (map fst kw) = map fst kw) as ->.
  { apply filter_id. intros n J. apply in_map_iff in J as (e & <- & J). apply mem_In', K, J. }
  rewrite (map_result_map _ (dims_of (p_cm p))).
  - cbn [bind]. destruct (dup_dims (map (dims_of (p_cm p)) (map fst kw))) eqn:D; [reflexivity|]. exfalso. apply NS. apply dup_dims_spec, D.
  - intros n J. apply in_map_iff in J as (e & <- & J). specialize (K e J). apply assoc_In in K as [m K].
    destruct (wf_lookup _ _ m (wp_cm _ W) K) as (ds & D & _). unfold dims_of. rewrite D. reflexivity.
Qed.
Lemma pt_sort_refused {A} argsort (p : patch A) names rev : wf_patch p -> names <> [] ->
  (forall n, In n names -> In n (map fst (cm_coords (p_cm p)))) ->
  (exists n, In n names /\ 1 < zlen (dims_of (p_cm p) n)) \/ (1 < zlen names /\ ~ NoDup (List.concat (map (dims_of (p_cm p)) names))) ->
  pt_sort argsort p names rev = Err CoordSortError.
Proof.
  intros W NE K H. unfold pt_sort, cm_sort. destruct names as [|n0 t]; [congruence|]. set (names := n0 :: t) in *.
  unfold validate_sort. rewrite (map_result_map _ (dims_of (p_cm p))).
  - cbn [bind]. destruct (existsb (fun ds => 1 <? zlen ds) (map (dims_of (p_cm p)) names)) eqn:X; [reflexivity|].
    destruct H as [(n & J & L)|[L N]].
    + exfalso. assert (existsb (fun ds => 1 <? zlen ds) (map (dims_of (p_cm p)) names) = true); [|congruence].
      apply existsb_exists. exists (dims_of (p_cm p) n). split; [apply in_map, J|lia].
    + destruct (Z.eqb_spec (zlen names) 1); [lia|].
      destruct (has_dup (List.concat (map (dims_of (p_cm p)) names))) eqn:HD; [reflexivity|]. exfalso. apply N.
      clear - HD. induction (List.concat (map (dims_of (p_cm p)) names)) as [|x l IH]; constructor; cbn [has_dup] in HD; apply Bool.orb_false_iff in HD as [H1 H2]; [apply mem_false, H1|apply IH, H2].
  - intros n J. specialize (K n J). apply assoc_In in K as [m K]. destruct (wf_lookup _ _ m (wp_cm _ W) K) as (ds & D & _). unfold dims_of. rewrite D. reflexivity.
Qed.

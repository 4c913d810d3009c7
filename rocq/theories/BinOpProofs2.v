(** Lemmas behind BinOpProps.v: applying an alignment, merging aligned
    coordinates. *)
From Verif Require Import Base BaseFacts CoordModel CoordSpec CoordProofs CoordProofs2 CoordProofs3
  CoordProofs4 CoordProofs5 NdModel NdSpec NdProofs NdProofs2 NdProofs3 FrameModel FrameProofs5 ChunkModel CmModel CmSpec
  CmProofs CmProofs2 CmProofs3 CmProofs8 CmProofs10 CmProofs12 CmProofs13 CmProofs15 BinOpModel BinOpSpec BinOpProofs.
From Coq Require Import Strings.String ZifyBool Sorting.Permutation Sorting.Sorted.
Ltac Zify.zify_post_hook ::= Z.div_mod_to_equations.
Local Open Scope Z_scope.
Local Open Scope list_scope.

Lemma dim_dmap cm d : wf_cm cm -> In d (cm_dims cm) -> assoc d (cm_dmap cm) = Some [d].
Proof. intros W I. destruct (wf_dim_coord cm d W I) as (c & _ & _ & H). exact H. Qed.

Definition newc (new : list (string * coord)) (n : string) : option mcoord := option_map M1 (assoc n new).

Lemma Forall2_combine_map {X Y Z0} (R : X -> Y * Z0 -> Prop) (f : string -> X) (g : string -> Y) (h : string -> Z0) ds :
  (forall d, In d ds -> R (f d) (g d, h d)) -> Forall2 R (map f ds) (combine (map g ds) (map h ds)).
Proof.
  induction ds as [|d t IH]; intros H; cbn; constructor; [apply H; left; reflexivity|].
  apply IH. intros x X0. apply H. right. exact X0.
Qed.

Lemma align_apply_ok {A} (p : patch A) new ixs (psf : string -> list Z) :
  wf_patch p -> plain_names (p_cm p) -> NoDup (map fst new) ->
  (forall d c', assoc d new = Some c' -> okc c' /\ In d (cm_dims (p_cm p)) /\
     exists c ix, assoc d (cm_coords (p_cm p)) = Some (M1 c) /\ assoc d ixs = Some ix /\
       indexer_positions (c_len c) ix = Some (psf d) /\ zlen (psf d) = c_len c') ->
  (forall d, In d (cm_dims (p_cm p)) -> assoc d new = None -> assoc d ixs = None /\ psf d = pick0 (p_cm p) d) ->
  exists p', align_apply p new ixs = Ok p' /\ wf_patch p' /\ cm_dims (p_cm p') = cm_dims (p_cm p) /\
    nd_picked (p_data p) (p_data p') (map psf (cm_dims (p_cm p))) /\
    (forall d c', assoc d new = Some c' -> assoc d (cm_coords (p_cm p')) = Some (recf (M1 c')) /\
       assoc d (cm_dmap (p_cm p')) = assoc d (cm_dmap (p_cm p))) /\
    (forall n, assoc n new = None -> resized (p_cm p) (newc new) n ->
       assoc n (cm_coords (p_cm p')) = None /\ assoc n (cm_dmap (p_cm p')) = None) /\
    (forall n, assoc n new = None -> ~ resized (p_cm p) (newc new) n ->
       assoc n (cm_coords (p_cm p')) = option_map recf (assoc n (cm_coords (p_cm p))) /\
       assoc n (cm_dmap (p_cm p')) = assoc n (cm_dmap (p_cm p))).
Proof.
  intros WP PN ND H1 H2. destruct p as [cm a]. cbn [p_cm p_data] in *. pose proof (wp_cm _ WP) as W. cbn [p_cm] in W.
  set (kw := map (fun e : string * coord => (fst e, KSimple (VCoord (M1 (snd e))))) new).
  assert (KW : forall n, assoc n kw = option_map (fun c => KSimple (VCoord (M1 c))) (assoc n new)).
  { intros n. unfold kw. rewrite (assoc_map (fun e => KSimple (VCoord (M1 (snd e)))) n new). destruct (assoc n new); reflexivity. }
  destruct (cm_update_sub cm kw (newc new) W PN) as (cm' & EU & W' & D' & U1 & U2 & U3).
  { split; [unfold kw; rewrite map_map; exact ND|]. intros n. rewrite KW. unfold newc. destruct (assoc n new) as [c'|] eqn:E; cbn [option_map]; [|reflexivity].
    destruct (H1 n c' E) as (K & I & _). exists (M1 c'), [n]. split; [reflexivity|]. split; [exact K|].
    split; [apply (dim_dmap cm n W I)|]. right. auto. }
  { intros d m _ Q. unfold newc in Q. destruct (assoc d new); [|discriminate]. injection Q as <-. eauto. }
  { intros n m ds Q D NE. unfold newc in Q. destruct (assoc n new) as [c'|] eqn:E; [|discriminate]. injection Q as <-.
    destruct (H1 n c' E) as (K & I & _). destruct (wf_dim_coord cm n W I) as (c & _ & _ & Dn). rewrite Dn in D. injection D as <-.
    cbn [m_shape]. constructor; [|constructor]. exists c'. unfold latest, newc. rewrite E. auto. }
  set (len := fun d => match assoc d (cm_coords cm) with Some (M1 c) => c_len c | _ => 0 end).
  assert (SH : nd_shape a = map len (cm_dims cm)).
  { pose proof (wp_shape _ WP) as F. cbn [p_cm p_data] in F. clear -F. subst len. induction F as [|d n ds s (c & E & L) F IH]; cbn; [reflexivity|].
    rewrite E, <- L. f_equal. exact IH. }
  assert (PS : forall d, In d (cm_dims cm) -> indexer_positions (len d) (match assoc d ixs with Some ix => ix | None => simple_slice None None end) = Some (psf d)).
  { intros d D. destruct (assoc d new) as [c'|] eqn:E.
    - destruct (H1 d c' E) as (_ & _ & c & ix & C & I & P & _). unfold len. rewrite C, I. exact P.
    - destruct (H2 d D E) as [-> ->]. destruct (wf_dim_coord cm d W D) as (c & C & Wc & _). unfold len, pick0. rewrite C.
      apply full_positions, c_len_nonneg, Wc. }
  destruct (apply_indexers_spec a (dim_indexers cm ixs) (map psf (cm_dims cm)) (wp_nd _ WP)) as (b & Eb & Pb).
  { rewrite SH. unfold dim_indexers. apply Forall2_combine_map. exact PS. }
  { rewrite SH. unfold dim_indexers. rewrite !map_length. reflexivity. }
  { rewrite SH, !map_length. reflexivity. }
  unfold align_apply. cbn [p_cm p_data]. fold kw. rewrite EU. cbn [bind]. rewrite Eb.
  assert (FL : Forall2 (dim_len cm') (cm_dims cm') (nd_shape b)).
  { destruct Pb as (_ & -> & _). rewrite map_map, D'. 
    assert (forall d, In d (cm_dims cm) -> dim_len cm' d (zlen (psf d))) as Q.
    { intros d D. destruct (assoc d new) as [c'|] eqn:E.
      - destruct (H1 d c' E) as (K & _ & c & ix & _ & _ & _ & L). destruct (recf_M1 c' K) as (c2 & R & L2 & _).
        exists c2. destruct (U1 d (M1 c')) as [Q _]; [unfold newc; rewrite E; reflexivity|]. rewrite Q, R. split; [reflexivity|congruence].
      - destruct (H2 d D E) as [_ ->]. destruct (wf_dim_coord cm d W D) as (c & C & Wc & Dd).
        destruct (recf_M1 c (wf_okc _ Wc)) as (c2 & R & L2 & _).
        destruct (U3 d) as [Q _]; [unfold newc; rewrite E; reflexivity| |].
        + intros (ds & d0 & c0 & c0' & X1 & X2 & X3 & _). rewrite Dd in X1. injection X1 as <-. destruct X2 as [<-|[]]. unfold newc in X3. rewrite E in X3. discriminate.
        + exists c2. rewrite Q, C. cbn [option_map]. rewrite R. split; [reflexivity|]. unfold pick0. rewrite C, zlen_zrange.
          pose proof (c_len_nonneg c Wc). lia. }
    clear -Q. induction (cm_dims cm) as [|d t IH]; cbn; constructor; [apply Q; left; reflexivity|]. apply IH. intros x X. apply Q. right. exact X. }
  destruct (new_patch_ok cm' b W') as [EN WN]; [apply Pb|rewrite D'; apply (wp_some _ WP)|exact FL|].
  rewrite EN. eexists. split; [reflexivity|]. split; [exact WN|]. cbn [p_cm p_data]. split; [exact D'|]. split; [exact Pb|].
  split; [|split].
  - intros d c' E. apply U1. unfold newc. rewrite E. reflexivity.
  - intros n E R. apply U2; [unfold newc; rewrite E; reflexivity|exact R].
  - intros n E R. apply U3; [unfold newc; rewrite E; reflexivity|exact R].
Qed.

(** ** The alignments found in the loop *)
Lemma map_result_concat {T} (f : string -> result (list (string * T))) l : NoDup l ->
  (forall d, In d l -> f d = Ok [] \/ exists a, f d = Ok [(d, a)]) ->
  exists als, map_result f l = Ok als /\ NoDup (map fst (List.concat als)) /\
    (forall d a, assoc d (List.concat als) = Some a <-> In d l /\ f d = Ok [(d, a)]).
Proof.
  induction 1 as [|x t X ND IH]; intros H.
  - exists []. cbn. split; [reflexivity|]. split; [constructor|]. intros d a. split; [discriminate|tauto].
  - destruct IH as (als & E & N & S); [intros d D; apply H; right; exact D|].
    assert (NI : forall a, assoc x (List.concat als) = Some a -> False) by (intros a Q; apply S in Q; tauto).
    destruct (H x (or_introl eq_refl)) as [F|[a F]].
    + exists ([] :: als). cbn [map_result List.concat app]. rewrite F, E. split; [reflexivity|]. split; [exact N|].
      intros d b. rewrite S. split; intros [J K]; [cbn; tauto|]. destruct J as [<-|J]; [congruence|tauto].
    + exists ([(x, a)] :: als). cbn [map_result List.concat app]. rewrite F, E. split; [reflexivity|].
      split.
      * cbn [map fst]. constructor; [|exact N]. intros J. apply assoc_In in J as [b J]. eapply NI, J.
      * intros d b. cbn [assoc]. destruct (String.eqb_spec d x) as [->|Nx].
        -- split; [intros [= <-]; cbn; auto|]. intros [_ K]. rewrite F in K. injection K as <-. reflexivity.
        -- rewrite S. cbn [In]. split; [tauto|]. intros [[<-|J] K]; [congruence|tauto].
Qed.

(** ** Merging *)
(** What aligned coordinates of one dimension look like. *)
Definition settled (c1 c2 : coord) : Prop :=
  (exists v, represents c1 v /\ represents c2 v) \/
  (c1 = CPart 1 /\ 0 < c_len c2) \/ (c2 = CPart 1 /\ 0 < c_len c1).

Lemma represents_len c v : okc c -> represents c v -> c_len c = zlen v.
Proof. intros K (L & _). rewrite <- (c_len_values c K). exact L. Qed.

Lemma represents_concrete c v : wf_coord c -> represents c v -> v <> [] -> concrete c.
Proof.
  intros W (L & F & _) N. destruct c as [r|k w|k w|n]; cbn; auto. exfalso.
  destruct v as [|x v]; [congruence|]. cbn [c_values] in *. destruct (Z.to_nat n) as [|j]; cbn in *; discriminate.
Qed.
Lemma represents_empty c : wf_coord c -> represents c [] -> c = CPart 0.
Proof.
  intros W (L & F & _). destruct c as [r|k w|k w|n]; cbn [c_values] in *.
  - exfalso. rewrite zlen_map in L. rewrite zlen_r_values in L by exact W. destruct W as (_ & P & _). cbn in L. lia.
  - exfalso. rewrite zlen_map in L. destruct w; [destruct W as [W _]; congruence|]. unfold zlen in L; cbn in L; lia.
  - exfalso. rewrite zlen_map in L. destruct w; [cbn in W; congruence|]. unfold zlen in L; cbn in L; lia.
  - cbn in W. unfold zlen in L. rewrite repeat_length in L. cbn in L. f_equal. lia.
Qed.

Lemma represents_recf c v : okc c -> represents c v -> exists c', recf (M1 c) = M1 c' /\ represents c' v /\ wf_coord c' /\ c_len c' = c_len c.
Proof.
  intros K R. destruct (recoord_1 c K) as (c' & E & W & L & _ & _ & T). exists c'. unfold recf. rewrite E. split; [reflexivity|].
  split; [apply T, R|]. auto.
Qed.

(** The coordinate kept for a dimension. *)
Definition chosen (c1 c2 : coord) : coord :=
  match c1, c2 with
  | CPart n, CPart k => if k <? n then c1 else c2
  | CPart _, _ => c2
  | _, _ => c1
  end.

Lemma chosen_spec c1 c2 : wf_coord c1 -> wf_coord c2 -> settled c1 c2 ->
  bcast_len (c_len c1) (c_len c2) = Some (c_len (chosen c1 c2)) /\ wf_coord (chosen c1 c2) /\
  (forall v, represents c1 v -> represents c2 v -> represents (chosen c1 c2) v) /\
  (c1 = CPart 1 -> chosen c1 c2 = c2) /\ (c2 = CPart 1 -> 0 < c_len c1 -> chosen c1 c2 = c1) /\
  (c1 <> CPart 1 -> c_len (chosen c1 c2) = c_len c1).
Proof.
  intros W1 W2 S. split; [|split; [|split; [|split; [|split]]]].
  - destruct S as [(v & R1 & R2)|[[-> P]|[-> P]]].
    + pose proof (represents_len _ _ (wf_okc _ W1) R1) as L1. pose proof (represents_len _ _ (wf_okc _ W2) R2) as L2.
      unfold bcast_len. rewrite L1, L2, Z.eqb_refl. f_equal.
      destruct c1, c2; cbn [chosen]; try congruence. destruct (_ <? _); congruence.
    + destruct c2; cbn [chosen c_len] in *; unfold bcast_len; cbn [c_len]; try (destruct (Z.eqb_spec 1 (r_len r)); [f_equal; lia|reflexivity]);
        try (destruct (Z.eqb_spec 1 (zlen v)); [f_equal; lia|reflexivity]).
      destruct (Z.eqb_spec 1 n); destruct (Z.ltb_spec n 1); cbn [c_len]; try lia; try reflexivity; f_equal; lia.
    + assert (c_len (chosen c1 (CPart 1)) = c_len c1) as ->.
      { destruct c1; cbn [chosen]; try reflexivity. cbn [c_len] in *. destruct (Z.ltb_spec 1 n); cbn [c_len]; lia. }
      unfold bcast_len. cbn [c_len]. destruct (Z.eqb_spec (c_len c1) 1) as [->|]; [reflexivity|]. reflexivity.
  - destruct c1, c2; cbn [chosen]; auto. destruct (_ <? _); auto.
  - intros v R1 R2. destruct c1, c2; cbn [chosen]; auto. destruct (_ <? _); auto.
  - intros ->. destruct c2; cbn [chosen]; try reflexivity. destruct (Z.ltb_spec n 1); [|reflexivity].
    cbn in W2. destruct S as [(v & R1 & R2)|[[_ P]|[Q P]]]; [|cbn in P; lia|congruence].
    pose proof (represents_len _ _ (wf_okc _ W1) R1) as L1. pose proof (represents_len _ _ (wf_okc (CPart n) W2) R2) as L2. cbn in L1, L2. lia.
  - intros -> P. destruct c1; cbn [chosen]; try reflexivity. cbn [c_len] in P. destruct (Z.ltb_spec 1 n); [reflexivity|]. f_equal. lia.
  - intros N. destruct S as [(v & R1 & R2)|[[-> P]|[-> P]]]; [| |].
    + pose proof (represents_len _ _ (wf_okc _ W1) R1) as L1. pose proof (represents_len _ _ (wf_okc _ W2) R2) as L2.
      destruct c1, c2; cbn [chosen]; try congruence. destruct (_ <? _); congruence.
    + congruence.
    + destruct c1; cbn [chosen]; try reflexivity. cbn [c_len] in *. destruct (Z.ltb_spec 1 n); cbn [c_len]; lia.
Qed.

Definition kept_of (o : option kval) : option mcoord :=
  match o with Some (KTuple _ (VCoord m)) => Some m | _ => None end.

Lemma map_result_named {T} (f : string -> result (string * T)) l out : NoDup l ->
  (forall n x, f n = Ok x -> fst x = n) -> map_result f l = Ok out ->
  map fst out = l /\ forall n, if mem n l then exists v, f n = Ok (n, v) /\ assoc n out = Some v else assoc n out = None.
Proof.
  intros ND H E. apply map_result_Forall2 in E.
  induction E as [|x y l' out' F E' IH].
  - split; [reflexivity|]. intros n. reflexivity.
  - inversion ND as [|? ? X ND']; subst. destruct (IH ND') as [I1 I2]. pose proof (H _ _ F) as Hy. destruct y as [y v]. cbn in Hy. subst y.
    split; [cbn; f_equal; exact I1|]. intros n. cbn [mem assoc]. specialize (I2 n).
    unfold mem in *. cbn [existsb]. destruct (String.eqb_spec n x) as [->|N]; cbn [orb]; [eauto|]. exact I2.
Qed.

Lemma dim_merge cm1 cm2 d c1 c2 x : assoc d (cm_coords cm1) = Some (M1 c1) -> assoc d (cm_coords cm2) = Some (M1 c2) ->
  assoc d (cm_dmap cm1) = Some [d] -> assoc d (cm_dmap cm2) = Some [d] -> merge_coord cm1 cm2 d = Ok x ->
  x = (d, KTuple [d] (VCoord (M1 (chosen c1 c2)))).
Proof.
  intros C1 C2 D1 D2. unfold merge_coord. rewrite C1, C2, D1, D2.
  destruct c1, c2; cbn [m_partial chosen]; try (destruct (_ && _); [|discriminate]); intros [= <-]; try reflexivity.
  cbn [m_shape c_len size fold_right]. rewrite !Z.mul_1_r. destruct (_ <? _); reflexivity.
Qed.

Lemma merge_ok {A B} (p : patch A) (q : patch B) : wf_patch p -> wf_patch q -> plain_names (p_cm p) ->
  cm_dims (p_cm p) = cm_dims (p_cm q) ->
  (forall d c1 c2, In d (cm_dims (p_cm p)) -> assoc d (cm_coords (p_cm p)) = Some (M1 c1) ->
     assoc d (cm_coords (p_cm q)) = Some (M1 c2) -> settled c1 c2) ->
  (forall n m1 m2, ~ In n (cm_dims (p_cm p)) -> assoc n (cm_coords (p_cm p)) = Some m1 -> assoc n (cm_coords (p_cm q)) = Some m2 ->
     m_partial m1 = false /\ m_partial m2 = false /\
     forall ds d, assoc n (cm_dmap (p_cm p)) = Some ds -> In d ds -> assoc d (cm_coords (p_cm p)) <> Some (M1 (CPart 1))) ->
  forall out, map_result (merge_coord (p_cm p) (p_cm q))
                (filter (fun n => mem n (map fst (cm_coords (p_cm q)))) (map fst (cm_coords (p_cm p)))) = Ok out ->
  exists cm, cm_update (p_cm p) out = Ok cm /\ wf_cm cm /\ cm_dims cm = cm_dims (p_cm p) /\
    (forall d c1 c2, In d (cm_dims (p_cm p)) -> assoc d (cm_coords (p_cm p)) = Some (M1 c1) ->
       assoc d (cm_coords (p_cm q)) = Some (M1 c2) -> assoc d (cm_coords cm) = Some (recf (M1 (chosen c1 c2)))) /\
    (forall n, ~ In n (cm_dims (p_cm p)) ->
       (assoc n (cm_coords cm) = option_map recf (assoc n (cm_coords (p_cm p))) /\
        assoc n (cm_dmap cm) = assoc n (cm_dmap (p_cm p)) /\
        forall ds d c1 c2, assoc n (cm_dmap (p_cm p)) = Some ds -> In d ds -> assoc d (cm_coords (p_cm p)) = Some (M1 c1) ->
          assoc d (cm_coords (p_cm q)) = Some (M1 c2) -> c_len (chosen c1 c2) = c_len c1) \/
       (assoc n (cm_coords cm) = None /\
        exists ds d c1 c2, assoc n (cm_dmap (p_cm p)) = Some ds /\ In d ds /\ assoc d (cm_coords (p_cm p)) = Some (M1 c1) /\
          assoc d (cm_coords (p_cm q)) = Some (M1 c2) /\ c_len (chosen c1 c2) <> c_len c1)).
Proof.
  intros Wp Wq PN DD SE AS out EO.
  destruct p as [cm1 a], q as [cm2 b]. cbn [p_cm] in *. pose proof (wp_cm _ Wp) as W1. pose proof (wp_cm _ Wq) as W2. cbn [p_cm] in W1, W2.
  clear Wp Wq. set (l := filter (fun n => mem n (map fst (cm_coords cm2))) (map fst (cm_coords cm1))) in *.
  assert (NDl : NoDup l) by (apply NoDup_filter', (wf_ckeys _ W1)).
  assert (IL : forall n, In n l <-> In n (map fst (cm_coords cm1)) /\ In n (map fst (cm_coords cm2))).
  { intros n. unfold l. rewrite filter_In, mem_In'. tauto. }
  destruct (map_result_named (merge_coord cm1 cm2) l out NDl) as [MO AO]; [|exact EO|].
  { intros n x. unfold merge_coord. destruct (assoc n (cm_coords cm1)); [|discriminate]. destruct (assoc n (cm_coords cm2)); [|discriminate].
    destruct (assoc n (cm_dmap cm1)); [|discriminate]. destruct (assoc n (cm_dmap cm2)); [|discriminate].
    destruct (m_partial m), (m_partial m0); try (destruct (_ && _); [|discriminate]); intros [= <-]; reflexivity. }
  set (newf := fun n => kept_of (assoc n out)).
  assert (DL : forall d, In d (cm_dims cm1) -> In d l).
  { intros d D. apply IL. split; apply assoc_In.
    - destruct (wf_dim_coord cm1 d W1 D) as (c & C & _). eauto.
    - rewrite DD in D. destruct (wf_dim_coord cm2 d W2 D) as (c & C & _). eauto. }
  assert (DM : forall d c1 c2, In d (cm_dims cm1) -> assoc d (cm_coords cm1) = Some (M1 c1) -> assoc d (cm_coords cm2) = Some (M1 c2) ->
     assoc d out = Some (KTuple [d] (VCoord (M1 (chosen c1 c2))))).
  { intros d c1 c2 D C1 C2. specialize (AO d). rewrite (proj2 (mem_In' _ _) (DL d D)) in AO. destruct AO as (v & F & Q).
    destruct (wf_dim_coord cm1 d W1 D) as (_ & _ & _ & D1). assert (In d (cm_dims cm2)) as D0 by (rewrite <- DD; exact D).
    destruct (wf_dim_coord cm2 d W2 D0) as (_ & _ & _ & D2).
    pose proof (dim_merge cm1 cm2 d c1 c2 _ C1 C2 D1 D2 F) as X. injection X as ->. exact Q. }
  assert (CC : forall d, In d (cm_dims cm1) -> exists c1 c2, assoc d (cm_coords cm1) = Some (M1 c1) /\ assoc d (cm_coords cm2) = Some (M1 c2) /\
     wf_coord c1 /\ wf_coord c2).
  { intros d D. destruct (wf_dim_coord cm1 d W1 D) as (c1 & C1 & X1 & _). rewrite DD in D. destruct (wf_dim_coord cm2 d W2 D) as (c2 & C2 & X2 & _). eauto 8. }
  assert (ND : forall n v, ~ In n (cm_dims cm1) -> assoc n out = Some v -> exists m1 ds, assoc n (cm_coords cm1) = Some m1 /\ assoc n (cm_dmap cm1) = Some ds /\
     v = KTuple ds (VCoord m1) /\ exists m2, assoc n (cm_coords cm2) = Some m2).
  { intros n v N Q. specialize (AO n). destruct (mem n l); [|congruence]. destruct AO as (v' & F & Q'). rewrite Q in Q'. injection Q' as <-.
    unfold merge_coord in F. destruct (assoc n (cm_coords cm1)) as [m1|] eqn:C1; [|discriminate]. destruct (assoc n (cm_coords cm2)) as [m2|] eqn:C2; [|discriminate].
    destruct (assoc n (cm_dmap cm1)) as [ds|]; [|discriminate]. destruct (assoc n (cm_dmap cm2)); [|discriminate].
    destruct (AS n m1 m2 N C1 C2) as (P1 & P2 & _). rewrite P1, P2 in F. destruct (_ && _); [|discriminate]. injection F as <-. eauto 8. }
  assert (NR : forall n ds d c1 c2 m1 m2, ~ In n (cm_dims cm1) -> assoc n (cm_coords cm1) = Some m1 -> assoc n (cm_coords cm2) = Some m2 ->
     assoc n (cm_dmap cm1) = Some ds -> In d ds -> assoc d (cm_coords cm1) = Some (M1 c1) -> assoc d (cm_coords cm2) = Some (M1 c2) ->
     c_len (chosen c1 c2) = c_len c1).
  { intros n ds d c1 c2 m1 m2 N M1' M2' Q J C1 C2. destruct (AS n m1 m2 N M1' M2') as (_ & _ & X). specialize (X ds d Q J).
    destruct (con_coord _ (wf_con _ W1) n ds Q) as (_ & _ & S & _). specialize (S d J).
    destruct (CC d S) as (c1' & c2' & E1 & E2 & V1 & V2). rewrite C1 in E1. injection E1 as <-. rewrite C2 in E2. injection E2 as <-.
    apply (chosen_spec c1 c2 V1 V2); [apply (SE d c1 c2 S C1 C2)|]. intros ->. apply X. exact C1. }
  destruct (cm_update_sub cm1 out newf W1 PN) as (cm & EU & W & D' & U1 & U2 & U3).
  { split; [rewrite MO; exact NDl|]. intros n. unfold newf. destruct (assoc n out) as [v|] eqn:Q; [|reflexivity].
    destruct (in_dec string_dec n (cm_dims cm1)) as [D|D].
    - destruct (CC n D) as (c1 & c2 & C1 & C2 & X1 & X2). rewrite (DM n c1 c2 D C1 C2) in Q. injection Q as <-. cbn [kept_of].
      exists (M1 (chosen c1 c2)), [n]. split; [reflexivity|]. split; [apply wf_okc, (chosen_spec c1 c2 X1 X2 (SE n c1 c2 D C1 C2))|].
      split; [apply (dim_dmap cm1 n W1 D)|left; reflexivity].
    - destruct (ND n v D Q) as (m1 & ds & C1 & Dm & -> & _). cbn [kept_of]. exists m1, ds. split; [reflexivity|].
      split; [apply wf_okm, (wf_vals _ W1 _ _ C1)|]. split; [exact Dm|left; reflexivity]. }
  { intros d m D Q. destruct (CC d D) as (c1 & c2 & C1 & C2 & _). unfold newf in Q. rewrite (DM d c1 c2 D C1 C2) in Q. injection Q as <-. eauto. }
  { intros n m ds Q Dm NE. unfold newf in Q. destruct (assoc n out) as [v|] eqn:O; [|discriminate].
    assert (LT : forall d c1 c2, In d (cm_dims cm1) -> assoc d (cm_coords cm1) = Some (M1 c1) -> assoc d (cm_coords cm2) = Some (M1 c2) ->
       latest cm1 newf d = Some (M1 (chosen c1 c2))).
    { intros d c1 c2 D C1 C2. unfold latest, newf. rewrite (DM d c1 c2 D C1 C2). reflexivity. }
    destruct (in_dec string_dec n (cm_dims cm1)) as [D|D].
    - destruct (CC n D) as (c1 & c2 & C1 & C2 & X1 & X2). rewrite (DM n c1 c2 D C1 C2) in O. injection O as <-. cbn [kept_of] in Q. injection Q as <-.
      destruct (wf_dim_coord cm1 n W1 D) as (_ & _ & _ & D1). rewrite D1 in Dm. injection Dm as <-. cbn [m_shape].
      constructor; [|constructor]. exists (chosen c1 c2). split; [apply LT; assumption|reflexivity].
    - destruct (ND n v D O) as (m1 & ds' & C1 & Dm' & -> & m2 & C2). cbn [kept_of] in Q. injection Q as <-. rewrite Dm in Dm'. injection Dm' as <-.
      destruct (con_coord _ (wf_con _ W1) n ds Dm) as (m' & C' & S & F). rewrite C1 in C'. injection C' as <-.
      destruct F as [->|F]; [congruence|].
      assert (G : forall d, In d ds -> forall k, dim_len cm1 d k -> exists c, latest cm1 newf d = Some (M1 c) /\ c_len c = k).
      { intros d J k (c & Cd & <-). destruct (CC d (S d J)) as (c1 & c2 & E1 & E2 & _). rewrite Cd in E1. injection E1 as <-.
        exists (chosen c c2). split; [apply LT; auto|]. apply (NR n ds d c c2 m1 m2); auto. }
      clear -F G. induction F as [|d k ds s R F IH]; constructor.
      + apply (G d (or_introl eq_refl) k R).
      + apply IH. intros x X. apply G. right. exact X. }
  exists cm. split; [exact EU|]. split; [exact W|]. split; [exact D'|]. split.
  - intros d c1 c2 D C1 C2. apply U1. unfold newf. rewrite (DM d c1 c2 D C1 C2). reflexivity.
  - intros n N. destruct (newf n) as [m|] eqn:Q.
    + left. destruct (U1 n m Q) as [E1 E2]. unfold newf in Q. destruct (assoc n out) as [v|] eqn:O; [|discriminate].
      destruct (ND n v N O) as (m1 & ds & C1 & Dm & -> & m2 & C2). injection Q as <-. rewrite C1. cbn [option_map]. split; [exact E1|]. split; [exact E2|].
      intros ds' d c1 c2 Dm' J K1 K2. apply (NR n ds' d c1 c2 m1 m2); auto.
    + assert (DEC : resized cm1 newf n \/ ~ resized cm1 newf n).
      { unfold resized. destruct (assoc n (cm_dmap cm1)) as [ds|] eqn:Dm.
        - set (f := fun d => match assoc d (cm_coords cm1), newf d with Some (M1 c), Some (M1 c') => negb (c_len c =? c_len c') | _, _ => false end).
          destruct (existsb f ds) eqn:X.
          + left. apply existsb_exists in X as (d & J & X). unfold f in X. destruct (assoc d (cm_coords cm1)) as [[c| |]|] eqn:C; try discriminate.
            destruct (newf d) as [[c'| |]|] eqn:C'; try discriminate. exists ds, d, c, c'. repeat (split; [auto|]). lia.
          + right. intros (ds' & d & c & c' & [= <-] & J & C' & C & L). assert (existsb f ds = true) as K; [|congruence].
            apply existsb_exists. exists d. split; [exact J|]. unfold f. rewrite C, C'. lia.
        - right. intros (ds' & d & c & c' & X & _). discriminate. }
      destruct DEC as [R|R].
      * right. split; [apply (U2 n Q R)|]. destruct R as (ds & d & c & c' & Dm & J & C' & C & L).
        destruct (con_coord _ (wf_con _ W1) n ds Dm) as (_ & _ & S & _). destruct (CC d (S d J)) as (c1 & c2 & C1 & C2 & _).
        exists ds, d, c1, c2. repeat (split; [auto|]). unfold newf in C'. rewrite (DM d c1 c2 (S d J) C1 C2) in C'. injection C' as <-. rewrite C1 in C. injection C as <-. auto.
      * left. destruct (U3 n Q R) as [E1 E2]. split; [exact E1|]. split; [exact E2|]. intros ds d c1 c2 Dm J K1 K2.
        destruct (Z.eq_dec (c_len (chosen c1 c2)) (c_len c1)) as [X|X]; [exact X|]. exfalso. apply R.
        destruct (con_coord _ (wf_con _ W1) n ds Dm) as (_ & _ & S & _).
        exists ds, d, c1, (chosen c1 c2). split; [exact Dm|]. split; [exact J|]. split; [unfold newf; rewrite (DM d c1 c2 (S d J) K1 K2); reflexivity|]. split; [exact K1|congruence].
Qed.

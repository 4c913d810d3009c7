(** Lemmas behind ConcatProps.v: concatenation as a whole. *)
From Verif Require Import Base ProcProofs2 BaseFacts CoordModel CoordSpec CoordProofs CoordProofs2 CoordProofs3
  CoordProofs4 CoordProofs5 NdModel NdSpec NdProofs NdProofs2 NdProofs3 FrameModel FrameProofs5 ChunkModel CmModel CmSpec
  CmProofs CmProofs2 CmProofs3 CmProofs4 CmProofs12 CmProofs13 CmProofs15 CmProofs17 MergeModel MergeSpec MergeProofs MergeProofs5 MergeProofs6 MergeProofs7 BinOpModel ConcatModel ConcatSpec ConcatProofs ConcatProofs2.
From Coq Require Import Strings.String Strings.Ascii ZifyBool.
Ltac Zify.zify_post_hook ::= Z.div_mod_to_equations.
Local Open Scope Z_scope.
Local Open Scope list_scope.

Definition dp {A} (p : patch A) : patch A := match drop_private p with Ok q => q | Err _ => p end.
Lemma dp_clean {A} D (ps : list (patch A)) p : alike D ps -> In p ps -> drop_private p = Ok (dp p) /\ clean p (dp p).
Proof.
  intros AL I. destruct (drop_private_ok p (al_wf _ _ AL p I)) as (q & E & C).
  - rewrite (al_dims _ _ AL p I). apply (al_open _ _ AL).
  - unfold dp. rewrite E. auto.
Qed.
Lemma all_dropped {A} D (ps : list (patch A)) : alike D ps -> map_result drop_private ps = Ok (map dp ps).
Proof. intros AL. apply map_result_map. intros p I. apply (dp_clean D ps p AL I). Qed.
Lemma strs_all {A} D (first : patch A) t : alike D (first :: t) ->
  forallb (fun p => strs_eqb (cm_dims (p_cm (dp first))) (cm_dims (p_cm p))) (map dp t) = true.
Proof.
  intros AL. apply forallb_forall. intros q I. apply in_map_iff in I as (p & <- & I). apply strs_eqb_eq.
  destruct (dp_clean D _ first AL (or_introl eq_refl)) as [_ C]. destruct (dp_clean D _ p AL (or_intror I)) as [_ C'].
  rewrite (cl_dims _ _ C), (cl_dims _ _ C'), (al_dims _ _ AL first (or_introl eq_refl)), (al_dims _ _ AL p (or_intror I)). reflexivity.
Qed.
Definition keepb {A} (d : string) (first p : patch A) : bool := goes (Some d) false (p_cm (dp first)) (p_cm (dp p)).
Lemma keepb_spec {A} D d (first : patch A) t p : alike D (first :: t) -> In p (first :: t) -> keepb d first p = true <-> fits_first d first p.
Proof.
  intros AL I. apply fits_clean; eapply dp_clean; try exact AL; auto. left; reflexivity.
Qed.
Lemma fits_refl {A} d (p : patch A) : fits_first d p p.
Proof. intros n a b _ _ E1 E2. rewrite E1 in E2. injection E2 as <-. apply same_coord_refl. Qed.
Lemma dp_dims {A} D (ps : list (patch A)) p : alike D ps -> In p ps -> cm_dims (p_cm (dp p)) = D.
Proof. intros AL I. destruct (dp_clean D ps p AL I) as [_ C]. rewrite (cl_dims _ _ C). apply (al_dims _ _ AL p I). Qed.

(** What [compatible_patches] finds. *)
Lemma compatible_ok {A} D d (first : patch A) t : alike D (first :: t) ->
  compatible_patches d LWarn (first :: t) =
    Ok (map dp (filter (keepb d first) (first :: t)), if mem d D then D else D ++ [d], negb (mem d D)).
Proof.
  intros AL. unfold compatible_patches. rewrite (all_dropped D _ AL). cbn [bind map]. rewrite (strs_all D first t AL).
  rewrite (dp_dims D _ first AL (or_introl eq_refl)).
  change (dp first :: map dp t) with (map dp (first :: t)).
  rewrite (filter_r_ok _ (fun q => goes (Some d) false (p_cm (dp first)) (p_cm q))).
  - cbn [bind]. rewrite filter_map. destruct (mem d D); reflexivity.
  - intros q I. apply in_map_iff in I as (p & <- & I). apply check_both.
    rewrite (dp_dims D _ first AL (or_introl eq_refl)), (dp_dims D _ p AL I). reflexivity.
Qed.
Lemma compatible_raise_ok {A} D d (first : patch A) t : alike D (first :: t) -> (forall p, In p t -> fits_first d first p) ->
  compatible_patches d LRaise (first :: t) = compatible_patches d LWarn (first :: t).
Proof.
  intros AL H. rewrite (compatible_ok D d first t AL). unfold compatible_patches. rewrite (all_dropped D _ AL). cbn [bind map]. rewrite (strs_all D first t AL).
  rewrite (dp_dims D _ first AL (or_introl eq_refl)).
  change (dp first :: map dp t) with (map dp (first :: t)).
  rewrite (filter_r_ok _ (fun q => goes (Some d) false (p_cm (dp first)) (p_cm q))).
  - cbn [bind]. rewrite filter_map. destruct (mem d D); reflexivity.
  - intros q I. apply in_map_iff in I as (p & <- & I). rewrite check_both_raise.
    + change (goes (Some d) false (p_cm (dp first)) (p_cm (dp p))) with (keepb d first p).
      assert (keepb d first p = true) as ->; [|reflexivity]. apply (keepb_spec D d first t p AL I).
      destruct I as [->|I]; [apply fits_refl|apply H, I].
    + rewrite (dp_dims D _ first AL (or_introl eq_refl)), (dp_dims D _ p AL I). reflexivity.
Qed.
Lemma concat_raise_ok {A} D d val (first : patch A) t : alike D (first :: t) -> (forall p, In p t -> fits_first d first p) ->
  concatenate d val LRaise (first :: t) = concatenate d val LWarn (first :: t).
Proof. intros AL H. unfold concatenate. rewrite (compatible_raise_ok D d first t AL H). reflexivity. Qed.
Lemma concat_raise_err {A} D d val (first : patch A) t p : alike D (first :: t) -> In p t -> ~ fits_first d first p ->
  concatenate d val LRaise (first :: t) = Err IncompatiblePatchError.
Proof.
  intros AL I H. unfold concatenate, compatible_patches. rewrite (all_dropped D _ AL). cbn [bind map]. rewrite (strs_all D first t AL).
  change (dp first :: map dp t) with (map dp (first :: t)).
  assert (CB : forall q, In q (first :: t) -> both (check_dims (p_cm (dp first)) (p_cm (dp q)) LRaise false)
      (check_coords (p_cm (dp first)) (p_cm (dp q)) LRaise (Some d) false) = if keepb d first q then Ok true else Err IncompatiblePatchError).
  { intros q Iq. apply check_both_raise. rewrite (dp_dims D _ first AL (or_introl eq_refl)), (dp_dims D _ q AL Iq). reflexivity. }
  rewrite (filter_r_err _ IncompatiblePatchError (dp p)).
  - reflexivity.
  - intros q Iq. apply in_map_iff in Iq as (q' & <- & Iq). rewrite CB by exact Iq. destruct (keepb d first q'); auto.
  - apply in_map. right; exact I.
  - rewrite CB by (right; exact I). destruct (keepb d first p) eqn:K; [|reflexivity]. exfalso. apply H.
    apply (keepb_spec D d first t p AL (or_intror I)), K.
Qed.
Lemma concat_dims_err {A} d val lv (first : patch A) t p :
  (forall q, In q (first :: t) -> wf_patch q /\ forall e, In e (cm_dims (p_cm q)) -> ~ hidden e) ->
  In p t -> cm_dims (p_cm p) <> cm_dims (p_cm first) ->
  concatenate d val lv (first :: t) = Err PatchCoordinateError.
Proof.
  intros H I N. unfold concatenate, compatible_patches.
  assert (Q : forall q, In q (first :: t) -> drop_private q = Ok (dp q) /\ clean q (dp q)).
  { intros q Iq. destruct (H q Iq) as [W O]. destruct (drop_private_ok q W O) as (q' & E & C). unfold dp. rewrite E. auto. }
  rewrite (map_result_map _ dp) by (intros q Iq; apply Q, Iq). cbn [bind map].
  destruct (forallb _ (map dp t)) eqn:F; [|reflexivity]. exfalso. rewrite forallb_forall in F.
  specialize (F (dp p) (in_map dp _ _ I)). apply strs_eqb_eq in F.
  rewrite (cl_dims _ _ (proj2 (Q first (or_introl eq_refl)))), (cl_dims _ _ (proj2 (Q p (or_intror I)))) in F. congruence.
Qed.

(** ** Along a dimension *)
Lemma jv_valued k cs : cs <> [] -> (forall c, In c cs -> concrete c /\ c_kind c = k) ->
  joined_values cs = Ok (VArr k (List.concat (map c_ints cs))).
Proof.
  intros N H. destruct cs as [|c t]; [congruence|]. unfold joined_values.
  assert (forallb (fun d => negb (is_part d)) (c :: t) = true) as ->.
  { apply forallb_forall. intros x I. destruct (H x I) as [C _]. destruct x; cbn in *; [reflexivity..|contradiction]. }
  assert (forallb (fun d => kind_eqb (c_kind c) (c_kind d)) t = true) as ->.
  { apply forallb_forall. intros x I. destruct (H x (or_intror I)) as [_ ->]. destruct (H c (or_introl eq_refl)) as [_ ->]. destruct k; reflexivity. }
  destruct (H c (or_introl eq_refl)) as [_ ->]. reflexivity.
Qed.
Lemma jv_parts ns : ns <> [] -> fold_right Z.add 0 ns <> 1 ->
  joined_values (map CPart ns) = Ok (VCoord (M1 (CPart (total ns)))).
Proof.
  intros N H. destruct ns as [|n t]; [congruence|]. cbn [map]. unfold joined_values. cbn [forallb is_part negb andb].
  assert (forallb is_part (map CPart t) = true) as -> by (apply forallb_forall; intros x I; apply in_map_iff in I as (? & <- & _); reflexivity).
  change (CPart n :: map CPart t) with (map CPart (n :: t)). rewrite map_map. cbn [c_len]. rewrite map_id. cbn [andb].
  fold (total (n :: t)) in H. replace (total (n :: t) =? 1) with false by lia. reflexivity.
Qed.

Section Along.
Context {A : Type} (D : list string) (d : string) (first0 : patch A) (t0 : list (patch A)).
Hypothesis (AL : alike D (first0 :: t0)) (J : In d D).

Lemma open_d : private d = false.
Proof. apply private_open, (al_open _ _ AL), J. Qed.

(** A group whose labels along [d] make the coordinate [c']. *)
Lemma group_joined first rest cs c' v (labels : coord -> Prop) :
  (forall p, In p (first :: rest) -> In p (first0 :: t0) /\ fits_first d first0 p) ->
  map_result (fun p => dim_coord d (p_cm p)) (map dp (first :: rest)) = Ok cs -> joined_values cs = Ok v ->
  cval_coord v = recoord (M1 c') -> okc c' -> c_len c' = total (map (length_of d) (first :: rest)) ->
  (forall c, recf (M1 c') = M1 c -> labels c) ->
  exists ax out, index_of d D = Some ax /\
    (do a <- output_array (map dp (first :: rest)) ax false;
     do cm <- new_coords (map dp (first :: rest)) d false; new_patch cm a) = Ok out /\
    joined D d labels first rest out.
Proof.
  intros H EC EJ CV K L LB. set (g := first :: rest) in *. assert (I0 : In first g) by (left; reflexivity).
  assert (CL : forall p, In p g -> clean p (dp p)) by (intros p I; eapply dp_clean; [exact AL|apply H, I]).
  pose proof (CL first I0) as C0. pose proof open_d as OD.
  assert (LEN : forall e p, In e D -> In p g -> length_of e (dp p) = length_of e p).
  { intros e p Ie I. unfold length_of. rewrite (proj1 (cl_show _ _ (CL p I) e ltac:(apply private_open, (al_open _ _ AL), Ie))). reflexivity. }
  assert (WF0 : forall p, In p g -> wf_patch p) by (intros p I; apply (al_wf _ _ AL), H, I).
  assert (DM0 : forall p, In p g -> cm_dims (p_cm p) = D) by (intros p I; apply (al_dims _ _ AL), H, I).
  destruct (wf_dim_coord (p_cm first) d (wp_cm _ (WF0 first I0))) as (c & Ec & Wc & _); [rewrite DM0; assumption|].
  destruct (group_ok D d (dp first) (map dp rest) c c' v) as (ax & out & IX & X & EO & WO & DO & SO & CO & GO & KO).
  - change (dp first :: map dp rest) with (map dp g). intros q I. apply in_map_iff in I as (p & <- & I). apply (cl_wf _ _ (CL p I)).
  - change (dp first :: map dp rest) with (map dp g). intros q I. apply in_map_iff in I as (p & <- & I). rewrite (cl_dims _ _ (CL p I)). apply DM0, I.
  - change (dp first :: map dp rest) with (map dp g). intros e q q' Ie Ne I I'. apply in_map_iff in I as (p & <- & I). apply in_map_iff in I' as (p' & <- & I').
    rewrite !LEN by assumption.
    assert (SAME : forall r, In r g -> length_of e r = length_of e first0).
    { intros r Ir. destruct (H r Ir) as [Ir0 Fr].
      destruct (wf_dim_coord (p_cm r) e (wp_cm _ (WF0 r Ir))) as (cr & Er & _ & _); [rewrite DM0; assumption|].
      destruct (wf_dim_coord (p_cm first0) e (wp_cm _ (al_wf _ _ AL first0 (or_introl eq_refl)))) as (c1 & E1 & _ & _); [rewrite (al_dims _ _ AL first0 (or_introl eq_refl)); exact Ie|].
      pose proof (same_coord_shape _ _ (Fr e _ _ (al_open _ _ AL e Ie) Ne E1 Er)) as S. unfold length_of. rewrite Er, E1. cbn [m_shape] in S. congruence. }
    rewrite (SAME p I), (SAME p' I'). reflexivity.
  - apply (cl_plain _ _ C0), (al_plain _ _ AL), H, I0.
  - exact J.
  - rewrite (proj1 (cl_show _ _ C0 d OD)). exact Ec.
  - exact CV.
  - exact K.
  - change (dp first :: map dp rest) with (map dp g). rewrite L, map_map. f_equal. apply map_ext_in. intros p I. symmetry. apply LEN; assumption.
  - change (dp first :: map dp rest) with (map dp g). rewrite EC. exact EJ.
  - exists ax, out. split; [exact IX|]. split; [exact EO|].
    destruct (recf_M1 c' K) as (c2 & R1 & R2 & _).
    assert (LO : length_of d out = c_len c') by (unfold length_of; rewrite CO, R1; exact R2).
    assert (LF : length_of d first = c_len c) by (unfold length_of; rewrite Ec; reflexivity).
    split; [exact WO|exact DO| | | | |].
    + exists ax. split; [exact X|]. change (dp first :: map dp rest) with (map dp g) in SO. rewrite map_map in SO.
      rewrite (map_ext_in _ p_data) in SO; [exact SO|]. intros p I. apply (cl_data _ _ (CL p I)).
    + exists c2. rewrite CO, R1. split; [reflexivity|apply LB, R1].
    + intros n ds N Hn Ed Q. apply private_open in Hn. destruct (cl_show _ _ C0 n Hn) as [S1 S2].
      destruct (con_coord _ (wf_con _ (wp_cm _ (WF0 first I0))) n ds Ed) as (m & Em & _).
      destruct (KO n N) as [K1 K2].
      { unfold dims_of. rewrite S2, Ed. intros [Q1 Q2]. destruct Q as [Q|Q]; [contradiction|]. congruence. }
      exists m, (recf m). rewrite K1, K2, S1, S2, Em. cbn [option_map].
      pose proof (wf_vals _ (wp_cm _ (WF0 first I0)) _ _ Em) as Wm.
      split; [reflexivity|]. split; [reflexivity|]. split; [|reflexivity]. apply carried_recf; [apply wf_okm, Wm|apply carried_refl, Wm].
    + intros n ds N Ed I Q. destruct (private n) eqn:Pn.
      * destruct (KO n N) as [K1 K2].
        { unfold dims_of. rewrite (proj2 (cl_hide _ _ C0 n Pn)). intros [[] _]. }
        unfold lacks_coord. rewrite K1, K2, (proj1 (cl_hide _ _ C0 n Pn)), (proj2 (cl_hide _ _ C0 n Pn)). auto.
      * apply GO; [exact N| |congruence]. unfold dims_of. rewrite (proj2 (cl_show _ _ C0 n Pn)), Ed. exact I.
    + intros n N Q. assert (X0 : assoc n (cm_coords (p_cm (dp first))) = None /\ assoc n (cm_dmap (p_cm (dp first))) = None).
      { destruct (private n) eqn:Pn; [apply (cl_hide _ _ C0 n Pn)|]. destruct Q as [Q|Q]; [apply private_hidden in Q; congruence|].
        destruct (cl_show _ _ C0 n Pn) as [-> ->]. split; [exact Q|]. destruct (assoc n (cm_dmap (p_cm first))) as [ds|] eqn:Ed; [|reflexivity].
        destruct (con_coord _ (wf_con _ (wp_cm _ (WF0 first I0))) n ds Ed) as (m & Em & _). congruence. }
      destruct (KO n N) as [K1 K2]; [unfold dims_of; rewrite (proj2 X0); intros [[] _]|].
      unfold lacks_coord. rewrite K1, K2, (proj1 X0), (proj2 X0). auto.
Qed.
End Along.

Lemma map_result_Forall2' {B C} (f : B -> result C) (R : B -> C -> Prop) l : (forall x, In x l -> exists y, f x = Ok y /\ R x y) ->
  exists ys, map_result f l = Ok ys /\ Forall2 R l ys.
Proof.
  induction l as [|x l IH]; intros H; [exists []; split; [reflexivity|constructor]|].
  destruct (H x (or_introl eq_refl)) as (y & E & Ry). destruct IH as (ys & E2 & F); [intros z I; apply H; right; exact I|].
  exists (y :: ys). cbn [map_result]. rewrite E. cbn [bind]. rewrite E2. split; [reflexivity|constructor; assumption].
Qed.
Lemma map_result_comp {B C E} (f : C -> result E) (g : B -> C) l : map_result f (map g l) = map_result (fun x => f (g x)) l.
Proof. induction l as [|x l IH]; [reflexivity|]. cbn [map map_result]. rewrite IH. reflexivity. Qed.
Lemma filter_first {A} D d (first : patch A) t : alike D (first :: t) -> filter (keepb d first) (first :: t) <> [].
Proof.
  intros AL. cbn [filter]. assert (keepb d first first = true) as ->; [|discriminate].
  apply (keepb_spec D d first t first AL); [left; reflexivity|apply fits_refl].
Qed.
Lemma piece_nonempty {B} val (l : list B) gs g : match val with Some k => 0 < k | None => True end -> in_pieces val l gs -> In g gs -> g <> [].
Proof.
  intros V (_ & init & last & -> & NL & M) I. apply in_app_or in I as [I|[<-|[]]]; [|exact NL].
  destruct val as [k|]; [|rewrite M in I; destruct I]. destruct M as [_ M]. specialize (M g I). intros ->. rewrite zlen_nil in M. lia.
Qed.

Lemma concat_along {A} D d (first : patch A) t val (labels : list (patch A) -> coord -> Prop) : alike D (first :: t) -> In d D ->
  match val with Some k => 0 < k | None => True end ->
  (forall g, g <> [] -> (forall p, In p g -> In p (first :: t) /\ fits_first d first p) ->
     exists cs c' v, map_result (fun p => dim_coord d (p_cm p)) (map dp g) = Ok cs /\ joined_values cs = Ok v /\
       cval_coord v = recoord (M1 c') /\ okc c' /\ c_len c' = total (map (length_of d) g) /\
       forall c, recf (M1 c') = M1 c -> labels g c) ->
  exists kept gs outs, selects (fits_first d first) (first :: t) kept /\ in_pieces val kept gs /\
    concatenate d val LWarn (first :: t) = Ok outs /\
    Forall2 (fun g out => exists f r, g = f :: r /\ joined D d (labels g) f r out) gs outs.
Proof.
  intros AL J V H. set (ps := first :: t) in *. set (kept := filter (keepb d first) ps).
  destruct (sub_sequences_ok kept val (filter_first D d first t AL) V) as (gs & P & SS).
  assert (IK : forall g p, In g gs -> In p g -> In p ps /\ fits_first d first p).
  { intros g p Ig Ip. assert (In p kept) as I by (rewrite <- (proj1 P); apply in_concat; eauto).
    unfold kept in I. apply filter_In in I as [I K]. split; [exact I|]. apply (keepb_spec D d first t p AL I), K. }
  destruct (map_result_Forall2' (fun g => match index_of d D with
      | None => Err ValueError
      | Some axis => do a <- output_array (map dp g) axis false; do cm <- new_coords (map dp g) d false; new_patch cm a end)
     (fun g out => exists f r, g = f :: r /\ joined D d (labels g) f r out) gs) as (outs & EO & F).
  { intros g Ig. pose proof (piece_nonempty val kept gs g V P Ig) as NG.
    destruct (H g NG (fun p Ip => IK g p Ig Ip)) as (cs & c' & v & H1 & H2 & H3 & H4 & H5 & H6).
    destruct g as [|f r] eqn:Eg; [congruence|].
    destruct (group_joined D d first t AL J f r cs c' v (labels (f :: r)) (fun p Ip => IK _ p Ig Ip) H1 H2 H3 H4 H5 H6) as (ax & out & IX & E & JD).
    exists out. rewrite IX, E. split; [reflexivity|]. exists f, r. auto. }
  exists kept, gs, outs. split; [apply selects_filter; intros p I; apply (keepb_spec D d first t p AL I)|]. split; [exact P|]. split; [|exact F].
  unfold concatenate, ps. rewrite (compatible_ok D d first t AL). fold ps kept.
  assert (mem d D = true) as -> by (apply mem_In', J). cbn [negb bind]. rewrite SS. cbn [bind]. rewrite map_result_comp. exact EO.
Qed.

Lemma concat_valued {A} D d k (first : patch A) t val : alike D (first :: t) -> In d D -> valued d k (first :: t) ->
  match val with Some n => 0 < n | None => True end ->
  exists kept gs outs, selects (fits_first d first) (first :: t) kept /\ in_pieces val kept gs /\
    concatenate d val LWarn (first :: t) = Ok outs /\
    Forall2 (fun g out => exists f r, g = f :: r /\
      joined D d (fun c => represents c (List.concat (map (fun p => values_of d (p_cm p)) g))) f r out) gs outs.
Proof.
  intros AL J VA V. apply (concat_along D d first t val (fun g c => represents c (List.concat (map (fun p => values_of d (p_cm p)) g))) AL J V).
  intros g NG H. pose proof (open_d D d first t AL J) as OD.
  set (dc := fun p : patch A => match assoc d (cm_coords (p_cm p)) with Some (M1 c) => c | _ => CPart 0 end).
  set (vs := List.concat (map (fun p => values_of d (p_cm p)) g)).
  assert (Q : forall p, In p g -> assoc d (cm_coords (p_cm p)) = Some (M1 (dc p)) /\ concrete (dc p) /\ c_kind (dc p) = k /\ wf_coord (dc p)).
  { intros p I. destruct (H p I) as [Ip _]. destruct (VA p Ip) as (c & Ec & Cc & Kc). unfold dc. rewrite Ec. do 3 (split; [auto|]).
    exact (wf_vals _ (wp_cm _ (al_wf _ _ AL p Ip)) _ _ Ec). }
  exists (map dc g), (CArr k vs), (VArr k vs).
  split.
  { rewrite map_result_comp. apply map_result_map. intros p I. destruct (H p I) as [Ip _]. destruct (dp_clean D _ p AL Ip) as [_ C].
    unfold dim_coord. rewrite (proj1 (cl_show _ _ C d OD)), (proj1 (Q p I)). reflexivity. }
  split.
  { rewrite (jv_valued k).
    - do 3 f_equal. unfold vs. rewrite map_map. f_equal. apply map_ext_in. intros p I. unfold values_of. rewrite (proj1 (Q p I)). reflexivity.
    - intros E. apply map_eq_nil in E. contradiction.
    - intros c I. apply in_map_iff in I as (p & <- & I). destruct (Q p I) as (_ & ? & ? & _). auto. }
  split; [reflexivity|]. split; [exact Logic.I|]. split.
  { cbn [c_len]. unfold vs. clear NG vs. induction g as [|p g IH]; [reflexivity|]. cbn [map List.concat total fold_right]. rewrite zlen_app.
    fold (total (map (length_of d) g)). rewrite IH; [|intros r I; apply H; right; exact I|intros r I; apply Q; right; exact I].
    destruct (Q p (or_introl eq_refl)) as (E & C & _ & W). unfold values_of, length_of. rewrite E.
    rewrite (c_ints_len _ (wf_okc _ W) C). reflexivity. }
  intros c E. unfold recf in E. cbn [recoord] in E. destruct (get_coord_represents k vs) as (c1 & E1 & R & _). rewrite E1 in E. cbn [bind] in E. injection E as <-. exact R.
Qed.

Lemma concat_parts {A} D d (first : patch A) t : alike D (first :: t) -> In d D ->
  unvalued d (first :: t) ->
  (forall kept, selects (fits_first d first) (first :: t) kept -> total (map (length_of d) kept) <> 1) ->
  exists kept out, selects (fits_first d first) (first :: t) kept /\
    concatenate d None LWarn (first :: t) = Ok [out] /\ exists f r, kept = f :: r /\
    joined D d (fun c => c = CPart (total (map (length_of d) kept))) f r out.
Proof.
  intros AL J VA NT. pose proof (open_d D d first t AL J) as OD.
  set (kept := filter (keepb d first) (first :: t)).
  assert (SK : selects (fits_first d first) (first :: t) kept) by (apply selects_filter; intros p I; apply (keepb_spec D d first t p AL I)).
  assert (X : exists ax out, index_of d D = Some ax /\
    (do a <- output_array (map dp kept) ax false; do cm <- new_coords (map dp kept) d false; new_patch cm a) = Ok out /\
    exists f r, kept = f :: r /\ joined D d (fun c => c = CPart (total (map (length_of d) kept))) f r out).
  { assert (HK : forall p, In p kept -> In p (first :: t) /\ fits_first d first p).
    { intros p I. apply filter_In in I as [I K]. split; [exact I|]. apply (keepb_spec D d first t p AL I), K. }
    assert (NK : kept <> []) by apply (filter_first D d first t AL).
    pose proof (NT kept SK) as NT'.
    assert (LP : forall p, In p kept -> assoc d (cm_coords (p_cm p)) = Some (M1 (CPart (length_of d p))) /\ 0 <= length_of d p).
    { intros p I. destruct (HK p I) as [Ip _]. destruct (VA p Ip) as (n & En). unfold length_of. rewrite En. cbn [c_len]. split; [reflexivity|].
      exact (wf_vals _ (wp_cm _ (al_wf _ _ AL p Ip)) _ _ En). }
    destruct kept as [|f r] eqn:Ek; [congruence|]. rewrite <- Ek in *.
    destruct (group_joined D d first t AL J f r (map CPart (map (length_of d) kept)) (CPart (total (map (length_of d) kept))) (VCoord (M1 (CPart (total (map (length_of d) kept)))))
       (fun c => c = CPart (total (map (length_of d) kept)))) as (ax & out & IX & E & JD).
    - rewrite <- Ek. exact HK.
    - rewrite <- Ek. rewrite map_result_comp, map_map. apply map_result_map. intros p I. destruct (HK p I) as [Ip _]. destruct (dp_clean D _ p AL Ip) as [_ C].
      unfold dim_coord. rewrite (proj1 (cl_show _ _ C d OD)), (proj1 (LP p I)). reflexivity.
    - apply jv_parts; [rewrite Ek; discriminate|exact NT'].
    - reflexivity.
    - cbn [okc]. clear - LP. induction kept as [|p l IH]; [cbn; lia|]. cbn [map total fold_right]. fold (total (map (length_of d) l)).
      pose proof (proj2 (LP p (or_introl eq_refl))). assert (0 <= total (map (length_of d) l)) by (apply IH; intros q I; apply LP; right; exact I). lia.
    - rewrite <- Ek. reflexivity.
    - intros c E. unfold recf in E. cbn [recoord] in E. congruence.
    - exists ax, out. rewrite <- Ek in E. split; [exact IX|]. split; [exact E|]. exists f, r. auto. }
  destruct X as (ax & out & IX & E & f & r & Ek & JD). exists kept, out. split; [exact SK|]. split; [|eauto].
  unfold concatenate. rewrite (compatible_ok D d first t AL). fold kept.
  assert (mem d D = true) as -> by (apply mem_In', J). cbn [negb bind].
  assert (sub_sequences (map dp kept) None = Ok [map dp kept]) as ->.
  { destruct (sub_sequences_ok kept None ltac:(rewrite Ek; discriminate) Logic.I) as (gs & (C & init & last & -> & _ & ->) & SS). rewrite SS. cbn in C |- *. rewrite app_nil_r in C. rewrite C. reflexivity. }
  cbn [bind map_result]. rewrite IX, E. reflexivity.
Qed.

Lemma concat_zero_err {A} D d (first : patch A) t : alike D (first :: t) ->
  concatenate d (Some 0) LWarn (first :: t) = Err ValueError.
Proof. intros AL. unfold concatenate. rewrite (compatible_ok D d first t AL). reflexivity. Qed.

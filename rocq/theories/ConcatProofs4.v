(** Lemmas behind ConcatProps.v: concatenation along a new dimension. *)
From Verif Require Import Base ProcProofs2 BaseFacts CoordModel CoordSpec CoordProofs CoordProofs2 CoordProofs3
  CoordProofs4 CoordProofs5 NdModel NdSpec NdProofs NdProofs2 NdProofs3 FrameModel FrameProofs5 ChunkModel CmModel CmSpec
  CmProofs CmProofs2 CmProofs3 CmProofs4 CmProofs12 CmProofs13 CmProofs15 CmProofs17 MergeModel MergeSpec MergeProofs MergeProofs5 MergeProofs6 MergeProofs7 BinOpModel ConcatModel ConcatSpec ConcatProofs ConcatProofs2 ConcatProofs3.
From Coq Require Import Strings.String Strings.Ascii ZifyBool.
Ltac Zify.zify_post_hook ::= Z.div_mod_to_equations.
Local Open Scope Z_scope.
Local Open Scope list_scope.

Lemma index_of_last d D : ~ In d D -> index_of d (D ++ [d]) = Some (List.length D).
Proof.
  induction D as [|x l IH]; intros N; cbn [app index_of List.length]; [rewrite String.eqb_refl; reflexivity|].
  destruct (String.eqb_spec d x) as [->|Q]; [destruct N; left; reflexivity|]. rewrite IH; [reflexivity|]. intros I; apply N; right; exact I.
Qed.
Lemma put_last {B} (l : list B) x y n : List.length l = n -> put (l ++ [x]) n y = l ++ [y].
Proof. intros <-. apply put_app_here. Qed.

(** Arrays of one shape side by side. *)
Lemma side_by_side {A} (s : list Z) (l : list (nd A)) n : l <> [] -> List.length s = n ->
  (forall a, In a l -> wf_nd a /\ nd_shape a = s) ->
  exists bs out, map_result (fun a => match nd_append a [1] with Some b => Ok b | None => Err Unmodelled end) l = Ok bs /\
    nd_concat n bs = Ok out /\ wf_nd out /\ nd_shape out = s ++ [zlen l] /\
    forall i a ix, znth l i = Some a -> inb s ix -> nd_get out (ix ++ [i]) = nd_get a ix.
Proof.
  intros NE LS H.
  destruct (map_result_Forall2' (fun a => match nd_append a [1] with Some b => Ok b | None => Err Unmodelled end)
     (fun a b => wf_nd b /\ nd_shape b = s ++ [1] /\ forall ix, nd_get b (ix ++ [0]) = nd_get a ix) l) as (bs & EB & F).
  { intros a I. destruct (H a I) as [W S]. destruct (nd_append_ok a [1] W) as (b & E & Wb & Sb & G); [repeat constructor; lia|].
    exists b. rewrite E. split; [reflexivity|]. split; [exact Wb|]. split; [rewrite Sb, S; reflexivity|]. intros ix. apply G. repeat constructor; lia. }
  exists bs.
  assert (HB : forall b, In b bs -> wf_nd b /\ nd_shape b = s ++ [1]).
  { clear - F. induction F as [|a b l bs (W & S & _) F IH]; [intros b []|]. intros x [<-|I]; auto. }
  assert (ZL : zlen bs = zlen l) by (apply Forall2_length in F; unfold zlen; lia).
  destruct bs as [|b0 bt] eqn:Eb; [destruct l; [congruence|inversion F]|]. rewrite <- Eb in *.
  assert (I0 : In b0 bs) by (rewrite Eb; left; reflexivity).
  assert (AX : forall b, In b bs -> axis_len n b = 1).
  { intros b I. destruct (HB b I) as [_ S]. unfold axis_len. rewrite S. rewrite nth_error_app2 by lia. rewrite LS, Nat.sub_diag. reflexivity. }
  assert (TT : forall l', (forall b, In b l' -> In b bs) -> total (map (axis_len n) l') = zlen l').
  { induction l' as [|b l' IH]; intros Q; [reflexivity|]. cbn [map total fold_right]. fold (total (map (axis_len n) l')).
    rewrite zlen_cons, IH by (intros; apply Q; right; assumption). rewrite AX by (apply Q; left; reflexivity). lia. }
  destruct (nd_concat_ok n bs b0 I0) as (out & EO & WO & SO & ST).
  - intros b I. destruct (HB b I) as [W S]. split; [exact W|]. rewrite S, app_length. cbn. lia.
  - intros b I. rewrite (proj2 (HB b I)), (proj2 (HB b0 I0)). reflexivity.
  - exists out. split; [exact EB|]. split; [exact EO|]. split; [exact WO|]. split.
    + rewrite SO, (proj2 (HB b0 I0)), (TT bs) by auto. rewrite put_last by exact LS. congruence.
    + intros i a ix Ei Ix. assert (LX : List.length ix = n) by (pose proof (proj1 (inb_nth _ _) Ix) as [LL _]; lia).
      pose proof (znth_some _ _ _ Ei) as Bi. unfold znth in Ei. replace (i <? 0) with false in Ei by lia.
      destruct (nth_error_split _ _ Ei) as (pre & post & El & Lp).
      rewrite El in F. apply Forall2_app_inv_l in F as (pre' & post0 & Fp & Fq & Ebs). inversion Fq as [|? b ? post' Gb Fq']; subst post0.
      destruct Gb as (Wb & Sb & Gb). rewrite <- (Gb ix).
      assert (LPre : zlen pre' = i) by (apply Forall2_length in Fp; unfold zlen; lia).
      assert (XX : forall l', (forall b, In b l' -> In b bs) -> fold_right Z.add 0 (map (fun c => nth n (nd_shape c) 0) l') = zlen l').
      { intros l' Q. rewrite <- (TT l' Q). unfold total. f_equal. apply map_ext_in. intros c Ic. unfold axis_len.
        destruct (nth_error (nd_shape c) n) eqn:Ec; [apply nth_error_nth; exact Ec|apply nth_overflow, nth_error_None, Ec]. }
      rewrite <- (ST pre' b post' (ix ++ [0]) 0 Ebs).
      * rewrite XX by (intros c Ic; rewrite Ebs; apply in_or_app; left; exact Ic). rewrite put_last by exact LX. rewrite LPre. f_equal. f_equal. f_equal. lia.
      * rewrite Sb. unfold inb in *. apply Forall2_app; [exact Ix|]. repeat constructor; lia.
      * rewrite nth_error_app2 by lia. rewrite LX, Nat.sub_diag. reflexivity.
Qed.

Lemma concat_new {A} D d (first : patch A) t val : alike D (first :: t) -> ~ In d D -> limit_key D d = false ->
  (forall p, In p (first :: t) -> assoc d (cm_coords (p_cm p)) = None) ->
  match val with Some n => 0 < n | None => True end ->
  exists kept gs outs, selects (fits_first d first) (first :: t) kept /\ in_pieces val kept gs /\
    concatenate d val LWarn (first :: t) = Ok outs /\ Forall2 (layered D d) gs outs.
Proof.
  intros AL ND LK NC V. set (ps := first :: t) in *. set (kept := filter (keepb d first) ps).
  destruct (sub_sequences_ok kept val (filter_first D d first t AL) V) as (gs & P & SS).
  assert (IK : forall g p, In g gs -> In p g -> In p ps /\ fits_first d first p).
  { intros g p Ig Ip. assert (In p kept) as I by (rewrite <- (proj1 P); apply in_concat; eauto).
    unfold kept in I. apply filter_In in I as [I K]. split; [exact I|]. apply (keepb_spec D d first t p AL I), K. }
  destruct (map_result_Forall2' (fun g => match index_of d (D ++ [d]) with
      | None => Err ValueError
      | Some axis => do a <- output_array (map dp g) axis true; do cm <- new_coords (map dp g) d true; new_patch cm a end)
     (layered D d) gs) as (outs & EO & F).
  { intros g Ig. pose proof (piece_nonempty val kept gs g V P Ig) as NG. rewrite (index_of_last d D ND).
    assert (Hg : forall p, In p g -> In p ps /\ fits_first d first p) by (intros p Ip; apply (IK g p Ig Ip)). clear IK.
    assert (CL : forall p, In p g -> clean p (dp p)) by (intros p I; eapply dp_clean; [exact AL|apply Hg, I]).
    assert (WF0 : forall p, In p g -> wf_patch p) by (intros p I; apply (al_wf _ _ AL), Hg, I).
    assert (DM0 : forall p, In p g -> cm_dims (p_cm p) = D) by (intros p I; apply (al_dims _ _ AL), Hg, I).
    destruct g as [|f r] eqn:Eg; [congruence|]. rewrite <- Eg in *. assert (If : In f g) by (rewrite Eg; left; reflexivity).
    set (s := nd_shape (p_data f)).
    assert (SAMES : forall p, In p g -> nd_shape (p_data p) = s).
    { assert (Q : forall p, In p g -> nd_shape (p_data p) = map (fun e => length_of e first) D).
      { intros p I. pose proof (wp_shape _ (WF0 p I)) as Fp. rewrite (DM0 p I) in Fp.
        assert (G : forall e n, In e D -> dim_len (p_cm p) e n -> n = length_of e first).
        { intros e n Ie (ce & Ee & Le). destruct (Hg p I) as [Ip Fi].
          destruct (wf_dim_coord (p_cm first) e (wp_cm _ (al_wf _ _ AL first (or_introl eq_refl)))) as (c1 & E1 & _ & _); [rewrite (al_dims _ _ AL first (or_introl eq_refl)); exact Ie|].
          assert (Ne : e <> d) by (intros ->; contradiction).
          pose proof (same_coord_shape _ _ (Fi e _ _ (al_open _ _ AL e Ie) Ne E1 Ee)) as S. unfold length_of. rewrite E1. cbn [m_shape] in S. congruence. }
        clear - Fp G. induction Fp as [|e n D' s' H F IH]; [reflexivity|]. cbn [map]. f_equal; [apply G; [left; reflexivity|exact H]|].
        apply IH. intros e' n' I. apply G. right; exact I. }
      intros p I. unfold s. rewrite (Q p I), (Q f If). reflexivity. }
    assert (LS : List.length s = List.length D).
    { unfold s. pose proof (wp_shape _ (WF0 f If)) as Fp. rewrite (DM0 f If) in Fp. symmetry. eapply Forall2_length. exact Fp. }
    destruct (side_by_side s (map p_data g) (List.length D)) as (bs & a & EB & EA & Wa & Sa & Ga).
    { intros Q. apply map_eq_nil in Q. rewrite Eg in Q. discriminate. }
    { exact LS. }
    { intros x I. apply in_map_iff in I as (p & <- & I). split; [apply (wp_nd _ (WF0 p I))|apply SAMES, I]. }
    assert (EOA : output_array (map dp g) (List.length D) true = Ok a).
    { unfold output_array. rewrite map_result_comp. rewrite <- (map_result_comp (fun x => match nd_append x [1] with Some b => Ok b | None => Err Unmodelled end) (fun p => p_data (dp p))).
      rewrite (map_ext_in (fun p => p_data (dp p)) p_data) by (intros p I; apply (cl_data _ _ (CL p I))). rewrite EB. cbn [bind]. exact EA. }
    pose proof (CL f If) as Cf.
    assert (NF : ~ In d (map fst (cm_coords (p_cm (dp f))))).
    { intros I. apply assoc_In in I as [m Em]. destruct (private d) eqn:Pd.
      - rewrite (proj1 (cl_hide _ _ Cf d Pd)) in Em. discriminate.
      - rewrite (proj1 (cl_show _ _ Cf d Pd)), (NC f (proj1 (Hg f If))) in Em. discriminate. }
    destruct (pt_append_ok (dp f) [(d, VLen (zlen g))]) as (p' & EP & WP & DP & KP & NP & VP & _).
    { apply (cl_wf _ _ Cf). } { repeat constructor; intros []. } { discriminate. }
    { intros e [<-|[]]. split; [exact NF|]. split; [cbn [fst]; rewrite (cl_dims _ _ Cf), (DM0 f If); exact LK|cbn; apply zlen_nonneg]. }
    assert (EU : cm_update (p_cm (dp f)) [(d, KTuple [d] (VLen (zlen g)))] = Ok (p_cm p')).
    { unfold pt_append_dims in EP. cbn [filter fst] in EP. assert (mem d (cm_dims (p_cm (dp f))) = false) as Md by (apply mem_false; rewrite (cl_dims _ _ Cf), (DM0 f If); exact ND).
      rewrite Md in EP. cbn [negb] in EP. cbn [map_result cval_shape snd bind map fst] in EP. destruct (nd_append _ _); [|discriminate].
      destruct (cm_update _ _) as [cm|]; [|discriminate]. cbn [bind] in EP. unfold new_patch in EP. destruct (cm_shape cm); [|discriminate]. cbn [bind] in EP.
      destruct (zlist_eqb _ _); [|discriminate]. injection EP as <-. reflexivity. }
    assert (ENC : new_coords (map dp g) d true = Ok (p_cm p')).
    { unfold new_coords. rewrite Eg at 1. cbn [map]. rewrite zlen_map. exact EU. }
    assert (DP' : cm_dims (p_cm p') = D ++ [d]) by (rewrite DP, (cl_dims _ _ Cf), (DM0 f If); reflexivity).
    destruct (VP d (VLen (zlen g))) as (Vd & c & Ec & Q); [cbn [assoc]; rewrite String.eqb_refl; reflexivity|]. subst c.
    assert (SH : Forall2 (dim_len (p_cm p')) (D ++ [d]) (s ++ [zlen g])).
    { apply Forall2_app; [|repeat constructor; exists (CPart (zlen g)); auto].
      pose proof (wp_shape _ (cl_wf _ _ Cf)) as Fp. rewrite (cl_dims _ _ Cf), (DM0 f If), (cl_data _ _ Cf) in Fp. fold s in Fp.
      eapply Forall2_impl_in; [|exact Fp]. cbv beta. intros e n Ie (ce & Ee & Le).
      destruct (KP e) as [K1 _]; [apply assoc_In; eauto|]. rewrite Ee in K1. cbn [option_map] in K1.
      destruct (recf_M1 ce) as (ce2 & Q1 & Q2 & _); [apply wf_okc; exact (wf_vals _ (wp_cm _ (cl_wf _ _ Cf)) _ _ Ee)|].
      exists ce2. rewrite K1, Q1. split; [reflexivity|lia]. }
    exists (mkPatch (p_cm p') a). split.
    - rewrite EOA. cbn [bind]. rewrite ENC. cbn [bind]. unfold new_patch.
      rewrite zlen_map in Sa. assert (cm_shape (p_cm p') = Ok (nd_shape a)) as ->.
      { rewrite Sa. clear - DP' SH. unfold cm_shape. rewrite DP'. destruct (D ++ [d]) as [|x l] eqn:E; [destruct D; discriminate|].
        revert SH. generalize (x :: l) (s ++ [zlen g]). intros l' s' F. clear - F. induction F as [|y n l s (c & Ec & Lc) F IH]; [reflexivity|].
        cbn [map_result]. rewrite Ec. cbn [m_len m_shape bind]. rewrite IH. cbn [bind]. rewrite Lc. reflexivity. }
      cbn [bind]. rewrite (proj2 (CmProofs.zlist_eqb_eq _ _) eq_refl). reflexivity.
    - rewrite zlen_map in Sa. split; cbn [p_cm p_data].
      + split; cbn [p_cm p_data]; [apply (wp_cm _ WP)|exact Wa|rewrite DP'; destruct D; discriminate|rewrite DP', Sa; exact SH].
      + exact DP'.
      + intros i p ix Ei Ix. assert (Ip : In p g).
        { pose proof (znth_some _ _ _ Ei) as Bi. unfold znth in Ei. replace (i <? 0) with false in Ei by lia. eapply nth_error_In; exact Ei. }
        apply Ga; [rewrite znth_map, Ei; reflexivity|rewrite <- (SAMES p Ip); exact Ix].
      + exact Ec.
      + intros f' r' n m Eg' N Hn Em. rewrite Eg in Eg'. injection Eg' as <- <-. apply private_open in Hn. destruct (cl_show _ _ Cf n Hn) as [S1 S2].
        destruct (KP n) as [K1 K2]; [apply assoc_In; rewrite S1; eauto|]. exists m, (recf m). cbn [p_cm]. rewrite K1, K2, S1, S2, Em. cbn [option_map].
        pose proof (wf_vals _ (wp_cm _ (WF0 f If)) _ _ Em) as Wm.
        split; [reflexivity|]. split; [reflexivity|]. split; [|reflexivity]. apply carried_recf; [apply wf_okm, Wm|apply carried_refl, Wm].
      + intros f' r' n Eg' N Q. rewrite Eg in Eg'. injection Eg' as <- <-.
        assert (X0 : assoc n (cm_coords (p_cm (dp f))) = None).
        { destruct (private n) eqn:Pn; [apply (cl_hide _ _ Cf n Pn)|]. destruct Q as [Q|Q]; [apply private_hidden in Q; congruence|].
          rewrite (proj1 (cl_show _ _ Cf n Pn)). exact Q. }
        assert (X1 : assoc n (cm_coords (p_cm p')) = None).
        { apply NP; [intros I; apply assoc_In in I as [m Em]; congruence|]. cbn. intros [Q'|[]]. congruence. }
        split; cbn [p_cm]; [exact X1|]. destruct (assoc n (cm_dmap (p_cm p'))) as [ds|] eqn:Ed; [|reflexivity].
        destruct (con_coord _ (wf_con _ (wp_cm _ WP)) n ds Ed) as (m & Em & _). congruence. }
  exists kept, gs, outs. split; [apply selects_filter; intros p I; apply (keepb_spec D d first t p AL I)|]. split; [exact P|]. split; [|exact F].
  unfold concatenate, ps. rewrite (compatible_ok D d first t AL). fold ps kept.
  assert (mem d D = false) as -> by (apply mem_false, ND). cbn [negb bind]. rewrite SS. cbn [bind]. rewrite map_result_comp. exact EO.
Qed.

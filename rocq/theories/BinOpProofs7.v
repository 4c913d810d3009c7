(** Lemmas behind BinOpProps.v: an operation between a patch and an array. *)
From Verif Require Import Base BaseFacts CoordModel CoordSpec CoordProofs CoordProofs2 CoordProofs3
  CoordProofs4 CoordProofs5 NdModel NdSpec NdProofs NdProofs2 NdProofs3 FrameModel FrameProofs5 ChunkModel CmModel CmSpec
  CmProofs CmProofs2 CmProofs3 CmProofs4 CmProofs8 CmProofs10 CmProofs12 CmProofs13 CmProofs15 BinOpModel BinOpSpec BinOpProofs BinOpProofs2 BinOpProofs3 BinOpProofs4 BinOpProofs5 BinOpProofs6.
From Verif Require MergeProofs5.
From Coq Require Import Strings.String ZifyBool Sorting.Permutation Sorting.Sorted.
Ltac Zify.zify_post_hook ::= Z.div_mod_to_equations.
Local Open Scope Z_scope.
Local Open Scope list_scope.

Lemma bcast_rev_tail {D} (l1 lb l : D -> Z) T F :
  (forall d, In d T -> bcast_len (l1 d) (lb d) = Some (l d)) -> (forall d, In d F -> l d = l1 d) ->
  bcast_rev (map l1 (T ++ F)) (map lb T) = Some (map l (T ++ F)).
Proof.
  induction T as [|d t IH]; intros H G; cbn [map app].
  - cbn [bcast_rev]. destruct F as [|x F]; [reflexivity|]. cbn [map bcast_rev]. rewrite (G x (or_introl eq_refl)). f_equal. f_equal.
    apply map_ext_in. intros y Y. symmetry. apply G. right. exact Y.
  - cbn [map bcast_rev]. rewrite (H d (or_introl eq_refl)), IH; [reflexivity| |exact G]. intros x X. apply H. right. exact X.
Qed.
Lemma broadcast_shapes_tail {D} (l1 lb l : D -> Z) T F :
  (forall d, In d T -> bcast_len (l1 d) (lb d) = Some (l d)) -> (forall d, In d F -> l d = l1 d) ->
  broadcast_shapes (map l1 (F ++ T)) (map lb T) = Some (map l (F ++ T)).
Proof.
  intros H G. unfold broadcast_shapes. rewrite <- !map_rev, rev_app_distr, (bcast_rev_tail l1 lb l).
  - cbn [option_map]. rewrite <- map_rev, rev_app_distr, !rev_involutive. reflexivity.
  - intros d J. apply H, in_rev, J.
  - intros d J. apply G, in_rev, J.
Qed.
Lemma bcast_ix_tail (l pos : string -> Z) T F : bcast_ix (map l T) (map pos (F ++ T)) = map (squash l pos) T.
Proof.
  unfold bcast_ix. rewrite <- !map_rev, rev_app_distr.
  assert (H : forall k r, bcast_ix_rev (map l k) (map pos (k ++ r)) = map (squash l pos) k).
  { induction k as [|d t IH]; intros r; [destruct r; reflexivity|]. cbn [map app bcast_ix_rev]. rewrite IH. reflexivity. }
  rewrite H, map_rev, rev_involutive. reflexivity.
Qed.

Lemma nd_map2_tail {A B C} (op : A -> B -> C) (a : nd A) (b : nd B) F T (l lb : string -> Z) :
  NoDup (F ++ T) -> wf_nd a -> wf_nd b -> nd_shape a = map l (F ++ T) -> nd_shape b = map lb T ->
  (forall d, In d T -> lb d = l d \/ lb d = 1) ->
  exists c, nd_map2 op a b = Ok c /\ wf_nd c /\ nd_shape c = map l (F ++ T) /\
    forall pos, (forall d, In d (F ++ T) -> 0 <= pos d < l d) ->
      exists x y, nd_get a (map pos (F ++ T)) = Some x /\ nd_get b (map (squash lb pos) T) = Some y /\
        nd_get c (map pos (F ++ T)) = Some (op x y).
Proof.
  intros ND Wa Wb Sa Sb H. set (D := F ++ T) in *.
  assert (ID : forall d, In d T -> In d D) by (intros d J; apply in_or_app; auto).
  assert (NN : Forall (fun n => 0 <= n) (map l D)) by (rewrite <- Sa; apply Wa).
  assert (BS : broadcast_shapes (map l D) (map lb T) = Some (map l D)).
  { apply broadcast_shapes_tail; [|reflexivity]. intros d J. unfold bcast_len. destruct (H d J) as [E|E]; rewrite E; [rewrite Z.eqb_refl; reflexivity|].
    destruct (Z.eqb_spec (l d) 1) as [X|X]; [rewrite X; reflexivity|]. reflexivity. }
  unfold nd_map2. rewrite Sa, Sb, BS.
  assert (G : forall pos, (forall d, In d D -> 0 <= pos d < l d) ->
    exists x y, nd_get a (map pos D) = Some x /\ nd_get b (map (squash lb pos) T) = Some y).
  { intros pos P. destruct (nd_get_total a (map pos D) Wa) as [x X]; [rewrite Sa; apply inb_map, P|].
    destruct (nd_get_total b (map (squash lb pos) T) Wb) as [y Y]; [|eauto]. rewrite Sb. apply inb_map. intros d J. specialize (P d (ID d J)).
    unfold squash. destruct (H d J) as [E|E]; destruct (Z.eqb_spec (lb d) 1); lia. }
  set (f := fun ix => match nd_get a (bcast_ix (map l D) ix), nd_get b (bcast_ix (map lb T) ix) with
                      | Some x, Some y => Some (op x y) | _, _ => None end).
  assert (SQ : forall pos, (forall d, In d D -> 0 <= pos d < l d) -> map (squash l pos) D = map pos D).
  { intros pos P. apply map_ext_in. intros d J. specialize (P d J). unfold squash. destruct (Z.eqb_spec (l d) 1); lia. }
  assert (FV : forall pos, (forall d, In d D -> 0 <= pos d < l d) -> forall x y, nd_get a (map pos D) = Some x -> nd_get b (map (squash lb pos) T) = Some y ->
    f (map pos D) = Some (op x y)).
  { intros pos P x y X Y. unfold f. rewrite bcast_ix_map, (SQ pos P), X. unfold D. rewrite bcast_ix_tail, Y. reflexivity. }
  destruct (nd_build_total (map l D) f NN) as [c E].
  { intros ix I. destruct (by_name D ix ND) as [pos ->]; [rewrite (inb_length _ _ I), map_length; reflexivity|].
    rewrite inb_map in I. destruct (G pos I) as (x & y & X & Y). exists (op x y). apply FV; assumption. }
  rewrite E. exists c. split; [reflexivity|]. destruct (nd_build_spec _ _ _ NN E) as (S & W & V).
  split; [exact W|]. split; [exact S|]. intros pos P. destruct (G pos P) as (x & y & X & Y). exists x, y.
  split; [exact X|]. split; [exact Y|]. destruct (V (map pos D)) as (z & Fz & ->); [apply inb_map, P|]. rewrite <- Fz. apply FV; assumption.
Qed.

Lemma broadcast_to_ok {A} (a : nd A) D (l1 l : string -> Z) : NoDup D -> wf_nd a -> nd_shape a = map l1 D ->
  (forall d, In d D -> l d = l1 d \/ (l1 d = 1 /\ 0 <= l d)) ->
  exists b, broadcast_to a (map l D) = Ok b /\ wf_nd b /\ nd_shape b = map l D /\
    forall pos, (forall d, In d D -> 0 <= pos d < l d) -> nd_get b (map pos D) = nd_get a (map (squash l1 pos) D).
Proof.
  intros ND Wa Sa H. unfold broadcast_to. rewrite Sa.
  assert (NN1 : Forall (fun n => 0 <= n) (map l1 D)) by (rewrite <- Sa; apply Wa).
  assert (NN : Forall (fun n => 0 <= n) (map l D)).
  { rewrite Forall_forall in *. intros n J. apply in_map_iff in J as (d & <- & J). destruct (H d J) as [->|[_ X]]; [|exact X]. apply NN1, in_map, J. }
  set (f := fun ix => nd_get a (bcast_ix (map l1 D) ix)).
  assert (G : forall pos, (forall d, In d D -> 0 <= pos d < l d) -> exists x, f (map pos D) = Some x /\ nd_get a (map (squash l1 pos) D) = Some x).
  { intros pos P. unfold f. rewrite bcast_ix_map. destruct (nd_get_total a (map (squash l1 pos) D) Wa) as [x X]; [|eauto].
    rewrite Sa. apply inb_map. intros d J. specialize (P d J). unfold squash. destruct (H d J) as [E|[E _]]; destruct (Z.eqb_spec (l1 d) 1); lia. }
  destruct (nd_build_total (map l D) f NN) as [c E].
  { intros ix I. destruct (by_name D ix ND) as [pos ->]; [rewrite (inb_length _ _ I), map_length; reflexivity|].
    rewrite inb_map in I. destruct (G pos I) as (x & X & _). eauto. }
  rewrite E. exists c. split; [reflexivity|]. destruct (nd_build_spec _ _ _ NN E) as (S & W & V).
  split; [exact W|]. split; [exact S|]. intros pos P. destruct (G pos P) as (x & X & Y). destruct (V (map pos D)) as (z & Fz & ->); [apply inb_map, P|]. congruence.
Qed.

Lemma combine_map2 {T U V} (f : T -> U) (g : T -> V) l : combine l (combine (map f l) (map g l)) = map (fun x => (x, (f x, g x))) l.
Proof. induction l as [|x t IH]; cbn; [reflexivity|]. rewrite IH. reflexivity. Qed.

Section Arr.
Context {A B C : Type} (op : A -> B -> C) (p : patch A) (b : nd B) (k : nat) (lb : string -> Z).
Hypothesis Wp : wf_patch p.
Hypothesis PN : plain_names (p_cm p).
Hypothesis Wb : wf_nd b.
Hypothesis FT : fits p b k lb.
Let D := cm_dims (p_cm p).
Let F := firstn k D.
Let T := skipn k D.
Let l1 := fun d => match assoc d (cm_coords (p_cm p)) with Some (M1 c) => c_len c | _ => 0 end.

Lemma arr_split : D = F ++ T. Proof. symmetry. apply firstn_skipn. Qed.
Lemma arr_len d : In d D -> exists c, assoc d (cm_coords (p_cm p)) = Some (M1 c) /\ wf_coord c /\ l1 d = c_len c /\ 0 <= l1 d.
Proof.
  intros J. destruct (wf_dim_coord _ d (wp_cm _ Wp) J) as (c & E & W & _). exists c. split; [exact E|]. split; [exact W|].
  unfold l1. rewrite E. split; [reflexivity|apply c_len_nonneg, W].
Qed.
Lemma arr_shape : nd_shape (p_data p) = map l1 D.
Proof. apply shape_of; [exact Wp|]. intros d J. destruct (arr_len d J) as (c & E & _ & L & _). exists c. auto. Qed.
Lemma arr_lb d : In d T -> 0 <= lb d.
Proof. intros J. destruct Wb as [H _]. rewrite (ft_shape _ _ _ _ FT), Forall_forall in H. apply H, in_map, J. Qed.

Lemma arr_in_F d : In d F -> In d D. Proof. rewrite arr_split. intros J. apply in_or_app. auto. Qed.
Lemma arr_in_T d : In d T -> In d D. Proof. rewrite arr_split. intros J. apply in_or_app. auto. Qed.

Lemma array_scaled : stretchable p lb -> exists r, array_op op p b = Ok r /\ scaled op p b k lb r.
Proof.
  intros SB. pose proof (wf_dims _ (wp_cm _ Wp)) as ND. fold D in ND.
  set (grow := fun d => stretched (p_cm p) d && (1 <? lb d)).
  set (l := fun d => if grow d then lb d else l1 d).
  assert (GR : forall d, In d D -> exists c, assoc d (cm_coords (p_cm p)) = Some (M1 c) /\ wf_coord c /\ l1 d = c_len c /\ 0 <= l1 d /\
    ((grow d = true /\ c = CPart 1 /\ 1 < lb d) \/ (grow d = false /\ (lb d = l1 d \/ lb d = 1)))).
  { intros d J. destruct (arr_len d J) as (c & E & W & L & N). exists c. do 4 (split; [assumption|]). unfold grow, stretched. rewrite E.
    destruct (SB d c J E) as [H|[H|[-> H]]].
    - right. split; [destruct (Z.eqb_spec (c_len c) 1), (Z.ltb_spec 1 (lb d)); cbn; lia|left; congruence].
    - right. split; [destruct (Z.eqb_spec (c_len c) 1), (Z.ltb_spec 1 (lb d)); cbn; lia|auto].
    - cbn [c_len] in *. destruct (Z.ltb_spec 1 (lb d)); cbn; [left; auto|right]. split; [reflexivity|]. right. lia. }
  assert (LL : forall d, In d D -> (l d = l1 d \/ (l1 d = 1 /\ 0 <= l d)) /\ (lb d = l d \/ lb d = 1) /\ bcast_len (l1 d) (lb d) = Some (l d)).
  { intros d J. destruct (GR d J) as (c & E & W & L & N & [(G & -> & H)|(G & H)]); unfold l; rewrite G.
    - cbn in L. split; [right; lia|]. split; [auto|]. unfold bcast_len. rewrite L. destruct (Z.eqb_spec 1 (lb d)); [lia|reflexivity].
    - split; [auto|]. split; [exact H|]. unfold bcast_len. destruct H as [-> | ->]; [rewrite Z.eqb_refl; reflexivity|]. destruct (Z.eqb_spec (l1 d) 1) as [->|]; reflexivity. }
  (* the operand after growing *)
  assert (exists p', (if zlist_eqb (nd_shape (p_data p)) (nd_shape b) then Ok p
            else if (List.length (nd_shape (p_data p)) <? List.length (nd_shape b))%nat
            then Err PatchBroadcastError else make_broadcastable p (nd_shape b)) = Ok p' /\
    wf_patch p' /\ cm_dims (p_cm p') = D /\ nd_shape (p_data p') = map l D /\
    (forall pos, (forall d, In d D -> 0 <= pos d < l d) -> nd_get (p_data p') (map pos D) = nd_get (p_data p) (map (squash l1 pos) D)) /\
    (forall d c, In d D -> assoc d (cm_coords (p_cm p)) = Some (M1 c) -> exists m, assoc d (cm_coords (p_cm p')) = Some m /\
        if grow d then m = M1 (CPart (lb d)) else carried (M1 c) m (full [c_len c])) /\
    (forall n m ds, ~ In n D -> assoc n (cm_coords (p_cm p)) = Some m -> assoc n (cm_dmap (p_cm p)) = Some ds ->
      if existsb grow ds then assoc n (cm_coords (p_cm p')) = None
      else exists m', assoc n (cm_coords (p_cm p')) = Some m' /\ carried m m' (full (m_shape m)))) as (p' & E1 & W1 & D1 & S1 & G1 & C1 & K1).
  { destruct (zlist_eqb (nd_shape (p_data p)) (nd_shape b)) eqn:Q.
    - apply CmProofs.zlist_eqb_eq in Q. exists p. split; [reflexivity|].
      assert (NG : forall d, In d D -> grow d = false /\ l d = l1 d).
      { intros d J. assert (k = O \/ F = []) as FE.
        { assert (X : List.length (nd_shape (p_data p)) = List.length (nd_shape b)) by congruence.
          rewrite arr_shape, (ft_shape _ _ _ _ FT), !map_length, skipn_length in X. pose proof (ft_count _ _ _ _ FT). fold D in X, H. left. assert (0 < List.length D)%nat by (destruct D; [destruct J|cbn; lia]). lia. }
        assert (TD : T = D). { destruct FE as [->|FE]; [reflexivity|]. rewrite arr_split, FE. reflexivity. }
        rewrite arr_shape, (ft_shape _ _ _ _ FT) in Q. fold D T in Q. rewrite TD in Q.
        assert (LE : l1 d = lb d). { clear - Q J. induction D as [|x t IH]; [destruct J|]. cbn [map] in Q. injection Q as Q1 Q2. destruct J as [<-|J]; auto. }
        destruct (GR d J) as (c & E & W & L & N & [(G & -> & H)|(G & H)]); [cbn in L; lia|]. unfold l. rewrite G. auto. }
      split; [exact Wp|]. split; [reflexivity|]. split. { rewrite arr_shape. apply map_ext_in. intros d J. symmetry. apply NG, J. }
      split. { intros pos P. f_equal. apply map_ext_in. intros d J. specialize (P d J). rewrite (proj2 (NG d J)) in P. unfold squash. destruct (Z.eqb_spec (l1 d) 1); lia. }
      split. { intros d c J E. exists (M1 c). split; [exact E|]. rewrite (proj1 (NG d J)). apply carried_refl, (wf_vals _ (wp_cm _ Wp) _ _ E). }
      intros n m ds N E DM. assert (existsb grow ds = false) as ->.
      { destruct (existsb grow ds) eqn:X; [|reflexivity]. apply existsb_exists in X as (d & J & X).
        destruct (con_coord _ (wf_con _ (wp_cm _ Wp)) n ds DM) as (_ & _ & H & _). rewrite (proj1 (NG d (H d J))) in X. discriminate. }
      exists m. split; [exact E|]. apply carried_refl, (wf_vals _ (wp_cm _ Wp) _ _ E).
    - assert ((List.length (nd_shape (p_data p)) <? List.length (nd_shape b))%nat = false) as ->.
      { apply Nat.ltb_ge. rewrite arr_shape, (ft_shape _ _ _ _ FT), !map_length, skipn_length. fold D. apply Nat.le_sub_l. }
      unfold make_broadcastable. rewrite (cm_shape_spec _ _ (wp_some _ Wp) (wp_shape _ Wp)). cbn [bind].
      rewrite arr_shape, (ft_shape _ _ _ _ FT). fold D T.
      assert (BS : broadcast_shapes (map l1 (F ++ T)) (map lb T) = Some (map l (F ++ T))).
      { apply broadcast_shapes_tail; [intros d J; apply LL, arr_in_T, J|].
        intros d J. pose proof (ft_front _ _ _ _ FT d J) as X. destruct (GR d (arr_in_F d J)) as (c & _ & _ & _ & _ & [(G & _ & H)|(G & H)]); [lia|]. unfold l. rewrite G. reflexivity. }
      rewrite <- arr_split in BS. rewrite BS, combine_map2.
      set (news := fun d => if grow d then [(d, KSimple (VCoord (M1 (CPart (lb d)))))] else []).
      rewrite (map_result_map _ (fun e => news (fst e))).
      2:{ intros e J. apply in_map_iff in J as (d & <- & J). cbn [fst grow_dim]. unfold news. destruct (GR d J) as (c & E & W & L & N & [(G & -> & H)|(G & H)]); unfold l; rewrite G.
          - cbn in L. rewrite E. cbn [m_partial]. destruct (Z.leb_spec (lb d) (l1 d)); [lia|]. rewrite Z.max_r by lia. reflexivity.
          - rewrite Z.leb_refl. reflexivity. }
      cbn [bind]. destruct (broadcast_to_ok (p_data p) D l1 l ND (wp_nd _ Wp) arr_shape) as (a & EA & Wa & Sa & Ga); [intros d J; apply LL, J|].
      rewrite EA. cbn [bind]. rewrite map_map. cbn [fst].
      set (kw := List.concat (map news D)).
      assert (KWA : forall n, assoc n kw = if mem n D && grow n then Some (KSimple (VCoord (M1 (CPart (lb n))))) else None).
      { intros n. unfold kw. clear. induction D as [|d t IH]; [reflexivity|]. cbn [map List.concat]. unfold mem in *. cbn [existsb]. unfold news at 1.
        destruct (grow d) eqn:G; cbn [app assoc].
        - destruct (String.eqb_spec n d) as [->|X]; cbn [orb]; [rewrite G; reflexivity|exact IH].
        - destruct (String.eqb_spec n d) as [->|X]; cbn [orb]; [|exact IH]. rewrite IH, G, !andb_false_r. reflexivity. }
      assert (NDK : NoDup (map fst kw)).
      { unfold kw. clear - ND. revert ND. induction D as [|d t IH]; intros ND; [constructor|]. inversion ND as [|? ? X ND']; subst. cbn [map List.concat]. unfold news at 1.
        destruct (grow d); cbn [app map fst]; [|apply IH, ND']. constructor; [|apply IH, ND']. intros Y. apply X. clear - Y. induction t as [|e t IH]; [destruct Y|].
        cbn [map List.concat] in Y. unfold news at 1 in Y. destruct (grow e); cbn [app map fst] in Y; [destruct Y as [Y|Y]; [left; exact Y|right; auto]|right; auto]. }
      set (newf := fun n => if mem n D && grow n then Some (M1 (CPart (lb n))) else None).
      assert (NF : forall n m, newf n = Some m -> In n D /\ grow n = true /\ m = M1 (CPart (lb n))).
      { intros n m. unfold newf. destruct (mem n D) eqn:M; [|discriminate]. destruct (grow n); [|discriminate]. intros [= <-]. apply mem_In' in M. auto. }
      assert (NF2 : forall d, In d D -> newf d = if grow d then Some (M1 (CPart (lb d))) else None).
      { intros d J. unfold newf. rewrite (proj2 (mem_In' _ _) J). reflexivity. }
      destruct (cm_update_sub (p_cm p) kw newf (wp_cm _ Wp) PN) as (cm & EU & Wcm & Dcm & U1 & U2 & U3).
      { split; [exact NDK|]. intros n. rewrite KWA. unfold newf. destruct (mem n D) eqn:M; cbn [andb]; [|reflexivity]. destruct (grow n) eqn:G; [|reflexivity].
        apply mem_In' in M. destruct (GR n M) as (c & _ & _ & _ & _ & [(_ & _ & H)|(G' & _)]); [|congruence].
        exists (M1 (CPart (lb n))), [n]. split; [reflexivity|]. split; [cbn; lia|]. split; [apply (dim_dmap _ n (wp_cm _ Wp) M)|]. right. auto. }
      { intros d m _ Q'. apply NF in Q' as (_ & _ & ->). eauto. }
      { intros n m ds Q' DM NE. apply NF in Q' as (J & G & ->). rewrite (dim_dmap _ n (wp_cm _ Wp) J) in DM. injection DM as <-. cbn [m_shape c_len].
        constructor; [|constructor]. exists (CPart (lb n)). unfold latest. rewrite (NF2 n J), G. auto. }
      rewrite EU. cbn [bind]. fold D in Dcm.
      assert (RS : forall n ds, assoc n (cm_dmap (p_cm p)) = Some ds -> (resized (p_cm p) newf n <-> existsb grow ds = true)).
      { intros n ds DM. destruct (con_coord _ (wf_con _ (wp_cm _ Wp)) n ds DM) as (_ & _ & SD & _). rewrite existsb_exists. split.
        - intros (ds' & d & c & c' & X1 & X2 & X3 & _). rewrite DM in X1. injection X1 as <-. exists d. split; [exact X2|]. apply NF in X3. apply X3.
        - intros (d & J & G). destruct (GR d (SD d J)) as (c & E & W & L & N & [(_ & -> & H)|(G' & _)]); [|congruence].
          exists ds, d, (CPart 1), (CPart (lb d)). split; [exact DM|]. split; [exact J|]. rewrite (NF2 d (SD d J)), G. split; [reflexivity|]. split; [exact E|]. cbn. lia. }
      assert (DC : forall d c, In d D -> assoc d (cm_coords (p_cm p)) = Some (M1 c) -> assoc d (cm_coords cm) = Some (if grow d then M1 (CPart (lb d)) else recf (M1 c))).
      { intros d c J E. pose proof (NF2 d J) as X. destruct (grow d) eqn:G.
        - destruct (U1 d _ X) as [Y _]. rewrite Y. reflexivity.
        - destruct (U3 d X) as [Y _]; [|rewrite Y, E; reflexivity]. rewrite (RS d [d] (dim_dmap _ d (wp_cm _ Wp) J)). cbn [existsb]. rewrite G. discriminate. }
      assert (DL : forall d, In d D -> dim_len cm d (l d)).
      { intros d J. destruct (arr_len d J) as (c & E & W & L & _). pose proof (DC d c J E) as X. unfold l. destruct (grow d).
        - exists (CPart (lb d)). auto.
        - destruct (recf_M1 c (wf_okc _ W)) as (c2 & R & L2 & _). exists c2. rewrite X, R. split; [reflexivity|congruence]. }
      destruct (new_patch_ok cm a Wcm Wa) as [EP WP].
      { rewrite Dcm. apply (wp_some _ Wp). }
      { rewrite Dcm, Sa. clear - DL. induction D as [|d t IH]; cbn [map]; constructor; [apply DL; left; reflexivity|apply IH; intros e E; apply DL; right; exact E]. }
      rewrite EP. eexists. split; [reflexivity|]. cbn [p_cm p_data]. split; [exact WP|]. split; [exact Dcm|]. split; [exact Sa|]. split; [exact Ga|]. split.
      + intros d c J E. eexists. split; [apply (DC d c J E)|]. destruct (grow d); [reflexivity|].
        pose proof (wf_vals _ (wp_cm _ Wp) _ _ E) as W. apply carried_recf; [apply wf_okm, W|]. apply (carried_refl (M1 c)), W.
      + intros n m ds N E DM. assert (NN : newf n = None). { destruct (newf n) eqn:X; [|reflexivity]. apply NF in X as [X _]. contradiction. }
        pose proof (RS n ds DM) as R. destruct (existsb grow ds).
        * apply U2; [exact NN|]. apply R. reflexivity.
        * destruct (U3 n NN) as [Y _]; [rewrite R; discriminate|]. rewrite E in Y. cbn [option_map] in Y. eexists. split; [exact Y|].
          pose proof (wf_vals _ (wp_cm _ Wp) _ _ E) as W. apply carried_recf; [apply wf_okm, W|]. apply carried_refl, W. }
  unfold array_op. rewrite E1. cbn [bind].
  destruct (nd_map2_tail op (p_data p') b F T l lb) as (c & EC & Wc & Sc & Gc).
  { rewrite <- arr_split. exact ND. }
  { apply (wp_nd _ W1). }
  { exact Wb. }
  { rewrite <- arr_split. exact S1. }
  { apply (ft_shape _ _ _ _ FT). }
  { intros d J. apply LL, arr_in_T, J. }
  rewrite <- arr_split in Sc, Gc. rewrite EC. cbn [bind].
  destruct (new_patch_ok (p_cm p') c (wp_cm _ W1) Wc (wp_some _ W1)) as [EP WP].
  { rewrite Sc, <- S1. apply (wp_shape _ W1). }
  rewrite EP. eexists. split; [reflexivity|]. split; cbn [p_cm]; [exact WP|exact D1|exact C1| |exact K1].
  intros pos IS. unfold inside in IS. cbn [p_cm] in IS. rewrite D1 in IS.
  assert (IB : forall d, In d D -> 0 <= pos d < l d).
  { intros d J. destruct (IS d J) as (n & N & I). pose proof (wp_shape _ W1) as X. rewrite S1, D1 in X.
    assert (Y : dim_len (p_cm p') d (l d)). { clear - X J. induction D as [|x t IH]; [destruct J|]. cbn [map] in X. inversion X; subst. destruct J as [<-|J]; auto. }
    destruct Y as (c0 & Y1 & Y2). rewrite (dim_len_fun _ _ _ _ Y1 N) in I. lia. }
  destruct (Gc pos IB) as (x & y & X & Y & R). exists x, y. unfold data_at. cbn [p_cm p_data]. rewrite D1. fold D T. split; [|split; [exact Y|exact R]].
  rewrite <- X, (G1 pos IB). f_equal. apply map_ext_in. intros d J. unfold squash, stretched, l1. destruct (arr_len d J) as (c0 & E & _). rewrite E. reflexivity.
Qed.
End Arr.

Lemma binop_disjoint {A B C} (op : A -> B -> C) argsort (p : patch A) (q : patch B) : cm_dims (p_cm p) <> [] ->
  (forall d, In d (cm_dims (p_cm p)) -> ~ In d (cm_dims (p_cm q))) -> binop op argsort p q = Err PatchCoordinateError.
Proof.
  intros NE H. unfold binop, align_patches.
  assert (cm_approx (p_cm p) (p_cm q) = false) as ->.
  { destruct (cm_approx _ _) eqn:E; [|reflexivity]. unfold cm_approx in E. rewrite !andb_true_iff in E. destruct E as ((((S & _) & _) & _) & _).
    rewrite subset_spec in S. destruct (cm_dims (p_cm p)) as [|d t]; [congruence|]. destruct (H d (or_introl eq_refl)). apply S. left. reflexivity. }
  replace (filter _ _) with (@nil string); [reflexivity|]. symmetry. revert H. generalize (cm_dims (p_cm q)). intros l. clear NE. induction (cm_dims (p_cm p)) as [|d t IH]; intros H; [reflexivity|].
  cbn [filter]. destruct (mem d l) eqn:M; [apply mem_In' in M; destruct (H d (or_introl eq_refl) M)|]. apply IH. intros x X. apply H. right. exact X.
Qed.

Lemma array_more_axes {A B C} (op : A -> B -> C) (p : patch A) (b : nd B) : wf_patch p ->
  (List.length (cm_dims (p_cm p)) < List.length (nd_shape b))%nat -> array_op op p b = Err PatchBroadcastError.
Proof.
  intros W L. unfold array_op. assert (E : List.length (cm_dims (p_cm p)) = List.length (nd_shape (p_data p))).
  { apply (Forall2_length _ _ _ (wp_shape _ W)). }
  destruct (zlist_eqb _ _) eqn:Q; [apply CmProofs.zlist_eqb_eq in Q; rewrite Q in E; lia|].
  rewrite (proj2 (Nat.ltb_lt _ _)) by lia. reflexivity.
Qed.

Lemma array_labelled {A B C} (op : A -> B -> C) (p : patch A) (b : nd B) k lb d c : wf_patch p -> wf_nd b -> fits p b k lb ->
  (forall e n, In e (cm_dims (p_cm p)) -> dim_len (p_cm p) e n -> lb e = n \/ lb e = 1 \/ n = 1) ->
  In d (cm_dims (p_cm p)) -> assoc d (cm_coords (p_cm p)) = Some (M1 c) -> concrete c -> c_len c = 1 -> 1 < lb d ->
  array_op op p b = Err PatchBroadcastError.
Proof.
  intros Wp Wb FT BC J E K L1 LB. set (D := cm_dims (p_cm p)) in *.
  set (l1 := fun d => match assoc d (cm_coords (p_cm p)) with Some (M1 c) => c_len c | _ => 0 end).
  pose proof (arr_shape p Wp) as AS. fold D in AS. change (nd_shape (p_data p) = map l1 D) in AS.
  pose proof (arr_split p k) as SP. fold D in SP. pose proof (ft_shape _ _ _ _ FT) as SB. fold D in SB. pose proof (ft_count _ _ _ _ FT) as CT. fold D in CT.
  set (l := fun d => if l1 d =? 1 then lb d else l1 d).
  assert (LL : forall e, In e D -> bcast_len (l1 e) (lb e) = Some (l e)).
  { intros e Je. destruct (arr_len p Wp e Je) as (ce & Ee & _ & Le & Ne). assert (X : lb e = l1 e \/ lb e = 1 \/ l1 e = 1).
    { apply (BC e (l1 e) Je). exists ce. split; [exact Ee|]. unfold l1. rewrite Ee. reflexivity. }
    unfold l, bcast_len. destruct (Z.eqb_spec (l1 e) (lb e)), (Z.eqb_spec (l1 e) 1), (Z.eqb_spec (lb e) 1); try lia; f_equal; lia. }
  assert (JT : In d (skipn k D)).
  { rewrite SP in J. apply in_app_or in J as [J|J]; [|exact J]. pose proof (ft_front _ _ _ _ FT d J). lia. }
  assert (Ld : l1 d = 1) by (unfold l1; rewrite E; exact L1).
  unfold array_op. destruct (zlist_eqb (nd_shape (p_data p)) (nd_shape b)) eqn:Q.
  { exfalso. apply CmProofs.zlist_eqb_eq in Q. rewrite AS, SB in Q.
    assert (X : List.length (map l1 D) = List.length (map lb (skipn k D))) by congruence. rewrite !map_length, skipn_length in X.
    assert (0 < List.length D)%nat by (destruct D; [destruct J|cbn; lia]). assert (k = O) as -> by lia. cbn [skipn] in Q.
    assert (l1 d = lb d). { clear - Q J. induction D as [|x t IH]; [destruct J|]. cbn [map] in Q. injection Q as Q1 Q2. destruct J as [<-|J]; auto. }
    lia. }
  assert ((List.length (nd_shape (p_data p)) <? List.length (nd_shape b))%nat = false) as ->.
  { apply Nat.ltb_ge. rewrite AS, SB, !map_length, skipn_length. apply Nat.le_sub_l. }
  unfold make_broadcastable. rewrite (cm_shape_spec _ _ (wp_some _ Wp) (wp_shape _ Wp)). cbn [bind]. rewrite AS, SB.
  assert (BS : broadcast_shapes (map l1 (firstn k D ++ skipn k D)) (map lb (skipn k D)) = Some (map l (firstn k D ++ skipn k D))).
  { apply broadcast_shapes_tail; [intros e Je; apply LL; rewrite SP; apply in_or_app; auto|].
    intros e Je. pose proof (ft_front _ _ _ _ FT e Je) as X. unfold l. destruct (Z.eqb_spec (l1 e) 1); congruence. }
  rewrite <- SP in BS. rewrite BS. fold D. rewrite combine_map2.
  assert (MR : map_result (grow_dim (p_cm p)) (map (fun x => (x, (l1 x, l x))) D) = Err PatchBroadcastError); [|rewrite MR; reflexivity].
  apply MergeProofs5.map_result_err.
  - intros x X. apply in_map_iff in X as (e & <- & Je). destruct (arr_len p Wp e Je) as (ce & Ee & _). cbn [grow_dim]. rewrite Ee.
    destruct (_ <=? _); [eauto|]. destruct (m_partial _); eauto.
  - exists (d, (l1 d, l d)). split; [apply in_map_iff; eauto|]. cbn [grow_dim]. unfold l. rewrite Ld. cbn [Z.eqb Pos.eqb]. destruct (Z.leb_spec (lb d) 1); [lia|].
    rewrite E. destruct c; try destruct K; reflexivity.
Qed.

(** Lemmas behind FourierProps.v: the coordinates of a transform. *)
From Verif Require Import Base BaseFacts CoordModel CoordSpec CoordProofs NdModel NdSpec NdProofs NdProofs2
  FrameModel FrameProofs5 ChunkModel CmModel CmSpec CmProofs CmProofs2 CmProofs3 CmProofs12 CmProofs13
  ProcModel ProcSpec FourierModel FourierSpec FourierProofs FourierProofs2.
From Coq Require Import Strings.String Strings.Ascii ZifyBool Sorting.Permutation.
Ltac Zify.zify_post_hook ::= Z.div_mod_to_equations.
Local Open Scope Z_scope.
Local Open Scope list_scope.

(** ** Names *)
Definition ftn (d : string) : string := ("ft_" ++ d)%string.
Lemma ft_name_plain d : str_prefix "ift_" d = false -> ft_name d = ftn d.
Proof. intros H. unfold ft_name. rewrite H. reflexivity. Qed.
Lemma ift_name_ft d : ift_name (ftn d) = d.
Proof. reflexivity. Qed.
Lemma ftn_inj a b : ftn a = ftn b -> a = b.
Proof. intros H. rewrite <- (ift_name_ft a), <- (ift_name_ft b), H. reflexivity. Qed.
Lemma append_inv_tail s a b : (a ++ s)%string = (b ++ s)%string -> a = b.
Proof.
  assert (L : forall x, String.length (x ++ s)%string = (String.length x + String.length s)%nat).
  { induction x as [|c x IH]; cbn [String.append String.length]; [reflexivity|rewrite IH; reflexivity]. }
  revert b. induction a as [|c a IH]; intros [|e b] H.
  - reflexivity.
  - exfalso. apply (f_equal String.length) in H. rewrite !L in H. cbn [String.length] in H. lia.
  - exfalso. apply (f_equal String.length) in H. rewrite !L in H. cbn [String.length] in H. lia.
  - cbn [String.append] in H. assert (c = e) by congruence. subst e. f_equal. apply IH. congruence.
Qed.
Lemma unp_inj a b : unpadded_name a = unpadded_name b -> a = b.
Proof. unfold unpadded_name. cbn [String.append]. intros H. apply (append_inv_tail "_unpadded"). congruence. Qed.
Lemma ftn_unp a b : ftn a <> unpadded_name b.
Proof. unfold ftn, unpadded_name. cbn [String.append]. discriminate. Qed.

(** ** Renaming at positions *)
Lemma rename_at_nth f axes : forall dims i, NoDup axes ->
  nth_error (rename_at f dims axes) i =
  match nth_error dims i with Some d => Some (if existsb (Nat.eqb i) axes then f d else d) | None => None end.
Proof.
  induction axes as [|ax t IH]; intros dims i ND; cbn [rename_at existsb]; [destruct (nth_error dims i); reflexivity|].
  inversion ND as [|? ? N ND']; subst.
  assert (NX : Nat.eqb i ax = true -> existsb (Nat.eqb i) t = false).
  { intros E. apply Nat.eqb_eq in E. subst i. apply not_true_is_false. intros X. apply existsb_exists in X.
    destruct X as (y & A & B). apply Nat.eqb_eq in B. subst y. contradiction. }
  destruct (nth_error dims ax) as [d|] eqn:E.
  - rewrite IH by exact ND'. destruct (Nat.eqb_spec i ax) as [X|X].
    + subst i. rewrite (nth_put_same dims ax (f d)) by (apply nth_error_Some; congruence).
      rewrite E, NX by reflexivity. reflexivity.
    + rewrite nth_put_other by congruence. reflexivity.
  - rewrite IH by exact ND'. destruct (Nat.eqb_spec i ax) as [X|X]; [|reflexivity]. subst i. rewrite E. reflexivity.
Qed.

Lemma rename_at_map f g cm ds : wf_cm cm -> NoDup ds -> (forall d, In d ds -> In d (cm_dims cm) /\ axis_of cm d = Ok (g d)) ->
  rename_at f (cm_dims cm) (map g ds) = map (fun d => if mem d ds then f d else d) (cm_dims cm) /\ NoDup (map g ds).
Proof.
  intros W ND G.
  assert (GI : forall d, In d ds -> nth_error (cm_dims cm) (g d) = Some d).
  { intros d I. destruct (G d I) as [_ A]. unfold axis_of in A. destruct (index_of d (cm_dims cm)) as [i|] eqn:E; [|discriminate].
    assert (i = g d) by congruence. subst i. apply index_of_spec in E. apply E. }
  assert (NG : NoDup (map g ds)).
  { clear - ND GI. induction ND as [|x l N ND IH]; cbn [map]; constructor.
    - intros J. apply in_map_iff in J. destruct J as (y & E & J). apply N.
      pose proof (GI x (or_introl eq_refl)) as A. rewrite <- E, (GI y (or_intror J)) in A. congruence.
    - apply IH. intros; apply GI; right; assumption. }
  split; [|exact NG]. apply list_ext. intros i. rewrite rename_at_nth by exact NG. rewrite nth_error_map.
  destruct (nth_error (cm_dims cm) i) as [d|] eqn:E; [|reflexivity]. cbn [option_map]. f_equal.
  replace (existsb (Nat.eqb i) (map g ds)) with (mem d ds); [reflexivity|].
  apply eq_true_iff_eq. rewrite mem_In', existsb_exists. split.
  - intros I. exists (g d). split; [apply in_map; exact I|]. apply Nat.eqb_eq.
    apply (proj1 (NoDup_nth_error (cm_dims cm)) (wf_dims _ W)); [apply nth_error_Some; congruence|]. rewrite E, (GI d I). reflexivity.
  - intros (k & J & X). apply Nat.eqb_eq in X. subst k. apply in_map_iff in J. destruct J as (y & <- & J).
    rewrite (GI y J) in E. congruence.
Qed.

Lemma even_dims cm ds : wf_cm cm -> (forall d, In d ds -> In d (cm_dims cm) /\ exists r, assoc d (cm_coords cm) = Some (M1 (CRange r))) ->
  exists g rg, map_result (even_dim cm) ds = Ok (map (fun d => (d, g d, rg d)) ds) /\
    forall d, In d ds -> axis_of cm d = Ok (g d) /\ nth_error (cm_dims cm) (g d) = Some d /\
      assoc d (cm_coords cm) = Some (M1 (CRange (rg d))) /\ wf_range (rg d).
Proof.
  intros W H.
  exists (fun d => match index_of d (cm_dims cm) with Some i => i | None => O end),
    (fun d => match assoc d (cm_coords cm) with Some (M1 (CRange r)) => r | _ => mkRange KInt 0 0 0 0 end).
  assert (X : forall d, In d ds -> axis_of cm d = Ok (match index_of d (cm_dims cm) with Some i => i | None => O end) /\
      nth_error (cm_dims cm) (match index_of d (cm_dims cm) with Some i => i | None => O end) = Some d /\
      assoc d (cm_coords cm) = Some (M1 (CRange (match assoc d (cm_coords cm) with Some (M1 (CRange r)) => r | _ => mkRange KInt 0 0 0 0 end))) /\
      wf_range (match assoc d (cm_coords cm) with Some (M1 (CRange r)) => r | _ => mkRange KInt 0 0 0 0 end)).
  { intros d I. destruct (H d I) as [J (r & R)]. destruct (index_of_some d (cm_dims cm) J) as (i & E & N).
    unfold axis_of. rewrite R, E. split; [reflexivity|]. split; [exact N|]. split; [reflexivity|].
    apply (wf_vals _ W _ _ R). }
  split; [|exact X]. apply map_result_map. intros d I. unfold even_dim. destruct (X d I) as (A & B & C & _).
  rewrite C, A. reflexivity.
Qed.

(** ** Lookups *)
Lemma recf_settled m : settled m -> recf m = m.
Proof. unfold settled, recf. intros ->. reflexivity. Qed.
Lemma settled_range r : settled (M1 (CRange r)).
Proof. reflexivity. Qed.

Lemma droppedb_along cm ds n : wf_cm cm -> (forall d, In d ds -> In d (cm_dims cm)) ->
  (droppedb cm ds n = true <-> In n ds \/ along cm ds n).
Proof.
  intros W S. rewrite droppedb_spec. unfold dropped, along, dims_of. split.
  - intros [H|(x & d & A & B & C)]; [auto|]. destruct (in_dec string_dec n ds) as [I|I]; [auto|right].
    split; [exact I|]. exists d. rewrite A. auto.
  - intros [H|(N & d & A & B)]; [auto|right]. destruct (assoc n (cm_dmap cm)) as [x|]; [|destruct A]. exists x, d. auto.
Qed.

Section DftCoords.
Variables (cm : cman) (ds : list string) (real : option string) (orig : option cman).
Hypothesis W : wf_cm cm.
Hypothesis ST : all_settled cm.
Hypothesis ND : NoDup ds.
Hypothesis FN : free_names cm ds.
Variables (g : string -> nat) (rg : string -> crange).
Hypothesis G : forall d, In d ds -> axis_of cm d = Ok (g d) /\ nth_error (cm_dims cm) (g d) = Some d /\
      assoc d (cm_coords cm) = Some (M1 (CRange (rg d))) /\ wf_range (rg d).
Hypothesis OR : forall o d, orig = Some o -> In d ds -> exists m, assoc d (cm_coords o) = Some m /\ settled m /\ okm m.

Let isreal (d : string) : bool := match real with Some y => String.eqb d y | None => false end.

Lemma ds_dims d : In d ds -> In d (cm_dims cm).
Proof. intros I. destruct (G d I) as (_ & A & _). eapply nth_error_In. exact A. Qed.

Let fc (d : string) : crange :=
  match fft_coord (r_len (rg d)) (r_step (rg d)) (isreal d) with Ok (CRange r) => r | _ => rg d end.
Lemma fc_ok d : In d ds -> fft_coord (r_len (rg d)) (r_step (rg d)) (isreal d) = Ok (CRange (fc d)) /\ wf_range (fc d) /\
  r_values (fc d) = bins (r_len (rg d)) (r_step (rg d)) (isreal d).
Proof.
  intros I. destruct (G d I) as (_ & _ & _ & (S & L & _)). unfold fc, bins. destruct (isreal d).
  - destruct (fft_coord_real _ _ L S) as (r & E & Wr & Ln & V). rewrite E. split; [reflexivity|]. split; [exact Wr|].
    apply znth_ext. intros i. rewrite znth_map. destruct (Z.ltb_spec i 0); [rewrite (proj2 (znth_none (r_values r) _)), (proj2 (znth_none (zrange _) _)) by lia; reflexivity|].
    destruct (Z.leb_spec i (r_len (rg d) / 2)).
    + rewrite V by lia. rewrite znth_zrange_in by lia. reflexivity.
    + rewrite (proj2 (znth_none (r_values r) _)) by (rewrite Ln; lia). rewrite (proj2 (znth_none (zrange _) _)) by (rewrite zlen_zrange; lia). reflexivity.
  - destruct (fft_coord_freq _ _ L S) as (r & E & Wr & Ln & V). rewrite E. split; [reflexivity|]. split; [exact Wr|].
    apply znth_ext. intros i. rewrite znth_map. destruct (Z.ltb_spec i 0); [rewrite (proj2 (znth_none (r_values r) _)), (proj2 (znth_none (zrange _) _)) by lia; reflexivity|].
    destruct (Z.ltb_spec i (r_len (rg d))).
    + rewrite V by lia. rewrite znth_zrange_in by lia. reflexivity.
    + rewrite (proj2 (znth_none (r_values r) _)) by (rewrite Ln; lia). rewrite (proj2 (znth_none (zrange _) _)) by (rewrite zlen_zrange; lia). reflexivity.
Qed.

Let add (kw : list (string * kval)) (d : string) : list (string * kval) :=
  let kw := assoc_set (ftn d) (KTuple [ftn d] (VCoord (M1 (CRange (fc d))))) kw in
  match orig with
  | None => kw
  | Some o => match assoc d (cm_coords o) with
              | Some m => assoc_set (unpadded_name d) (KTuple [] (VCoord m)) kw | None => kw end
  end.

Lemma adds_fold l : (forall d, In d l -> In d ds) -> forall kw,
  fold_left (fun acc (x : string * nat * crange) =>
      do kw <- acc;
      let '(d, _, r) := x in
      do c <- fft_coord (r_len r) (r_step r)
                (match real with Some y => String.eqb d y | None => false end);
      let kw := assoc_set (ft_name d) (KTuple [ft_name d] (VCoord (M1 c))) kw in
      match orig with
      | None => Ok kw
      | Some o => match assoc d (cm_coords o) with
                  | Some m => Ok (assoc_set (unpadded_name d) (KTuple [] (VCoord m)) kw)
                  | None => Err CoordError end
      end) (map (fun d => (d, g d, rg d)) l) (Ok kw) = Ok (fold_left add l kw).
Proof.
  induction l as [|d l IH]; intros S kw; [reflexivity|]. cbn [map fold_left].
  assert (I : In d ds) by (apply S; left; reflexivity).
  destruct (fc_ok d I) as (E & _). fold (isreal d). cbn [bind]. rewrite E. cbn [bind].
  destruct (FN d I) as (P & _). rewrite (ft_name_plain d P). rewrite <- (IH (fun x J => S x (or_intror J))).
  f_equal. unfold add. destruct orig as [o|] eqn:Q; [|reflexivity].
  destruct (OR o d eq_refl I) as (m & -> & _). reflexivity.
Qed.

Lemma add_lookup l : NoDup l -> (forall d, In d l -> In d ds) -> forall kw, NoDup (map fst kw) ->
  NoDup (map fst (fold_left add l kw)) /\
  (forall d, In d l -> assoc (ftn d) (fold_left add l kw) = Some (KTuple [ftn d] (VCoord (M1 (CRange (fc d)))))) /\
  (forall o d m, orig = Some o -> In d l -> assoc d (cm_coords o) = Some m ->
     assoc (unpadded_name d) (fold_left add l kw) = Some (KTuple [] (VCoord m))) /\
  (forall n, (forall d, In d l -> n <> ftn d /\ (orig <> None -> n <> unpadded_name d)) ->
     assoc n (fold_left add l kw) = assoc n kw).
Proof.
  intros NDl. induction NDl as [|d l N NDl IH]; intros S kw K; cbn [fold_left].
  - split; [exact K|]. split; [intros d []|]. split; [intros o d m _ []|]. reflexivity.
  - assert (K1 : NoDup (map fst (add kw d))).
    { unfold add. destruct orig as [o|]; [|apply NoDup_assoc_set, K].
      destruct (assoc d (cm_coords o)); repeat apply NoDup_assoc_set; exact K. }
    destruct (IH (fun x J => S x (or_intror J)) (add kw d) K1) as (A & B & C & D). split; [exact A|].
    assert (X1 : assoc (ftn d) (add kw d) = Some (KTuple [ftn d] (VCoord (M1 (CRange (fc d)))))).
    { unfold add. destruct orig as [o|]; [destruct (assoc d (cm_coords o))|]; rewrite ?assoc_assoc_set.
      - destruct (String.eqb_spec (ftn d) (unpadded_name d)) as [E|E]; [destruct (ftn_unp _ _ E)|]. rewrite String.eqb_refl. reflexivity.
      - rewrite String.eqb_refl. reflexivity.
      - rewrite String.eqb_refl. reflexivity. }
    split; [|split].
    + intros x [<-|J]; [|apply B; exact J]. rewrite D; [exact X1|].
      intros y J. split; [intros E; apply ftn_inj in E; congruence|intros _; apply ftn_unp].
    + intros o x m Q [<-|J] M; [|eapply C; eassumption]. rewrite D.
      * unfold add. rewrite Q, M. rewrite assoc_assoc_set, String.eqb_refl. reflexivity.
      * intros y J. split; [intros E; symmetry in E; destruct (ftn_unp _ _ E)|intros _ E; apply unp_inj in E; congruence].
    + intros n H. rewrite D by (intros y J; apply H; right; exact J).
      destruct (H d (or_introl eq_refl)) as [H1 H2]. unfold add.
      destruct orig as [o|]; [destruct (assoc d (cm_coords o))|]; rewrite ?assoc_assoc_set.
      * destruct (String.eqb_spec n (unpadded_name d)) as [E|E]; [destruct (H2 ltac:(discriminate) E)|].
        destruct (String.eqb_spec n (ftn d)); [contradiction|reflexivity].
      * destruct (String.eqb_spec n (ftn d)); [contradiction|reflexivity].
      * destruct (String.eqb_spec n (ftn d)); [contradiction|reflexivity].
Qed.

(** What the keyword list for the new manager holds. *)
Lemma dft_coords_ok : exists cm', dft_coords cm (map (fun d => (d, g d, rg d)) ds) real orig = Ok cm' /\
  transformed cm cm' ds real orig.
Proof.
  unfold dft_coords. rewrite !map_map. cbn [fst snd]. rewrite map_id.
  destruct (disassociate_ok cm ds W ND ds_dims) as (old & E & Wo & Do & Co & Mo).
  { intros n I. apply (FN n I). }
  rewrite E. cbn [bind]. destruct (as_kwargs_ok old Wo) as (base & EB & KB & AB). rewrite EB. cbn [bind].
  rewrite (adds_fold ds (fun d I => I)). cbn [bind].
  assert (NB : NoDup (map fst base)) by (rewrite KB; apply (wf_ckeys _ Wo)).
  destruct (add_lookup ds ND (fun d I => I) base NB) as (NK & LF & LU & LR). set (kw := fold_left add ds base) in *.
  destruct (rename_at_map ft_name g cm ds W ND) as [RN _].
  { intros d I. split; [apply ds_dims, I|apply (G d I)]. }
  change (map (fun x => g x) ds) with (map g ds). rewrite RN.
  assert (RN' : map (fun d => if mem d ds then ft_name d else d) (cm_dims cm) = map (fun d => if mem d ds then ftn d else d) (cm_dims cm)).
  { apply map_ext_in. intros d _. destruct (mem d ds) eqn:Q; [|reflexivity]. apply mem_In' in Q. apply ft_name_plain, (FN d Q). }
  rewrite RN'. set (dims' := map (fun d => if mem d ds then ftn d else d) (cm_dims cm)) in *.
  assert (DROP : forall n, mem n ds = false -> (droppedb cm ds n = true <-> along cm ds n)).
  { intros n Q. rewrite (droppedb_along cm ds n W ds_dims). apply mem_false in Q. tauto. }
  (* lookups in the base list *)
  assert (BL : forall n, assoc n base = if mem n ds then match assoc n (cm_coords cm) with Some m => Some (KTuple [] (VCoord m)) | None => None end
      else if droppedb cm ds n then None
      else match assoc n (cm_coords cm), assoc n (cm_dmap cm) with Some m, Some d => Some (KTuple d (VCoord m)) | _, _ => None end).
  { intros n. rewrite AB, Co, Mo. destruct (mem n ds) eqn:Q.
    - destruct (assoc n (cm_coords cm)) as [m|] eqn:Qm; [|reflexivity]. cbn [option_map]. rewrite recf_settled by (apply (ST n m Qm)). reflexivity.
    - destruct (droppedb cm ds n); [reflexivity|]. destruct (assoc n (cm_coords cm)) as [m|] eqn:Qm; [|reflexivity].
      cbn [option_map]. rewrite recf_settled by (apply (ST n m Qm)). reflexivity. }
  assert (NEW : forall n, (exists m, assoc n (cm_coords cm) = Some m) -> forall d, In d ds -> n <> ftn d /\ n <> unpadded_name d).
  { intros n (m & Q) d I. destruct (FN d I) as (_ & _ & _ & A & B). split; intros ->; [fold (ftn d) in A; congruence|].
    unfold unpadded_name in Q. congruence. }
  assert (KN : forall n m, assoc n (cm_coords cm) = Some m -> assoc n kw = assoc n base).
  { intros n m Q. apply LR. intros d I. destruct (NEW n (ex_intro _ m Q) d I). auto. }
  assert (FIT : tuples_fit kw dims').
  { assert (EACH : forall d, In d (cm_dims cm) -> exists c, assoc (if mem d ds then ftn d else d) kw =
        Some (KTuple [if mem d ds then ftn d else d] (VCoord (M1 c)))).
    { intros d I. destruct (mem d ds) eqn:Q.
      - apply mem_In' in Q. rewrite (LF d Q). eauto.
      - destruct (wf_dim_coord cm d W I) as (c & A & _ & D). rewrite (KN d _ A), BL, Q, A, D.
        assert (droppedb cm ds d = false) as ->; [|eauto].
        apply not_true_is_false. rewrite (DROP d Q). intros (_ & x & X1 & X2). unfold dims_of in X1. rewrite D in X1.
        destruct X1 as [<-|[]]. apply mem_false in Q. contradiction. }
    constructor.
    - exact NK.
    - unfold dims'. assert (NI : NoDup (cm_dims cm)) by apply (wf_dims _ W).
      assert (NF : forall d, In d ds -> ~ In (ftn d) (cm_dims cm)).
      { intros d I J. destruct (wf_dim_coord cm _ W J) as (c & A & _). destruct (FN d I) as (_ & _ & _ & B & _). fold (ftn d) in B. congruence. }
      clear - NI NF. induction NI as [|x l N NI IH]; cbn [map]; constructor.
      + intros J. apply in_map_iff in J. destruct J as (y & Ey & J).
        destruct (mem x ds) eqn:Qx, (mem y ds) eqn:Qy.
        * apply ftn_inj in Ey. congruence.
        * apply mem_In' in Qx. apply (NF x Qx). right. rewrite <- Ey. exact J.
        * apply mem_In' in Qy. apply (NF y Qy). left. symmetry. exact Ey.
        * congruence.
      + apply IH. intros d I J. apply (NF d I). right. exact J.
    - intros n v Q. destruct (in_dec string_dec n (map ftn ds)) as [I|I].
      + apply in_map_iff in I. destruct I as (d & <- & I). rewrite (LF d I) in Q. exists [ftn d], (M1 (CRange (fc d))).
        assert (v = KTuple [ftn d] (VCoord (M1 (CRange (fc d))))) by congruence. subst v. split; [reflexivity|].
        destruct (fc_ok d I) as (_ & Wf & _). split; [exact Wf|]. split; [repeat constructor; intros []|]. split.
        * intros x [<-|[]]. unfold dims'. apply in_map_iff. exists d. rewrite (proj2 (mem_In' d ds) I). split; [reflexivity|apply ds_dims, I].
        * right. constructor; [|constructor]. exists (CRange (fc d)). rewrite (LF d I). auto.
      + assert (UNP : (exists o d, orig = Some o /\ In d ds /\ n = unpadded_name d) \/ (forall d, In d ds -> orig <> None -> n <> unpadded_name d)).
        { destruct orig as [o|]; [|right; intros; congruence]. destruct (in_dec string_dec n (map unpadded_name ds)) as [J|J].
          - left. apply in_map_iff in J. destruct J as (d & <- & J). eauto.
          - right. intros d I' _ ->. apply J. apply in_map, I'. }
        destruct UNP as [(o & d & Qo & Id & ->)|UNP].
        * destruct (OR o d Qo Id) as (m & Qm & Sm & Km). rewrite (LU o d m Qo Id Qm) in Q. exists [], m.
          assert (v = KTuple [] (VCoord m)) by congruence. subst v. split; [reflexivity|]. split; [exact Km|]. split; [constructor|].
          split; [intros x []|left; reflexivity].
        * rewrite LR in Q.
          2: { intros d Id. split; [intros ->; apply I; apply in_map, Id|apply UNP, Id]. }
          rewrite BL in Q. destruct (mem n ds) eqn:Qn.
          -- destruct (assoc n (cm_coords cm)) as [m|] eqn:Qm; [|discriminate]. exists [], m.
             assert (v = KTuple [] (VCoord m)) by congruence. subst v. split; [reflexivity|]. split; [apply wf_okm, (wf_vals _ W _ _ Qm)|].
             split; [constructor|]. split; [intros x []|left; reflexivity].
          -- destruct (droppedb cm ds n) eqn:Dn; [discriminate|].
             destruct (assoc n (cm_coords cm)) as [m|] eqn:Qm; [|discriminate].
             destruct (assoc n (cm_dmap cm)) as [xs|] eqn:Qx; [|discriminate]. exists xs, m.
             assert (v = KTuple xs (VCoord m)) by congruence. subst v. split; [reflexivity|]. split; [apply wf_okm, (wf_vals _ W _ _ Qm)|].
             split; [apply (wf_distinct _ W _ _ Qx)|].
             destruct (con_coord _ (wf_con _ W) n xs Qx) as (m' & Qm' & S & F). assert (m' = m) by congruence. subst m'.
             assert (NX : forall d, In d xs -> mem d ds = false).
             { intros d J. apply mem_false. intros Id. assert (droppedb cm ds n = true); [|congruence].
               apply (DROP n Qn). split; [apply mem_false; exact Qn|]. exists d. unfold dims_of. rewrite Qx. auto. }
             split.
             ++ intros d J. unfold dims'. apply in_map_iff. exists d. rewrite (NX d J). split; [reflexivity|apply S, J].
             ++ destruct F as [F|F]; [left; exact F|right].
                assert (S' : forall d, In d xs -> In d (cm_dims cm)) by exact S. clear - F NX S' EACH KN BL W DROP.
                induction F as [|d k xs s H F IH]; constructor.
                ** destruct H as (c & A & B). exists c. split; [|exact B].
                   pose proof (EACH d (S' d (or_introl eq_refl))) as X. rewrite (NX d (or_introl eq_refl)) in X. destruct X as (c' & X).
                   rewrite X. rewrite (KN d _ A), BL, (NX d (or_introl eq_refl)) in X. destruct (droppedb cm ds d); [discriminate|].
                   rewrite A in X. destruct (assoc d (cm_dmap cm)); [|discriminate]. congruence.
                ** apply IH; intros; [apply NX|apply S']; right; assumption.
    - intros d I. unfold dims' in I. apply in_map_iff in I. destruct I as (x & <- & I). apply (EACH x I). }
  destruct (get_cm_tuples kw dims' FIT) as (cm' & EG & Wn & Dn & Kn & Cn & Mn).
  exists cm'. split; [exact EG|]. constructor.
  - exact Wn.
  - exact Dn.
  - intros d r I Q. destruct (G d I) as (_ & _ & Qr & _). assert (r = rg d) by congruence. subst r.
    destruct (fc_ok d I) as (_ & Wf & V). exists (fc d). fold (ftn d). rewrite Cn, (LF d I). split; [reflexivity|]. split; [exact Wf|exact V].
  - intros d I. destruct (G d I) as (_ & _ & Qr & _). rewrite Cn, Mn, (KN d _ Qr), BL, (proj2 (mem_In' d ds) I), Qr. auto.
  - intros o d Qo I. destruct (OR o d Qo I) as (m & Qm & Sm & _). fold (unpadded_name d).
    rewrite Cn, Mn, (LU o d m Qo I Qm), Qm, (recf_settled m Sm). auto.
  - intros n AL. pose proof AL as (Nn & x & X1 & X2). assert (Q : mem n ds = false) by (apply mem_false; exact Nn).
    unfold dims_of in X1. destruct (assoc n (cm_dmap cm)) as [xs|] eqn:Qx; [|destruct X1].
    destruct (con_coord _ (wf_con _ W) n xs Qx) as (m & Qm & _). rewrite Cn, (KN n m Qm), BL, Q.
    rewrite (proj2 (DROP n Q) AL). reflexivity.
  - intros n Nn Na H. assert (Q : mem n ds = false) by (apply mem_false; exact Nn).
    assert (D0 : droppedb cm ds n = false) by (apply not_true_is_false; rewrite (DROP n Q); exact Na).
    rewrite Cn, Mn, LR by (intros d I; apply (H d I)). rewrite BL, Q, D0.
    destruct (assoc n (cm_coords cm)) as [m|] eqn:Qm.
    + destruct (wf_lookup cm n m W Qm) as (xs & Qx & _). rewrite Qx. rewrite (recf_settled m (ST n m Qm)). auto.
    + split; [reflexivity|]. destruct (assoc n (cm_dmap cm)) as [xs|] eqn:Qx; [|reflexivity].
      destruct (con_coord _ (wf_con _ W) n xs Qx) as (m & Qm' & _). congruence.
Qed.
End DftCoords.

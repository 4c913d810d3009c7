(** Lemmas behind FourierProps.v: transforms with padding. *)
From Verif Require Import Base BaseFacts CoordModel CoordSpec CoordProofs NdModel NdSpec NdProofs NdProofs2
  FrameModel FrameProofs FrameProofs5 ChunkModel CmModel CmSpec CmProofs CmProofs2 CmProofs3 CmProofs5 CmProofs12 CmProofs13 CmProofs14
  CmProofs17 ProcModel ProcSpec ProcProofs2 ProcProofs3 ProcProofs4 ProcProofs5 FourierModel FourierSpec FourierProofs FourierProofs2 FourierProofs3 FourierProofs4
  FourierProofs5 FourierProofs6.
From Coq Require Import Strings.String Strings.Ascii ZifyBool Sorting.Permutation.
Ltac Zify.zify_post_hook ::= Z.div_mod_to_equations.
Local Open Scope Z_scope.
Local Open Scope list_scope.

Lemma inb_within cm ds s pos : Forall2 (dim_len cm) ds s -> inb s (map pos ds) -> within cm ds pos.
Proof.
  intros F. induction F as [|d n ds s H F IH]; intros B; [intros d []|]. cbn [map] in B. inversion B as [|? ? ? ? B1 B2]; subst.
  intros e [<-|J]; [exists n; auto|]. apply IH; assumption.
Qed.
Lemma assoc_const {X} (v : X) o d : assoc d (map (fun d => (d, v)) o) = if mem d o then Some v else None.
Proof.
  induction o as [|x t IH]; [reflexivity|]. cbn [map assoc]. unfold mem. cbn [existsb]. fold (mem d t). rewrite IH.
  destruct (String.eqb_spec d x); reflexivity.
Qed.
Lemma flat_get {A} (a : nd A) x : wf_nd a -> In x (nd_flat a) -> exists ix, inb (nd_shape a) ix /\ nd_get a ix = Some x.
Proof.
  intros [P L] I. apply in_znth in I. destruct I as [j E]. pose proof (znth_some _ _ _ E) as B. rewrite L in B.
  assert (exists ix, znth (all_ix (nd_shape a)) j = Some ix) as (ix & Ei) by (apply znth_range; rewrite zlen_all_ix by exact P; exact B).
  apply (znth_all_ix _ P) in Ei. exists ix. split; [apply ravel_inb; eauto|]. unfold nd_get. rewrite Ei. exact E.
Qed.

Section Padded.
Context {A : Type}.
Variables (zero : A) (fast : Z -> Z) (good : A -> Prop) (p q : patch A) (ds : list string).
Let cm := p_cm p.
Hypothesis WP : wf_patch p.
Hypothesis ST : all_settled cm.
Hypothesis ED : even_dims_of cm ds.
Hypothesis FN : free_names cm ds.
Hypothesis FA : forall n, 1 <= n -> n <= fast n.
Hypothesis PD : padded p q zero (fft_pad fast cm ds).

Lemma PK d : In d ds -> In d (cm_dims cm) /\ assoc d (cm_coords cm) = Some (M1 (CRange (rgf cm d))) /\ wf_range (rgf cm d) /\
  fft_pad fast cm ds d = Some (0, fast (r_len (rgf cm d)) - r_len (rgf cm d)).
Proof.
  intros I. destruct (RK p ds WP ED d I) as (_ & N & R & Wr). fold cm in N, R, Wr. split; [eapply nth_error_In, N|]. split; [exact R|]. split; [exact Wr|].
  unfold fft_pad. rewrite (proj2 (mem_In' d ds) I), R. reflexivity.
Qed.
Lemma PN d : ~ In d ds -> fft_pad fast cm ds d = None.
Proof. intros I. unfold fft_pad. rewrite (proj2 (mem_false d ds) I). reflexivity. Qed.
Lemma QK d : In d ds -> assoc d (cm_coords (p_cm q)) = Some (M1 (CRange (rgf (p_cm q) d))) /\ wf_range (rgf (p_cm q) d) /\
  r_kind (rgf (p_cm q) d) = r_kind (rgf cm d) /\
  r_step (rgf (p_cm q) d) = r_step (rgf cm d) /\ r_start (rgf (p_cm q) d) = r_start (rgf cm d) /\ r_len (rgf (p_cm q) d) = fast (r_len (rgf cm d)).
Proof.
  intros I. destruct (PK d I) as (_ & R & Wr & Q). destruct (pd_coords _ _ _ _ PD d _ _ Q) as (r & r' & E1 & E2 & W' & K & S1 & S2 & S3).
  fold cm in E1. assert (r = rgf cm d) by congruence. subst r. assert (QE : rgf (p_cm q) d = r') by (unfold rgf; rewrite E2; reflexivity). rewrite QE.
  repeat (split; [reflexivity || assumption|]). split; lia.
Qed.
Lemma Q_other n m : ~ In n ds -> assoc n (cm_coords cm) = Some m ->
  match assoc n (cm_coords (p_cm q)) with
  | Some m' => m' = m /\ assoc n (cm_dmap (p_cm q)) = assoc n (cm_dmap cm)
  | None => along cm ds n end.
Proof.
  intros I E. pose proof (pd_others _ _ _ _ PD n m (PN n I) E) as X. destruct (assoc n (cm_coords (p_cm q))) as [m'|].
  - destruct X as (_ & D & S). split; [apply S, (ST n m E)|exact D].
  - destruct X as (d & a & b & J & Q & _). split; [exact I|]. exists d. split; [exact J|].
    destruct (in_dec string_dec d ds) as [Y|Y]; [exact Y|]. rewrite (PN d Y) in Q. discriminate.
Qed.
Lemma Q_settled : all_settled (p_cm q).
Proof.
  intros n m E. destruct (in_dec string_dec n ds) as [I|I].
  - destruct (QK n I) as (R & _). rewrite R in E. assert (m = M1 (CRange (rgf (p_cm q) n))) by congruence. subst m. reflexivity.
  - destruct (assoc n (cm_coords cm)) as [m0|] eqn:Q.
    + pose proof (Q_other n m0 I Q) as X. rewrite E in X. destruct X as [-> _]. apply (ST n m0 Q).
    + rewrite (pd_new _ _ _ _ PD n Q) in E. discriminate.
Qed.
Lemma Q_even : even_dims_of (p_cm q) ds.
Proof.
  destruct ED as (N & NE & E). split; [exact N|]. split; [exact NE|]. intros d I. split.
  - rewrite (pd_dims _ _ _ _ PD). apply E, I.
  - exists (rgf (p_cm q) d). apply (QK d I).
Qed.
Lemma Q_free : free_names (p_cm q) ds.
Proof.
  intros d I. destruct (FN d I) as (a & b & c & e & f). split; [exact a|]. split; [exact b|]. split; [exact c|].
  split; apply (pd_new _ _ _ _ PD); assumption.
Qed.
Lemma len_q d n : In d (cm_dims cm) -> dim_len cm d n -> dim_len (p_cm q) d (if mem d ds then fast n else n).
Proof.
  intros I (c & E & L). destruct (mem d ds) eqn:M.
  - apply mem_In' in M. destruct (PK d M) as (_ & R & _). fold cm in R. assert (c = CRange (rgf cm d)) by congruence. subst c. cbn [c_len] in L.
    destruct (QK d M) as (R' & _ & _ & _ & _ & L'). exists (CRange (rgf (p_cm q) d)). split; [exact R'|]. cbn [c_len]. congruence.
  - apply mem_false in M. pose proof (Q_other d (M1 c) M E) as X. exists c. split; [|exact L].
    destruct (assoc d (cm_coords (p_cm q))) as [m'|]; [destruct X as [-> _]; reflexivity|].
    destruct X as (_ & e & Y & Z'). destruct (wf_dim_coord cm d (wp_cm _ WP) I) as (c' & _ & _ & Dc). unfold dims_of in Y. rewrite Dc in Y.
    destruct Y as [<-|[]]. contradiction.
Qed.
Lemma dim_len_fun c d a b : dim_len c d a -> dim_len c d b -> a = b.
Proof. intros (x & E & <-) (y & E' & <-). assert (x = y) by congruence. congruence. Qed.
Lemma Q_shape : nd_shape (p_data q) = dft_shape fast true cm ds (nd_shape (p_data p)).
Proof.
  pose proof (wp_shape _ WP) as FP. pose proof (wp_shape _ (pd_wf _ _ _ _ PD)) as FQ. rewrite (pd_dims _ _ _ _ PD) in FQ. fold cm in FP, FQ.
  unfold dft_shape. assert (LQ := len_q). revert FQ LQ. generalize (nd_shape (p_data q)). cbn [andb].
  induction FP as [|d n l s H F IH]; intros s' FQ LQ; inversion FQ as [|? n' ? s'' H' F']; subst; [reflexivity|].
  cbn [combine map fst snd]. f_equal.
  - eapply dim_len_fun; [exact H'|]. apply LQ; [left; reflexivity|exact H].
  - apply IH; [exact F'|]. intros e m J. apply LQ. right. exact J.
Qed.
Lemma unpad_id pos ds' : map (unpad (fft_pad fast cm ds) pos) ds' = map pos ds'.
Proof.
  apply map_ext. intros d. unfold unpad. unfold fft_pad. destruct (mem d ds); [|reflexivity].
  destruct (assoc d (cm_coords cm)) as [[[r| | |]| |]|]; try reflexivity. lia.
Qed.
Lemma same_data ix : inb (nd_shape (p_data p)) ix -> nd_get (p_data q) ix = nd_get (p_data p) ix.
Proof.
  intros B. pose proof (wp_cm _ WP) as W. fold cm in W. destruct (pos_of (cm_dims cm) ix (wf_dims _ W)) as (pos & E).
  { pose proof (Forall2_length _ _ _ (wp_shape _ WP)) as L1. pose proof (inb_length _ _ B) as L2. fold cm in L1. congruence. }
  assert (IP : in_patch p pos). { apply (inb_within _ _ _ _ (wp_shape _ WP)). fold cm. rewrite E. exact B. }
  assert (IQ : in_patch q pos).
  { intros d I. rewrite (pd_dims _ _ _ _ PD) in I. destruct (IP d I) as (n & L & R). exists (if mem d ds then fast n else n). split; [apply len_q; [exact I|exact L]|].
    destruct (mem d ds); [|exact R]. pose proof (FA n). lia. }
  destruct (pd_data _ _ _ _ PD pos IQ) as [D _].
  assert (IU : in_patch p (unpad (fft_pad fast cm ds) pos)).
  { intros d I. destruct (IP d I) as (n & L & R). exists n. split; [exact L|]. pose proof (unpad_id pos [d]) as X. cbn [map] in X.
    assert (unpad (fft_pad fast cm ds) pos d = pos d) as -> by congruence. exact R. }
  specialize (D IU). unfold data_at in D. rewrite (pd_dims _ _ _ _ PD), unpad_id in D. fold cm in D. rewrite E in D. exact D.
Qed.
Lemma Q_good : good zero -> Forall good (nd_flat (p_data p)) -> Forall good (nd_flat (p_data q)).
Proof.
  intros GZ GP. apply Forall_forall. intros x I. pose proof (pd_wf _ _ _ _ PD) as WQ. destruct (flat_get _ _ (wp_nd _ WQ) I) as (ix & B & G).
  destruct (pos_of (cm_dims cm) ix (wf_dims _ (wp_cm _ WP))) as (pos & E).
  { pose proof (Forall2_length _ _ _ (wp_shape _ WQ)) as L1. pose proof (inb_length _ _ B) as L2. rewrite (pd_dims _ _ _ _ PD) in L1. fold cm in L1. congruence. }
  assert (IQ : in_patch q pos). { apply (inb_within _ _ _ _ (wp_shape _ WQ)). rewrite (pd_dims _ _ _ _ PD). fold cm. rewrite E. exact B. }
  destruct (pd_data _ _ _ _ PD pos IQ) as [D1 D2]. unfold data_at in D1, D2. rewrite (pd_dims _ _ _ _ PD) in D1, D2. fold cm in D1, D2. rewrite E, G in D1, D2.
  destruct (nd_get (p_data p) (map (unpad (fft_pad fast cm ds) pos) (cm_dims cm))) as [y|] eqn:Y.
  - assert (IU : in_patch p (unpad (fft_pad fast cm ds) pos)) by (apply (inb_within _ _ _ _ (wp_shape _ WP)); eapply nd_get_inb, Y).
    specialize (D1 IU). assert (x = y) by congruence. subst y. unfold nd_get in Y. destruct (ravel _ _); [|discriminate].
    apply (proj1 (Forall_forall _ _) GP). eapply znth_in, Y.
  - assert (x = zero); [|subst x; exact GZ]. assert (Some x = Some zero); [|congruence]. apply D2. intros IU.
    pose proof (within_inb _ _ _ _ (wp_shape _ WP) IU) as BI. destruct (nd_get_total _ _ (wp_nd _ WP) BI) as (y & Y'). fold cm in Y'. congruence.
Qed.

Lemma firstn_range a b : wf_range a -> wf_range b -> r_start a = r_start b -> r_step a = r_step b -> r_len a <= r_len b ->
  gather (r_values b) (zrange (r_len a)) = Some (r_values a).
Proof.
  intros Wa Wb E1 E2 L. destruct (gather_ok (r_values b) (zrange (r_len a))) as (v & G).
  { intros i I. apply in_zrange in I. rewrite zlen_r_values by exact Wb. lia. }
  rewrite G. f_equal. apply znth_ext. intros i. rewrite (gather_znth _ _ _ G), znth_zrange.
  destruct ((0 <=? i) && (i <? r_len a)) eqn:B.
  - rewrite (r_values_prog a Wa), (r_values_prog b Wb), !znth_progression by lia. congruence.
  - symmetry. apply znth_none. rewrite zlen_r_values by exact Wa. lia.
Qed.
Lemma slice_front n m : 1 <= n -> n < m -> slice_positions m (mkSlice (Some 0) (Some (n - m)) None) = Some (zrange n).
Proof.
  intros N L. unfold slice_positions, slice_indices. cbn [sl_start sl_stop sl_step]. change (1 =? 0) with false. change (1 <? 0) with false. cbv iota zeta.
  unfold clip_index. cbn [Z.ltb Z.compare]. destruct (Z.ltb_spec (n - m) 0); [|lia]. destruct (Z.ltb_spec (n - m + m) 0); [lia|].
  f_equal. match goal with |- map _ (zrange ?z) = _ => replace z with n end.
  - rewrite <- (map_id (zrange n)) at 2. apply map_ext_in. intros i I. apply in_zrange in I. destruct (m <=? 0) eqn:Q; lia.
  - rewrite Z.div_1_r. destruct (Z.leb_spec m 0); [lia|]. destruct (Z.leb_spec m (n - m + m)); [lia|]. destruct (Z.ltb_spec 0 (n - m + m)); lia.
Qed.

Lemma In_map_fst_trims ou l d : In d (map fst (trims (rgf (p_cm q)) ou true l)) <-> In d l /\ r_len (ou d) < r_len (rgf (p_cm q) d).
Proof.
  unfold trims. rewrite map_map. cbn [fst]. rewrite map_id, filter_In. intuition lia.
Qed.

(** Cutting the padding off again. *)
Lemma unpadding R l : Permutation ds l -> plain_names cm -> restored (p_cm q) R ds -> wf_patch (mkPatch R (p_data q)) ->
  exists r, (match trims (rgf (p_cm q)) (rgf cm) true l with
             | [] => Ok (mkF (mkPatch R (p_data q)) false)
             | t => do out <- pt_select (mkPatch R (p_data q)) false true t; Ok (mkF out false) end) = Ok (mkF r false) /\ back p r ds.
Proof.
  intros PL PNm RS WR. pose proof (wp_cm _ WP) as W. fold cm in W. pose proof (pd_wf _ _ _ _ PD) as WQ.
  assert (IL : forall d, In d l <-> In d ds) by (intros d; split; apply Permutation_in; [apply Permutation_sym|]; exact PL).
  (* what R holds *)
  assert (RD : forall d, In d ds -> assoc d (cm_coords R) = Some (M1 (CRange (rgf (p_cm q) d))) /\ assoc d (cm_dmap R) = Some [d]).
  { intros d I. destruct (rs_rest _ _ _ RS d) as [E1 E2]; [intros (X & _); contradiction|]. rewrite E1, E2. split; [apply (QK d I)|].
    destruct (wf_dim_coord (p_cm q) d (wp_cm _ WQ)) as (c & _ & _ & D); [|exact D]. rewrite (pd_dims _ _ _ _ PD). apply (PK d I). }
  assert (QA : forall n m, ~ In n ds -> assoc n (cm_coords (p_cm q)) = Some m ->
      (along (p_cm q) ds n <-> along cm ds n)).
  { intros n m I E. unfold along. destruct (assoc n (cm_coords cm)) as [m0|] eqn:Q0.
    - pose proof (Q_other n m0 I Q0) as X. rewrite E in X. destruct X as [_ D]. unfold dims_of. rewrite D. reflexivity.
    - rewrite (pd_new _ _ _ _ PD n Q0) in E. discriminate. }
  assert (RN : forall n, ~ In n ds -> match assoc n (cm_coords R) with
      | Some m => assoc n (cm_coords cm) = Some m /\ assoc n (cm_dmap R) = assoc n (cm_dmap cm) /\ ~ along cm ds n
      | None => assoc n (cm_coords cm) = None \/ along cm ds n end).
  { intros n I. destruct (assoc n (cm_coords (p_cm q))) as [m|] eqn:Qm.
    - assert (NA : along (p_cm q) ds n \/ ~ along (p_cm q) ds n).
      { unfold along. destruct (existsb (fun d => mem d ds) (dims_of (p_cm q) n)) eqn:X.
        - left. split; [exact I|]. apply existsb_exists in X. destruct X as (d & X1 & X2). exists d. split; [exact X1|apply mem_In', X2].
        - right. intros (_ & d & X1 & X2). assert (existsb (fun d => mem d ds) (dims_of (p_cm q) n) = true); [|congruence].
          apply existsb_exists. exists d. split; [exact X1|apply mem_In', X2]. }
      destruct NA as [NA|NA].
      + rewrite (rs_along _ _ _ RS n NA). right. apply (QA n m I Qm), NA.
      + destruct (rs_rest _ _ _ RS n NA) as [E1 E2]. rewrite E1, Qm. destruct (assoc n (cm_coords cm)) as [m0|] eqn:Q0.
        * pose proof (Q_other n m0 I Q0) as X. rewrite Qm in X. destruct X as [-> D]. split; [reflexivity|]. split; [congruence|].
          intros Y. apply NA, (QA n m0 I Qm), Y.
        * rewrite (pd_new _ _ _ _ PD n Q0) in Qm. discriminate.
    - destruct (rs_rest _ _ _ RS n) as [E1 _].
      { intros (_ & d & X & _). unfold dims_of in X. destruct (assoc n (cm_dmap (p_cm q))) as [xs|] eqn:Qx; [|destruct X].
        destruct (con_coord _ (wf_con _ (wp_cm _ WQ)) n xs Qx) as (m & Qm' & _). congruence. }
      rewrite E1, Qm. destruct (assoc n (cm_coords cm)) as [m0|] eqn:Q0; [|left; reflexivity].
      pose proof (Q_other n m0 I Q0) as X. rewrite Qm in X. right. exact X. }
  assert (DR : cm_dims R = cm_dims cm) by (rewrite (rs_dims _ _ _ RS); apply (pd_dims _ _ _ _ PD)).
  assert (PNR : plain_names R).
  { intros n I. rewrite DR. apply PNm. apply assoc_In in I. destruct I as (m & E). apply assoc_In.
    destruct (in_dec string_dec n ds) as [J|J]; [exists (M1 (CRange (rgf cm n))); apply (PK n J)|].
    pose proof (RN n J) as X. rewrite E in X. destruct X as [X _]. eauto. }
  set (tr := trims (rgf (p_cm q)) (rgf cm) true l).
  (* the kept positions of a dimension *)
  assert (LE : forall d, In d ds -> 1 <= r_len (rgf cm d) <= r_len (rgf (p_cm q) d)).
  { intros d I. destruct (PK d I) as (_ & _ & (_ & L & _) & _). destruct (QK d I) as (_ & _ & _ & _ & _ & ->). pose proof (FA _ L). lia. }
  assert (TF : forall d, In d (map fst tr) <-> In d l /\ r_len (rgf cm d) < r_len (rgf (p_cm q) d)) by (intros d; apply In_map_fst_trims).
  assert (TN : NoDup (map fst tr)).
  { unfold tr, trims. rewrite map_map. cbn [fst]. rewrite map_id. apply NoDup_filter. eapply Permutation_NoDup; [exact PL|apply ED]. }
  assert (TI : forall n arg, In (n, arg) tr -> In n ds /\ r_len (rgf cm n) < r_len (rgf (p_cm q) n) /\
     arg = SelPair (Some 0) (Some (r_len (rgf cm n) - r_len (rgf (p_cm q) n)))).
  { intros n arg I. unfold tr, trims in I. apply in_map_iff in I. destruct I as (d & Q & I). apply filter_In in I. destruct I as [I L].
    assert (n = d) by congruence. assert (arg = SelPair (Some 0) (Some (r_len (rgf cm d) - r_len (rgf (p_cm q) d)))) by congruence. subst n arg.
    split; [apply IL, I|]. split; [lia|reflexivity]. }
  clearbody tr.
  assert (EQ : forall d, In d ds -> ~ In d (map fst tr) -> r_len (rgf cm d) = r_len (rgf (p_cm q) d)).
  { intros d I NI. pose proof (LE d I). destruct (Z.eq_dec (r_len (rgf cm d)) (r_len (rgf (p_cm q) d))) as [|NEQ]; [assumption|].
    destruct NI. apply TF. split; [apply IL, I|lia]. }
  assert (MAIN : exists r pick own, (match tr with
             | [] => Ok (mkF (mkPatch R (p_data q)) false)
             | t => do out <- pt_select (mkPatch R (p_data q)) false true t; Ok (mkF out false) end) = Ok (mkF r false) /\
      CmSpec.aligned (mkPatch R (p_data q)) r pick own /\
      (forall d, In d ds -> pick d = zrange (r_len (rgf cm d))) /\ (forall d, ~ In d ds -> pick d = pick0 R d) /\
      (forall n, ~ In n ds -> own n = own0 R n)).
  { destruct tr as [|e0 tr'].
    - exists (mkPatch R (p_data q)), (pick0 R), (own0 R). split; [reflexivity|]. split; [apply aligned_self; [exact WR|reflexivity|reflexivity]|].
      split; [|split; reflexivity]. intros d I. unfold pick0. destruct (RD d I) as [-> _]. cbn [c_len]. rewrite (EQ d I (fun x => x)). reflexivity.
    - set (tr := e0 :: tr') in *.
      destruct (pt_select_one (mkPatch R (p_data q)) false true (fun n => zrange (r_len (rgf cm n))) tr WR PNR) as (r & pick & own & E & AL & PKW).
      + unfold separate. cbn [p_cm]. assert (QM : map (dims_of R) (map fst tr) = map (fun d => [d]) (map fst tr)).
        { apply map_ext_in. intros d I. apply TF in I. destruct I as [I _]. apply IL in I. unfold dims_of. destruct (RD d I) as [_ ->]. reflexivity. }
        rewrite QM. clear - TN. induction TN as [|x t N NT IH]; cbn [map]; constructor; [|exact IH]. intros I. apply in_map_iff in I. destruct I as (y & Q & I). congruence.
      + intros n arg I. destruct (TI n arg I) as (J & L & ->). exists (CRange (rgf (p_cm q) n)). split; [apply (RD n J)|].
        cbn [CmSpec.asks andb negb c_len]. apply slice_front; [apply (LE n J)|lia].
      + intros n I D. apply TF in I. destruct I as [I _]. apply IL in I. cbn [p_cm] in D. destruct (RD n I) as [_ X]. congruence.
      + exists r, pick, own. rewrite E. cbn [bind]. split; [reflexivity|]. split; [exact AL|]. destruct PKW as (P1 & P2 & P3 & P4). cbn [p_cm] in *.
        split; [|split].
        * intros d I. destruct (in_dec string_dec d (map fst tr)) as [J|J].
          -- apply (P1 d d J). apply (RD d I).
          -- rewrite P3.
             ++ unfold pick0. destruct (RD d I) as [-> _]. cbn [c_len]. rewrite (EQ d I J). reflexivity.
             ++ intros n Jn X. apply TF in Jn as Jn'. destruct Jn' as [Jn' _]. apply IL in Jn'. destruct (RD n Jn') as [_ Y]. congruence.
        * intros d I. apply P3. intros n Jn X. apply TF in Jn. destruct Jn as [Jn _]. apply IL in Jn. destruct (RD n Jn) as [_ Y]. congruence.
        * intros n I. apply P4. intros J. apply TF in J. destruct J as [J _]. apply IL in J. contradiction. }
  destruct MAIN as (r & pick & own & E & (WRr & (CD & CM & CC) & ND) & P1 & P2 & P3). cbn [p_cm p_data] in *.
  exists r. split; [destruct tr; exact E|].
  assert (PF : map pick (cm_dims R) = full (nd_shape (p_data p))).
  { rewrite DR. pose proof (wp_shape _ WP) as FP. fold cm in FP. unfold full.
    assert (PL' : forall d n, In d (cm_dims cm) -> dim_len cm d n -> pick d = zrange n).
    { intros d n I (c & Ec & L). destruct (in_dec string_dec d ds) as [J|J].
      - rewrite (P1 d J). destruct (PK d J) as (_ & X & _). assert (c = CRange (rgf cm d)) by congruence. subst c. cbn [c_len] in L. congruence.
      - rewrite (P2 d J). unfold pick0. pose proof (RN d J) as X. destruct (wf_dim_coord cm d W I) as (c' & Qc & _ & Dc).
        destruct (assoc d (cm_coords R)) as [m|].
        + destruct X as [X _]. assert (m = M1 c) by congruence. subst m. congruence.
        + destruct X as [X|(_ & e & Y & Z')]; [congruence|]. unfold dims_of in Y. rewrite Dc in Y. destruct Y as [<-|[]]. contradiction. }
    clear - FP PL'. induction FP as [|d n ds' s H F IH]; [reflexivity|]. cbn [map]. f_equal; [apply PL'; [left; reflexivity|exact H]|].
    apply IH. intros e m J. apply PL'. right. exact J. }
  constructor.
  - exact WRr.
  - rewrite CD. exact DR.
  - rewrite PF in ND. destruct ND as (Wb & Sb & _ & G). rewrite map_zlen_full in Sb, G by apply (wp_nd _ WP).
    apply nd_ext; [exact Wb|apply (wp_nd _ WP)|exact Sb|]. intros ix B. rewrite Sb in B. destruct (G ix B) as (jx & x & J & X & Y).
    rewrite (pick_ix_full _ _ B) in J. assert (jx = ix) by congruence. subst jx. rewrite Y, <- X. apply same_data, B.
  - intros d r0 I E0. destruct (PK d I) as (_ & X & Wr & _). fold cm in E0. assert (r0 = rgf cm d) by congruence. subst r0.
    pose proof (CC d) as C. destruct (RD d I) as [E1 E2]. rewrite E1 in C. destruct (assoc d (cm_coords (p_cm r))) as [m'|]; [|destruct C].
    destruct C as (c' & ps & -> & Q & vs & Gv & RP). exists c'. split; [reflexivity|].
    unfold picks_of in Q. rewrite E2 in Q. cbn [map] in Q. rewrite (P1 d I) in Q. assert (ps = zrange (r_len (rgf cm d))) by congruence. subst ps.
    destruct (QK d I) as (_ & Wq & _ & Sq & Tq & _). cbn [c_ints] in Gv.
    rewrite (firstn_range (rgf cm d) (rgf (p_cm q) d) Wr Wq (eq_sym Tq) (eq_sym Sq)) in Gv by (apply LE, I).
    assert (vs = r_values (rgf cm d)) by congruence. subst vs. destruct RP as (_ & _ & SP). apply SP, spread_range, Wr.
  - intros n AL. pose proof (CC n) as C. destruct AL as [I AL]. pose proof (RN n I) as X. destruct (assoc n (cm_coords R)) as [m|].
    + destruct X as (_ & _ & X). destruct X. split; assumption.
    + destruct (assoc n (cm_coords (p_cm r))); [destruct C|reflexivity].
  - intros n I NA. fold cm in NA |- *. pose proof (CC n) as C. pose proof (RN n I) as X. destruct (assoc n (cm_coords R)) as [m|] eqn:Em.
    + destruct X as (Qm & Dm & _). rewrite Qm. destruct (assoc n (cm_coords (p_cm r))) as [m'|]; [|destruct C]. split; [|rewrite CM; exact Dm].
      assert (picks_of R pick own n = full (m_shape m)) as <-; [|exact C].
      rewrite <- (picks0 R n m (rs_wf _ _ _ RS) Em). destruct (wf_lookup R n m (rs_wf _ _ _ RS) Em) as (xs & D & S & _).
      unfold picks_of. rewrite D. destruct xs as [|d xs]; [apply P3, I|]. apply map_ext_in. intros x J. apply P2. intros Y. apply NA.
      split; [exact I|]. exists x. split; [|exact Y]. unfold dims_of. rewrite <- Dm, D. exact J.
    + destruct X as [X|X]; [|contradiction]. rewrite X. destruct (assoc n (cm_coords (p_cm r))); [destruct C|exact Logic.I].
Qed.
End Padded.

(** ** With padding *)
Lemma dft_padded {A} (zero : A) fast fftn rfftn ifftn irfftn scale unscale good p b dim real ds : wf_patch p -> all_settled (p_cm p) -> plain_names (p_cm p) ->
  asked_dims (p_cm p) dim = ds -> even_dims_of (p_cm p) ds -> free_names (p_cm p) ds ->
  (forall n, 1 <= n -> n <= fast n) -> (forall d r, In d ds -> assoc d (cm_coords (p_cm p)) = Some (M1 (CRange r)) -> 0 < r_step r) ->
  fft_contract (dft_shape fast true (p_cm p) ds (nd_shape (p_data p))) good fftn rfftn ifftn irfftn scale unscale ->
  exists t q, dft zero fast fftn rfftn scale (mkF p b) dim real true = Ok (mkF t true) /\ wf_patch t /\
    padded p q zero (fft_pad fast (p_cm p) ds) /\
    transformed (p_cm q) (p_cm t) ds (real_dim real ds) (Some (p_cm p)) /\
    transform_data fftn rfftn scale (p_cm q) ds (real_dim real ds) (p_data q) (p_data t) /\
    ((real_dim real ds <> None -> good zero /\ Forall good (nd_flat (p_data p))) -> told (p_cm p) ds (real_dim real ds) (fun r => fast (r_len r)) ->
     forall names, asked_back (p_cm p) ds names ->
     exists r, idft ifftn irfftn unscale (mkF t true) names = Ok (mkF r false) /\ back p r ds).
Proof.
  intros WP ST PNm QD ED FN FA AS FC. rewrite (dft_front zero fast fftn rfftn scale (mkF p b) dim real true ds (wp_cm _ WP) QD ED). cbn [f_patch].
  set (rn := real_dim real ds). destruct (order_ok rn ds (proj1 ED) (real_dim_in real ds)) as (PO & NO & LO). set (o := dft_order rn ds) in *.
  pose proof (Permutation_sym PO) as PO'.
  assert (MO : forall d, mem d o = mem d ds).
  { intros d. apply eq_true_iff_eq. rewrite !mem_In'. split; apply Permutation_in; assumption. }
  destruct (pt_pad_ok p fast false (map (fun d => (d, PadFft)) o) (fft_pad fast (p_cm p) ds) zero WP PNm FA) as (q & EQ & PD).
  { rewrite map_map. cbn [fst]. rewrite map_id. exact NO. }
  { intros Q. apply map_eq_nil in Q. rewrite Q in PO'. apply Permutation_nil in PO'. apply (proj1 (proj2 ED)), PO'. }
  { intros d. rewrite assoc_const, MO. destruct (mem d ds) eqn:M.
    - apply mem_In' in M. destruct (PK fast p ds WP ED d M) as (I & R & Wr & Q). split; [exact I|].
      exists (rgf (p_cm p) d), (0, fast (r_len (rgf (p_cm p) d)) - r_len (rgf (p_cm p) d)). split; [exact R|]. split; [apply (AS d _ M R)|].
      split; [reflexivity|exact Q].
    - apply mem_false in M. apply (PN fast p ds d M). }
  rewrite EQ. cbn [bind].
  pose proof (pd_wf _ _ _ _ PD) as WQ. pose proof (Q_settled zero fast good p q ds WP ST ED PD) as STq.
  pose proof (Q_even zero fast good p q ds WP ED PD) as EDq. pose proof (Q_free zero fast p q ds FN PD) as FNq.
  pose proof (perm_even _ _ _ PO EDq) as EDo. pose proof (perm_free _ _ _ PO FNq) as FNo.
  rewrite <- (Q_shape zero fast good p q ds WP ST ED PD) in FC.
  assert (OR : forall o' d, Some (p_cm p) = Some o' -> In d o -> assoc d (cm_coords o') = Some (M1 (CRange (rgf (p_cm p) d))) /\ wf_range (rgf (p_cm p) d)).
  { intros o' d Q I. assert (o' = p_cm p) by congruence. subst o'. apply (Permutation_in _ PO') in I. destruct (PK fast p ds WP ED d I) as (_ & R & Wr & _). auto. }
  destruct (dft_tail_ok fftn rfftn ifftn irfftn scale unscale good q o rn (Some (p_cm p)) (rgf (p_cm p)) true WQ STq EDo FNo LO OR FC) as (T & data & ET & TR & WT & SD & ES).
  rewrite ET. exists (mkPatch T data), q. split; [reflexivity|]. split; [exact WT|]. split; [exact PD|]. cbn [p_cm p_data].
  split; [eapply transformed_perm; [exact PO'|exact TR]|]. split.
  { destruct (tail_data fftn rfftn ifftn irfftn scale unscale good q o rn data WQ EDo LO FC ES) as (o' & ax & st & P1 & P2 & P3 & P4 & P5 & P6).
    exists o', ax, st. split; [eapply Permutation_trans; eassumption|]. split; [exact P2|]. split; [exact P3|]. split; [exact P4|].
    split; [exact P5|]. intros ix B. destruct (P6 ix B) as (jx & J1 & J2 & J3). exists jx. split; [exact J1|]. split; [exact J2|].
    intros i d n x A1 A2 A3. rewrite (J3 i d n x A1 A2 A3), MO. reflexivity. }
  intros GD TL names AB.
  assert (ABq : asked_back (p_cm q) ds names).
  { unfold asked_back in *. destruct names; [exact AB|]. rewrite (pd_dims _ _ _ _ PD). exact AB. }
  destruct (asked_back_ok _ _ _ _ _ _ (wp_cm _ WQ) EDq FNq (transformed_perm _ _ _ _ _ _ PO' TR) ABq) as (l' & PL & EL).
  destruct (idft_core fftn rfftn ifftn irfftn scale unscale good q o rn (Some (p_cm p)) (rgf (p_cm p)) true WQ STq EDo FNo LO OR FC) with (T := T) (data := data) (l' := l') (dim := names) as (R & RS & WR & E).
  - intros Q. destruct (GD Q) as [GZ GP]. apply (Q_good zero fast good p q ds WP PD GZ GP).
  - intros d I. apply (Permutation_in _ PO') in I. destruct (PK fast p ds WP ED d I) as (_ & R & Wr & _).
    destruct (QK zero fast good p q ds WP ED PD d I) as (_ & _ & _ & Sq & _ & Lq). pose proof (TL d _ I R) as X. unfold tells in *. rewrite Sq, Lq. exact X.
  - reflexivity.
  - exact TR.
  - exact SD.
  - exact ES.
  - eapply Permutation_trans; eassumption.
  - exact EL.
  - assert (PB : Permutation ds (back_order rn l')).
    { eapply Permutation_trans; [exact PO|]. apply (back_perm good q o rn (Some (p_cm p)) EDo LO (fun Q => Q_good zero fast good p q ds WP PD (proj1 (GD Q)) (proj2 (GD Q))) T TR). eapply Permutation_trans; eassumption. }
    destruct (unpadding zero fast good p q ds WP ST ED FA PD R (back_order rn l') PB PNm (restored_perm _ _ _ _ PO' RS) WR) as (r & Er & BK).
    exists r. split; [|exact BK]. rewrite E. exact Er.
Qed.

(** Lemmas behind CalcProps.v: the coordinates of an integrated patch, and strain rates. *)
From Verif Require Import Base BaseFacts CoordModel CoordSpec CoordProofs CoordProofs2 CoordProofs5 NdModel NdSpec NdProofs FrameModel FrameProofs ChunkModel
  CmModel CmSpec CmProofs CmProofs2 CmProofs3 CmProofs10 TaperProofs2 MergeModel MergeProofs7 AggModel AggSpec AggProofs AggProofs2 ConcatSpec ConcatProofs2 MuteModel
  CalcModel CalcSpec CalcProofs CalcProofs2 CalcProofs3.
From Coq Require Import Strings.String ZifyBool QArith Lqa.
Local Open Scope Z_scope.
Local Open Scope list_scope.

(** ** Names *)
Lemma app_suffix a b s t : String.length s = String.length t -> (a ++ s = b ++ t)%string -> a = b /\ s = t.
Proof.
  intros L. revert b. induction a as [|x a IH]; intros [|y b]; cbn; intros E.
  - auto.
  - subst s. cbn in L. rewrite slen_app in L. lia.
  - subst t. cbn in L. rewrite slen_app in L. lia.
  - injection E as -> E. destruct (IH b E) as [-> ->]. auto.
Qed.
Lemma app_assoc_s a b c : ((a ++ b) ++ c = a ++ b ++ c)%string.
Proof. induction a as [|x a IH]; cbn; [reflexivity|]. rewrite IH. reflexivity. Qed.
Lemma min_inj a b : pre_min a = pre_min b -> a = b.
Proof. unfold pre_min. intros E. cbn in E. do 14 apply (f_equal (fun s => match s with String _ t => t | EmptyString => EmptyString end)) in E. cbn in E. apply app_suffix in E; tauto. Qed.
Lemma max_inj a b : pre_max a = pre_max b -> a = b.
Proof. unfold pre_max. intros E. cbn in E. do 14 apply (f_equal (fun s => match s with String _ t => t | EmptyString => EmptyString end)) in E. cbn in E. apply app_suffix in E; tauto. Qed.
Lemma min_max a b : pre_min a <> pre_max b.
Proof. unfold pre_min, pre_max. rewrite <- !app_assoc_s. intros E. apply app_suffix in E; [|reflexivity]. destruct E as [_ E]. discriminate. Qed.
Lemma new_not_limit dims n : dims <> [] -> (forall x t, In x dims -> n <> (x ++ t)%string) -> limit_key dims n = false.
Proof.
  intros NE H. unfold limit_key. apply Bool.orb_false_iff. split; [|destruct dims; [congruence|reflexivity]].
  destruct (existsb _ dims) eqn:E; [|reflexivity]. apply existsb_exists in E. destruct E as (x & J & Q). apply Bool.andb_true_iff in Q. destruct Q as [Q _].
  apply str_prefix_spec in Q. destruct Q as [t Q]. destruct (H x t J Q).
Qed.

(** ** Updating with coordinates of one value *)
Definition fm1 (e : string * kval) : mcoord :=
  match snd e with KSimple (VArr k v) | KTuple _ (VArr k v) => M1 (CMono k v) | _ => MNP [] end.
Definition oned (cm : cman) (ds : list string) (e : string * kval) : Prop :=
  exists k z d, In d ds /\ ((snd e = KSimple (VArr k [z]) /\ fst e = d) \/ (snd e = KTuple [d] (VArr k [z]) /\ ~ In (fst e) (cm_dims cm))).
Lemma one_values cm kw ds : wf_cm cm -> NoDup (map fst kw) -> (forall d, In d ds -> In d (cm_dims cm)) ->
  (forall e, In e kw -> limit_key (cm_dims cm) (fst e) = false) -> (forall e, In e kw -> oned cm ds e) ->
  (forall d, In d ds -> exists k z, In (d, KSimple (VArr k [z])) kw) ->
  exists cm', cm_update cm kw = Ok cm' /\ wf_cm cm' /\ cm_dims cm' = cm_dims cm /\
    (forall e, In e kw -> assoc (fst e) (cm_coords cm') = Some (fm1 e) /\ assoc (fst e) (cm_dmap cm') = Some (fdS e)) /\
    (forall n, assoc n kw = None -> (exists d c, In d ds /\ In d (dims_of cm n) /\ assoc d (cm_coords cm) = Some (M1 c) /\ c_len c <> 1) ->
       assoc n (cm_coords cm') = None /\ assoc n (cm_dmap cm') = None) /\
    (forall n, assoc n kw = None -> ~ (exists d c, In d ds /\ In d (dims_of cm n) /\ assoc d (cm_coords cm) = Some (M1 c) /\ c_len c <> 1) ->
       assoc n (cm_coords cm') = option_map recf (assoc n (cm_coords cm)) /\ assoc n (cm_dmap cm') = assoc n (cm_dmap cm)).
Proof.
  intros W ND Sub NL ON ALL.
  assert (NoN : forall e, In e kw -> is_none e = false).
  { intros e J. destruct (ON e J) as (k & z & d & _ & [[E _]|[E _]]); unfold is_none; rewrite E; reflexivity. }
  assert (NN : nones kw = []).
  { unfold nones. revert NoN. generalize kw. clear. induction kw as [|e t IH]; cbn; intros H; [reflexivity|].
    rewrite (H e (or_introl eq_refl)). apply IH. intros; apply H; right; assumption. }
  assert (FF : filter (fun _ : string * kval => false) (adds kw) = []) by (generalize (adds kw); clear; induction l; cbn; auto).
  assert (DI : filter (fun x => negb (mem x (nones kw))) (cm_dims cm ++ map fst (filter (fun _ : string * kval => false) (adds kw))) = cm_dims cm).
  { rewrite FF, NN. cbn [map]. rewrite app_nil_r. generalize (cm_dims cm). clear. intros l. induction l; cbn in *; congruence. }
  assert (CI : forall e, In e kw -> coord_item (cm_dims cm) e = Ok (fm1 e, fdS e, false)).
  { intros [n v] J. destruct (ON _ J) as (k & z & d & D & [[E F]|[E F]]); cbn [fst snd] in *; subst v; unfold coord_item, fm1, fdS; cbn [fst snd].
    - subst n. rewrite (proj2 (mem_In' _ _) (Sub d D)). reflexivity.
    - assert (subset [d] (cm_dims cm) = true) as -> by (cbn; rewrite (proj2 (mem_In' _ _) (Sub d D)); reflexivity). cbn [negb andb cval_coord get_coord_data bind].
      assert (strs_eqb [d] [n] = false) as ->; [|reflexivity]. destruct (strs_eqb [d] [n]) eqn:Q; [|reflexivity]. apply strs_eqb_eq in Q. injection Q as ->. destruct (F (Sub n D)). }
  destruct (cm_update_gen cm kw fm1 fdS (fun _ => false)) as (C & D & EU & NC & ND' & KCD & H1 & H2 & H3); auto.
  { intros e J _ I. destruct (ON e J) as (k & z & d & Dd & [[E F]|[E F]]); [|contradiction]. unfold fdS, fm1. rewrite E. split; [reflexivity|]. exists 1. reflexivity. }
  { intros e J _. rewrite DI. apply CI, J. }
  rewrite DI in EU.
  assert (L1 : forall e, In e kw -> assoc (fst e) C = Some (fm1 e) /\ assoc (fst e) D = Some (fdS e)).
  { intros [n v] J. cbn [fst]. apply H1; [apply in_assoc; assumption|]. intros ->. specialize (NoN _ J). discriminate. }
  assert (LR : forall n, lost cm kw fm1 n <-> exists d c, In d ds /\ In d (dims_of cm n) /\ assoc d (cm_coords cm) = Some (M1 c) /\ c_len c <> 1).
  { intros n. unfold lost, changed. rewrite NN. split.
    - intros [[]|(l & d & Dn & J & [[]|(e & k & c & Je & _ & <- & Id & Lm & Ec & Nk)])].
      destruct (ON e Je) as (k' & z & d & Dd & [[E F]|[E F]]); [|contradiction]. subst d. exists (fst e), c. split; [exact Dd|].
      unfold dims_of. rewrite Dn. split; [exact J|]. split; [exact Ec|]. unfold fm1 in Lm. rewrite E in Lm. cbn in Lm. congruence.
    - intros (d & c & Dd & J & Ec & N1). right. unfold dims_of in J. destruct (assoc n (cm_dmap cm)) as [l|] eqn:Dn; [|destruct J].
      exists l, d. split; [reflexivity|]. split; [exact J|]. right. destruct (ALL d Dd) as (k & z & Je). exists (d, KSimple (VArr k [z])), 1, c.
      repeat split; auto. }
  assert (L2 : forall n, assoc n kw = None -> lost cm kw fm1 n -> assoc n C = None /\ assoc n D = None) by (intros; apply H2; auto).
  assert (KW : forall n, assoc n kw = None \/ exists e, In e kw /\ fst e = n).
  { intros n. destruct (assoc n kw) as [v|] eqn:E; [right|left; reflexivity]. exists (n, v). split; [apply assoc_in; exact E|reflexivity]. }
  assert (LD : forall n, lost cm kw fm1 n \/ ~ lost cm kw fm1 n).
  { intros n. destruct (assoc n D) as [l|] eqn:E.
    - destruct (KW n) as [Q|(e & J & Q)]; [right; intros X; destruct (L2 n Q X); congruence|].
      rewrite LR. unfold dims_of. clear - W. generalize (match assoc n (cm_dmap cm) with Some ds0 => ds0 | None => [] end) as l. intros l.
      induction ds as [|d ds IH]; [right; intros (? & ? & [] & _)|]. destruct IH as [IH|IH]; [left; destruct IH as (d' & c & J & K); exists d', c; split; [right; exact J|exact K]|].
      destruct (In_dec string_dec d l) as [J|J]; [|right; intros (d' & c & [<-|X] & K); [tauto|apply IH; eauto]].
      destruct (assoc d (cm_coords cm)) as [[c| |]|] eqn:Ec; try (right; intros (d' & c' & [<-|X] & K); [destruct K as (_ & K & _); congruence|apply IH; eauto]).
      destruct (Z.eq_dec (c_len c) 1) as [Q|Q]; [right; intros (d' & c' & [<-|X] & K); [destruct K as (_ & K & K'); congruence|apply IH; eauto]|].
      left. exists d, c. repeat split; auto. left; reflexivity.
    - rewrite LR. unfold dims_of. clear - W. generalize (match assoc n (cm_dmap cm) with Some ds0 => ds0 | None => [] end) as l. intros l.
      induction ds as [|d ds IH]; [right; intros (? & ? & [] & _)|]. destruct IH as [IH|IH]; [left; destruct IH as (d' & c & J & K); exists d', c; split; [right; exact J|exact K]|].
      destruct (In_dec string_dec d l) as [J|J]; [|right; intros (d' & c & [<-|X] & K); [tauto|apply IH; eauto]].
      destruct (assoc d (cm_coords cm)) as [[c| |]|] eqn:Ec; try (right; intros (d' & c' & [<-|X] & K); [destruct K as (_ & K & _); congruence|apply IH; eauto]).
      destruct (Z.eq_dec (c_len c) 1) as [Q|Q]; [right; intros (d' & c' & [<-|X] & K); [destruct K as (_ & K & K'); congruence|apply IH; eauto]|].
      left. exists d, c. repeat split; auto. left; reflexivity. }
  assert (KP : forall n l, assoc n D = Some l -> (exists e, In e kw /\ fst e = n /\ l = fdS e /\ assoc n C = Some (fm1 e)) \/
      (assoc n kw = None /\ ~ lost cm kw fm1 n /\ assoc n (cm_dmap cm) = Some l /\ exists m, assoc n (cm_coords cm) = Some m /\ okm m /\ assoc n C = Some (recf m))).
  { intros n l E. destruct (KW n) as [Q|(e & J & Q)].
    - right. destruct (LD n) as [X|X]; [destruct (L2 n Q X); congruence|]. split; [exact Q|]. split; [exact X|]. destruct (H3 n Q X) as [Q1 Q2]. rewrite Q2 in E. split; [exact E|].
      destruct (con_coord _ (wf_con _ W) n l E) as (m & Em & _). exists m. split; [exact Em|]. split; [apply wf_okm, (wf_vals _ W _ _ Em)|]. rewrite Q1, Em. reflexivity.
    - left. exists e. destruct (L1 e J) as [Q1 Q2]. rewrite Q in *. repeat split; auto. congruence. }
  assert (DL : forall d, In d (cm_dims cm) -> exists c', assoc d C = Some (M1 c') /\ assoc d D = Some [d] /\
     (In d ds -> c_len c' = 1) /\ (~ In d ds -> exists c, assoc d (cm_coords cm) = Some (M1 c) /\ c_len c' = c_len c)).
  { intros d J. destruct (wf_dim_coord cm d W J) as (c0 & E0 & W0 & D0). destruct (In_dec string_dec d ds) as [I|I].
    - destruct (ALL d I) as (k & z & Je). destruct (L1 _ Je) as [Q1 Q2]. cbn in Q1, Q2. exists (CMono k [z]). repeat split; auto. contradiction.
    - destruct (KW d) as [Q|(e & Je & Q)].
      + assert (X : ~ lost cm kw fm1 d). { rewrite LR. unfold dims_of. rewrite D0. intros (d' & c & Dd & [<-|[]] & _). contradiction. }
        destruct (H3 d Q X) as [Q1 Q2]. rewrite E0 in Q1. cbn in Q1. destruct (recf_M1 c0) as (c' & R & L & _); [apply wf_okc; exact W0|].
        exists c'. rewrite Q1, R, Q2, D0. repeat split; auto; [contradiction|]. intros _. exists c0. auto.
      + destruct (ON e Je) as (k' & z & d' & Dd & [[E F]|[E F]]); [subst d'; congruence|]. rewrite Q in F. contradiction. }
  assert (W' : wf_cm (mkCm (cm_dims cm) C D)).
  { split; cbn; auto.
    - split; cbn.
      + intros d J. destruct (DL d J) as (c' & -> & -> & _). eauto.
      + intros n l E. destruct (KP n l E) as [(e & Je & <- & -> & ->)|(Q & X & Dn & m & Em & K & ->)].
        * exists (fm1 e). split; [reflexivity|]. destruct (ON e Je) as (k & z & d & Dd & [[Ee F]|[Ee F]]); unfold fdS, fm1; rewrite Ee; [rewrite F|];
            (split; [intros x [<-|[]]; apply Sub, Dd|]; right; constructor; [|constructor]; destruct (DL d (Sub d Dd)) as (c' & E1 & _ & E2 & _); exists c'; split; [exact E1|apply E2, Dd]).
        * destruct (con_coord _ (wf_con _ W) n l Dn) as (m0 & Em0 & S & Fd). rewrite Em in Em0. injection Em0 as <-.
          exists (recf m). split; [reflexivity|]. split; [exact S|]. destruct Fd as [->|Fd]; [left; reflexivity|right].
          destruct (recf_spec m K) as (_ & -> & _). eapply Forall2_impl_in; [|exact Fd]. intros d n0 Jd (c & Ec & <-).
          destruct (DL d (S d Jd)) as (c' & E1 & _ & E2 & E3). exists c'. split; [exact E1|]. destruct (In_dec string_dec d ds) as [I|I].
          -- rewrite (E2 I). destruct (Z.eq_dec (c_len c) 1) as [Q1|Q1]; [auto|]. exfalso. apply X, LR. exists d, c. unfold dims_of. rewrite Dn. auto.
          -- destruct (E3 I) as (c1 & Q1 & Q2). rewrite Ec in Q1. injection Q1 as <-. exact Q2.
    - apply (wf_dims _ W).
    - intros n. apply KCD.
    - intros n l E. destruct (KP n l E) as [(e & Je & <- & -> & _)|(Q & X & Dn & _)]; [|apply (wf_distinct _ W _ _ Dn)].
      destruct (ON e Je) as (k & z & d & Dd & [[Ee F]|[Ee F]]); unfold fdS; rewrite Ee; repeat constructor; intros [].
    - intros n m E. assert (In n (map fst D)) as J by (apply KCD, assoc_In; eauto).
      apply assoc_In in J. destruct J as [l J]. destruct (KP n l J) as [(e & Je & <- & -> & E1)|(Q & X & Dn & m1 & _ & K & E1)]; rewrite E in E1; injection E1 as ->.
      + destruct (ON e Je) as (k & z & d & Dd & [[Ee F]|[Ee F]]); unfold fm1; rewrite Ee; cbn; (split; [discriminate|left; repeat constructor]).
      + apply recf_spec. exact K. }
  exists (mkCm (cm_dims cm) C D). split; [rewrite EU; apply build_wf; exact W'|]. split; [exact W'|]. cbn [cm_dims cm_coords cm_dmap]. split; [reflexivity|]. split; [exact L1|].
  split; intros n Q; rewrite <- LR; [intros X; apply L2; assumption|apply H3, Q].
Qed.

(** ** The definite integral *)
Lemma list_min_spec l : forall x, In (list_min x l) (x :: l) /\ forall y, In y (x :: l) -> list_min x l <= y.
Proof.
  induction l as [|a l IH]; intros x; cbn [list_min].
  - split; [left; reflexivity|]. intros y [<-|[]]. lia.
  - destruct (IH (Z.min x a)) as [I1 I2]. split.
    + destruct I1 as [E|I1]; [|right; right; exact I1]. rewrite <- E. destruct (Z.min_spec x a) as [[_ ->]|[_ ->]]; [left|right; left]; reflexivity.
    + intros y [<-|[<-|J]]; [| |apply I2; right; exact J]; pose proof (I2 (Z.min x a) (or_introl eq_refl)); lia.
Qed.
Lemma list_max_spec l : forall x, In (list_max x l) (x :: l) /\ forall y, In y (x :: l) -> y <= list_max x l.
Proof.
  induction l as [|a l IH]; intros x; cbn [list_max].
  - split; [left; reflexivity|]. intros y [<-|[]]. lia.
  - destruct (IH (Z.max x a)) as [I1 I2]. split.
    + destruct I1 as [E|I1]; [|right; right; exact I1]. rewrite <- E. destruct (Z.max_spec x a) as [[_ ->]|[_ ->]]; [right; left|left]; reflexivity.
    + intros y [<-|[<-|J]]; [| |apply I2; right; exact J]; pose proof (I2 (Z.max x a) (or_introl eq_refl)); lia.
Qed.
Lemma quot_cut s n : 0 < n -> cut (inject_Z s / inject_Z n) (Z.quot s n).
Proof.
  intros N. destruct (store_held true (inject_Z s / inject_Z n) _ (Qeq_refl _)) as (z & E & C). cbn [store] in E. rewrite inject_Z_injective in E.
  destruct n as [|q|q]; [lia| |lia]. cbn in E. rewrite Z.mul_1_r in E. rewrite E. exact C.
Qed.
Lemma definite_coords (p : patch Q) ds : wf_patch p -> plain_names (p_cm p) -> NoDup ds -> new_names ds (p_cm p) ->
  (forall d, In d ds -> sorted_dim p d) ->
  exists cm', integrated_coords (p_cm p) ds = Ok cm' /\ forall b, wf_nd b -> List.length (nd_shape b) = List.length (nd_shape (p_data p)) ->
    (forall d ax, nth_error (cm_dims (p_cm p)) ax = Some d -> nth_error (nd_shape b) ax = if mem d ds then Some 1 else nth_error (nd_shape (p_data p)) ax) ->
    new_patch cm' b = Ok (mkPatch cm' b) /\ integrated_labels ds p (mkPatch cm' b).
Proof.
  intros W PN ND NW SD. pose proof (wp_cm _ W) as Wc. set (cm := p_cm p) in *.
  assert (Sub : forall d, In d ds -> In d (cm_dims cm)) by (intros d J; apply (SD d J)).
  assert (DC : forall d, In d ds -> exists c x t, assoc d (cm_coords cm) = Some (M1 c) /\ c_ints c = x :: t).
  { intros d J. destruct (SD d J) as (_ & c & E & O). pose proof (wf_vals _ Wc _ _ E) as V. cbn in V. exists c.
    pose proof (len_pos c V O) as L. rewrite <- ints_len in L by auto. destruct (c_ints c) as [|x t]; [cbn in L; lia|]. eauto. }
  set (mk := fun d => match assoc d (cm_coords cm) with Some (M1 c) => (d, KSimple (VArr (c_kind c) [quasi_mean (c_ints c)])) | _ => (d, KNone) end).
  set (lk := fun d => match assoc d (cm_coords cm) with Some (M1 c) => match c_ints c with x :: t =>
     [(pre_min d, KTuple [d] (VArr (c_kind c) [list_min x t])); (pre_max d, KTuple [d] (VArr (c_kind c) [list_max x t]))] | [] => [] end | _ => [] end).
  assert (M1' : map_result (mean_kw cm) ds = Ok (map mk ds)).
  { apply map_result_map. intros d J. destruct (DC d J) as (c & x & t & E & V). unfold mean_kw, dim_coord, mk. rewrite E. cbn [bind]. rewrite V. reflexivity. }
  assert (M2' : map_result (limit_kw cm) ds = Ok (map lk ds)).
  { apply map_result_map. intros d J. destruct (DC d J) as (c & x & t & E & V). unfold limit_kw, dim_coord, lk. rewrite E. cbn [bind]. rewrite V. reflexivity. }
  set (kw := map mk ds ++ List.concat (map lk ds)).
  assert (INM : forall d c x t, In d ds -> assoc d (cm_coords cm) = Some (M1 c) -> c_ints c = x :: t ->
     In (d, KSimple (VArr (c_kind c) [quasi_mean (c_ints c)])) kw /\ In (pre_min d, KTuple [d] (VArr (c_kind c) [list_min x t])) kw /\ In (pre_max d, KTuple [d] (VArr (c_kind c) [list_max x t])) kw).
  { intros d c x t J E V. split; [apply in_app_iff; left; apply in_map_iff; exists d; split; [unfold mk; rewrite E; reflexivity|exact J]|].
    split; apply in_app_iff; right; apply in_concat; exists (lk d); (split; [apply in_map, J|unfold lk; rewrite E, V; cbn; auto]). }
  assert (KWI : forall e, In e kw -> exists d c x t, In d ds /\ assoc d (cm_coords cm) = Some (M1 c) /\ c_ints c = x :: t /\
     (e = (d, KSimple (VArr (c_kind c) [quasi_mean (c_ints c)])) \/ e = (pre_min d, KTuple [d] (VArr (c_kind c) [list_min x t])) \/ e = (pre_max d, KTuple [d] (VArr (c_kind c) [list_max x t])))).
  { intros e J. apply in_app_iff in J. destruct J as [J|J].
    - apply in_map_iff in J. destruct J as (d & <- & J). destruct (DC d J) as (c & x & t & E & V). exists d, c, x, t. repeat split; auto. left. unfold mk. rewrite E. reflexivity.
    - apply in_concat in J. destruct J as (l & J & K). apply in_map_iff in J. destruct J as (d & <- & J). destruct (DC d J) as (c & x & t & E & V). exists d, c, x, t. repeat split; auto.
      unfold lk in K. rewrite E, V in K. destruct K as [<-|[<-|[]]]; auto. }
  assert (NI : forall d, In d ds -> ~ In (pre_min d) (cm_dims cm) /\ ~ In (pre_max d) (cm_dims cm)).
  { intros d J. assert (AE : forall s, (s ++ "")%string = s) by (intros s; induction s as [|a s IH]; cbn; [reflexivity|rewrite IH; reflexivity]).
    split; intros Q; [destruct (NW d (pre_min d) ""%string J Q) as [N _]|destruct (NW d (pre_max d) ""%string J Q) as [_ N]]; apply N; symmetry; apply AE. }
  assert (NK : NoDup (map fst kw)).
  { unfold kw. rewrite map_app, map_map. assert (map (fun x => fst (mk x)) ds = ds) as ->.
    { rewrite <- map_id. apply map_ext. intros d. unfold mk. destruct (assoc d (cm_coords cm)) as [[]|]; reflexivity. }
    assert (G : forall l, NoDup l -> (forall d, In d l -> In d ds) -> NoDup (map fst (List.concat (map lk l))) /\
       forall n, In n (map fst (List.concat (map lk l))) -> exists d, In d l /\ (n = pre_min d \/ n = pre_max d)).
    { clear - DC. induction l as [|d l IH]; intros N S; [cbn; split; [constructor|intros _ []]|]. apply NoDup_cons_iff in N. destruct N as [Nd N].
      destruct (IH N) as [I1 I2]; [intros; apply S; right; assumption|]. cbn [map List.concat]. rewrite map_app.
      destruct (DC d (S d (or_introl eq_refl))) as (c & x & t & E & V). unfold lk at 1 3. rewrite E, V. cbn [map fst app].
      split.
      - constructor; [|constructor; [|exact I1]].
        + intros [Q|Q]; [symmetry in Q; exact (min_max _ _ Q)|]. destruct (I2 _ Q) as (d' & J & [Q'|Q']); [apply min_inj in Q'; congruence|exact (min_max _ _ Q')].
        + intros Q. destruct (I2 _ Q) as (d' & J & [Q'|Q']); [symmetry in Q'; exact (min_max _ _ Q')|apply max_inj in Q'; congruence].
      - intros n [<-|[<-|J]]; [exists d; split; [left|]; auto|exists d; split; [left|]; auto|]. destruct (I2 n J) as (d' & J' & K). exists d'. split; [right; exact J'|exact K]. }
    destruct (G ds ND) as [G1 G2]; [auto|]. clear G.
    assert (DJ : forall d, In d ds -> ~ In d (map fst (List.concat (map lk ds)))).
    { intros d J Q. destruct (G2 d Q) as (d' & J' & [->| ->]); [apply (proj1 (NI d' J')), Sub, J|apply (proj2 (NI d' J')), Sub, J]. }
    clear - ND G1 DJ. revert DJ G1. generalize (map fst (List.concat (map lk ds))) as m. intros m DJ G1. revert DJ. induction ds as [|d l IH]; intros DJ; [exact G1|].
    apply NoDup_cons_iff in ND. destruct ND as [Nd ND]. cbn [app]. constructor; [|apply IH; [exact ND|intros; apply DJ; right; assumption]].
    intros Q. apply in_app_iff in Q. destruct Q as [Q|Q]; [contradiction|]. exact (DJ d (or_introl eq_refl) Q). }
  destruct (one_values cm kw ds Wc NK Sub) as (cm' & EU & W' & D' & H1 & H2 & H3).
  { intros e J. destruct (KWI e J) as (d & c & x & t & Jd & E & V & [->|[->| ->]]); cbn [fst].
    - apply PN. apply assoc_In. eauto.
    - apply new_not_limit; [apply (wp_some _ W)|]. intros y u Jy. apply (NW d y u Jd Jy).
    - apply new_not_limit; [apply (wp_some _ W)|]. intros y u Jy. apply (NW d y u Jd Jy). }
  { intros e J. destruct (KWI e J) as (d & c & x & t & Jd & E & V & [->|[->| ->]]); unfold oned; cbn [fst snd]; do 3 eexists; (split; [exact Jd|]); [left|right|right]; split; try reflexivity; apply (NI d Jd). }
  { intros d J. destruct (DC d J) as (c & x & t & E & V). destruct (INM d c x t J E V) as [K _]. eauto. }
  exists cm'. split; [unfold integrated_coords; rewrite M1'; cbn [bind]; rewrite M2'; cbn [bind]; exact EU|].
  assert (KN : forall n, ~ added ds n -> assoc n kw = None).
  { intros n NA. destruct (assoc n kw) as [v|] eqn:E; [|reflexivity]. apply assoc_in in E. exfalso. apply NA.
    destruct (KWI _ E) as (d & c & x & t & Jd & _ & _ & Q). exists d. split; [exact Jd|]. destruct Q as [Q|[Q|Q]]; injection Q as -> _; auto. }
  intros b Wb Lb Sb.
  assert (SH : Forall2 (dim_len cm') (cm_dims cm') (nd_shape b)).
  { rewrite D'. assert (G : forall n d, nth_error (cm_dims cm) n = Some d -> exists k, nth_error (nd_shape b) n = Some k /\ dim_len cm' d k).
    { intros n d X. destruct (shape_at (cm_dims cm) p n d W eq_refl X) as (c & E & N). fold cm in E. rewrite (Sb d n X), N.
      assert (J : In d (cm_dims cm)) by (eapply nth_error_In; exact X). destruct (mem d ds) eqn:M.
      - apply mem_In' in M. exists 1. split; [reflexivity|]. destruct (DC d M) as (c' & x & t & E' & V). destruct (INM d c' x t M E' V) as [K _]. destruct (H1 _ K) as [Q _].
        cbn in Q. exists (CMono (c_kind c') [quasi_mean (c_ints c')]). split; [exact Q|reflexivity].
      - exists (c_len c). split; [reflexivity|]. assert (NA : ~ In d ds) by (intros Q; apply mem_In' in Q; congruence).
        destruct (wf_dim_coord cm d Wc J) as (c0 & E0 & W0 & D0). rewrite E in E0. injection E0 as <-.
        assert (KD : assoc d kw = None). { apply KN. intros (d' & J' & [->|[->| ->]]); [contradiction|apply (proj1 (NI d' J')), J|apply (proj2 (NI d' J')), J]. }
        destruct (H3 d KD) as [Q _]; [unfold dims_of; rewrite D0; intros (d' & c' & J' & [<-|[]] & _); contradiction|].
        rewrite E in Q. cbn [option_map] in Q. destruct (recf_M1 c) as (c2 & R & L & _); [apply wf_okc, W0|]. rewrite R in Q. exists c2. auto. }
    assert (LL : List.length (cm_dims cm) = List.length (nd_shape b)) by (rewrite Lb; apply (f2_len (wp_shape _ W))).
    clear - G LL. revert LL G. generalize (nd_shape b) as s. induction (cm_dims cm) as [|d D IH]; intros [|n s] LL G; cbn in LL; try lia; constructor.
    - destruct (G O d eq_refl) as (k & E & H). injection E as <-. exact H.
    - apply IH; [lia|]. intros m x X. apply (G (S m) x X). }
  assert (NE : cm_dims cm' <> []) by (rewrite D'; apply (wp_some _ W)).
  destruct (new_patch_ok cm' b W' Wb NE SH) as [EN WP]. split; [exact EN|]. split; cbn [p_cm p_data]; auto.
  - intros d c J E. destruct (DC d J) as (c' & x & t & E' & V). fold cm in E. rewrite E in E'. injection E' as <-. destruct (INM d c x t J E V) as (K & _).
    exists (quasi_mean (c_ints c)). destruct (H1 _ K) as [Q1 Q2]. cbn in Q1, Q2. split; [exists (c_kind c); split; assumption|]. unfold quasi_mean. change (total (c_ints c)) with (sum (c_ints c)).
    apply quot_cut. rewrite V. unfold zlen. cbn [List.length]. lia.
  - intros d c J E. destruct (DC d J) as (c' & x & t & E' & V). fold cm in E. rewrite E in E'. injection E' as <-. destruct (INM d c x t J E V) as (_ & K & _).
    exists (list_min x t). destruct (H1 _ K) as [Q1 Q2]. cbn in Q1, Q2. split; [exists (c_kind c); split; assumption|]. rewrite V. apply list_min_spec.
  - intros d c J E. destruct (DC d J) as (c' & x & t & E' & V). fold cm in E. rewrite E in E'. injection E' as <-. destruct (INM d c x t J E V) as (_ & _ & K).
    exists (list_max x t). destruct (H1 _ K) as [Q1 Q2]. cbn in Q1, Q2. split; [exists (c_kind c); split; assumption|]. rewrite V. apply list_max_spec.
  - intros n m NA Em H. destruct (H3 n (KN n NA)) as [Q1 Q2].
    { intros (d & c & J & I & Ec & L). specialize (H d J I). unfold length_of in H. fold cm in H. rewrite Ec in H. congruence. }
    fold cm in Em. exists m, (recf m). cbn [p_cm]. fold cm. rewrite Q1, Q2, Em. split; [reflexivity|]. split; [reflexivity|]. pose proof (wf_vals _ Wc _ _ Em) as Wm.
    split; [apply carried_recf; [apply wf_okm, Wm|apply carried_refl, Wm]|reflexivity].
  - intros n d NA J I L. apply (H2 n (KN n NA)). destruct (SD d J) as (_ & c & Ec & _). exists d, c. unfold length_of in L. rewrite Ec in L. auto.
  - intros n NA En. fold cm in En. assert (Dn : assoc n (cm_dmap cm) = None).
    { destruct (assoc n (cm_dmap cm)) as [l|] eqn:Ed; [|reflexivity]. destruct (con_coord _ (wf_con _ Wc) n l Ed) as (m & Em & _). congruence. }
    destruct (H3 n (KN n NA)) as [Q1 Q2]; [intros (d & c & J & I & _); unfold dims_of in I; rewrite Dn in I; destruct I|].
    split; cbn [p_cm]; [rewrite Q1, En; reflexivity|congruence].
Qed.
Lemma definite_ok ints dim (p : patch Q) : wf_patch p -> plain_names (p_cm p) -> NoDup (asked (p_cm p) dim) -> new_names (asked (p_cm p) dim) (p_cm p) ->
  (forall d, In d (asked (p_cm p) dim) -> sorted_dim p d) ->
  exists out, pt_integrate ints dim true p = Ok out /\ steps (whole_integral (p_cm p)) (asked (p_cm p) dim) (p_data p) (p_data out) /\
    integrated_labels (asked (p_cm p) dim) p out.
Proof.
  intros W PN ND NW SD. set (ds := asked (p_cm p) dim) in *. destruct (all_fit p ds W SD) as (l & M & F).
  unfold pt_integrate. fold ds. cbv zeta. rewrite M. cbn [bind]. rewrite distinctb_ok by exact ND. cbn [negb].
  destruct (traps_ok p ds l W ND F) as (b & E & S & Wb & Lb & Sb). rewrite E. cbn [bind].
  destruct (definite_coords p ds W PN ND NW SD) as (cm' & EC & H). rewrite EC. cbn [bind]. destruct (H b Wb Lb Sb) as [EN IL].
  exists (mkPatch cm' b). auto.
Qed.

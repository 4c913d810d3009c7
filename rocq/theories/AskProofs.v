(** Proofs for arguments that name dimensions (C98). *)
From Verif Require Import Base BaseFacts CmModel FrameModel CmProofs AskModel AskSpec.
From Coq Require Import Strings.String Lia.
Local Open Scope Z_scope.
Local Open Scope list_scope.

Section Ask.
Context {V : Type}.
Implicit Types (args : list (aval V)) (kw : list (string * aval V)).

Lemma names_iff (a : aval V) d : names a d = true <-> a = Name d.
Proof. destruct a as [s|v]; cbn; [rewrite String.eqb_eq; split; [intros ->; reflexivity|intros [= ->]; reflexivity]|split; discriminate]. Qed.
Lemma in_assoc {B} k (v : B) l : NoDup (map fst l) -> In (k, v) l -> assoc k l = Some v.
Proof.
  intros N I. destruct (assoc k l) as [w|] eqn:E.
  - apply assoc_in in E. clear -N I E. induction l as [|[n x] t IH]; [contradiction|]. cbn in N. inversion N as [|? ? H1 H2]; subst. destruct I as [I|I], E as [E|E]; [congruence| | |auto].
    + injection I as -> ->. apply (in_map fst) in E. contradiction.
    + injection E as -> ->. apply (in_map fst) in I. contradiction.
  - apply assoc_None in E. apply (in_map fst) in I. contradiction.
Qed.
Lemma implicit_in kw a : NoDup (map fst kw) -> In a (implicit kw) <-> exists k, name_key k /\ In (k, a) kw.
Proof.
  intros N. unfold implicit. rewrite in_flat_map. split.
  - intros (k & K & H). destruct (assoc k kw) as [v|] eqn:E; [|destruct H]. destruct H as [<-|[]]. exists k. split; [exact K|apply assoc_in, E].
  - intros (k & K & H). exists k. split; [exact K|]. rewrite (in_assoc _ _ _ N H). left. reflexivity.
Qed.
Lemma explicit_in kw k v : In (k, v) (explicit kw) <-> In (k, v) kw /\ ~ name_key k.
Proof. unfold explicit. rewrite filter_In. cbn [fst]. rewrite negb_true_iff, mem_false. reflexivity. Qed.
Lemma inputs_in args kw a : NoDup (map fst kw) -> In a (inputs args kw) <-> asked args kw a.
Proof.
  intros N. unfold inputs, asked. rewrite !in_app_iff, (implicit_in kw a N). split.
  - intros [H|[H|H]]; auto. right. right. apply in_map_iff in H as ([k v] & <- & H). apply explicit_in in H as [H1 H2]. exists k, v. auto.
  - intros [H|[H|(k & v & -> & H1 & H2)]]; auto. right. right. apply in_map_iff. exists (k, v). split; [reflexivity|]. apply explicit_in. auto.
Qed.
Lemma explicit_nodup kw : NoDup (map fst kw) -> NoDup (map fst (explicit kw)).
Proof.
  unfold explicit. induction kw as [|[k v] t IH]; intros N; [constructor|]. cbn in N. inversion N as [|? ? H1 H2]; subst. cbn [filter fst]. destruct (mem k arg_keys); cbn [negb]; [auto|]. cbn. constructor; [|auto].
  intros I. apply H1. apply in_map_iff in I as (e & E & I). apply filter_In in I as [I _]. rewrite <- E. apply in_map, I.
Qed.
Lemma overlap_in dims args kw d : NoDup (map fst kw) -> In d (filter (fun d => existsb (fun a => names a d) (inputs args kw)) dims) <-> In d dims /\ asked args kw (Name d).
Proof.
  intros N. rewrite filter_In, existsb_exists. split.
  - intros [I (a & A & H)]. apply names_iff in H. subst. split; [exact I|]. apply inputs_in; assumption.
  - intros [I A]. split; [exact I|]. exists (Name d). split; [apply inputs_in; assumption|apply names_iff; reflexivity].
Qed.
Lemma overlap_nodup dims args kw : NoDup dims -> NoDup (filter (fun d => existsb (fun a => names a d) (inputs args kw)) dims).
Proof. apply NoDup_filter. Qed.
Lemma dim_iff dims (a : aval V) : existsb (names a) dims = true <-> is_dim dims a.
Proof.
  rewrite existsb_exists. unfold is_dim. split; intros (d & A & B); exists d.
  - apply names_iff in B. auto.
  - subst. split; [exact B|apply names_iff; reflexivity].
Qed.

Theorem ask_none dims args kw multiple extra : NoDup (map fst kw) -> (forall a, asked args kw a -> ~ is_dim dims a) -> dim_axis_value dims args kw multiple extra = Err ParameterError.
Proof.
  intros N H. unfold dim_axis_value. destruct (filter _ dims) as [|d t] eqn:E; [reflexivity|]. exfalso. assert (I : In d (d :: t)) by (left; reflexivity). rewrite <- E in I. apply (overlap_in dims args kw d N) in I as [I A]. apply (H _ A). exists d. auto.
Qed.
Theorem ask_many dims args kw extra : NoDup (map fst kw) -> several dims args kw -> dim_axis_value dims args kw false extra = Err ParameterError.
Proof.
  intros N (d & e & Ne & Id & Ie & Ad & Ae). unfold dim_axis_value. pose proof (proj2 (overlap_in dims args kw d N) (conj Id Ad)) as Hd. pose proof (proj2 (overlap_in dims args kw e N) (conj Ie Ae)) as He.
  destruct (filter _ dims) as [|x [|y t]]; [destruct Hd| |].
  - destruct Hd as [<-|[]]. destruct He as [<-|[]]. contradiction.
  - rewrite !zlen_cons. pose proof (zlen_nonneg t). rewrite (proj2 (Z.ltb_lt _ _)) by lia. cbn [negb]. rewrite andb_true_r, orb_true_r. reflexivity.
Qed.
Lemma ask_right dims args kw (multiple : bool) : NoDup dims -> NoDup (map fst kw) -> (exists a, asked args kw a /\ is_dim dims a) -> (multiple = true \/ ~ several dims args kw) ->
  let ov := filter (fun d => existsb (fun a => names a d) (inputs args kw)) dims in ((zlen ov =? 0) || ((1 <? zlen ov) && negb multiple))%bool = false.
Proof.
  intros ND N (a & A & d & -> & I) M ov. assert (Hd : In d ov) by (apply overlap_in; auto). pose proof (overlap_nodup dims args kw ND) as NO. fold ov in NO.
  assert (HI : forall e, In e ov -> In e dims /\ asked args kw (Name e)) by (intros e He; apply overlap_in; assumption).
  clearbody ov. destruct ov as [|x t]; [destruct Hd|]. rewrite zlen_cons. pose proof (zlen_nonneg t). rewrite (proj2 (Z.eqb_neq _ _)) by lia. cbn [orb].
  destruct multiple; cbn [negb]; [apply andb_false_r|]. rewrite andb_true_r. destruct M as [M|M]; [discriminate|]. apply Z.ltb_ge. destruct t as [|y t]; [cbn; lia|]. exfalso. apply M.
  exists x, y. destruct (HI x (or_introl eq_refl)), (HI y (or_intror (or_introl eq_refl))). inversion NO; subst. cbn in *. split; [intros ->; auto|]. auto.
Qed.
Theorem ask_extra dims args kw multiple : NoDup dims -> NoDup (map fst kw) -> (exists a, asked args kw a /\ is_dim dims a) -> (multiple = true \/ ~ several dims args kw) ->
  (exists a, asked args kw a /\ ~ is_dim dims a) -> dim_axis_value dims args kw multiple false = Err PatchCoordinateError.
Proof.
  intros ND N H M (a & A & B). unfold dim_axis_value. rewrite (ask_right dims args kw multiple ND N H M). cbn [negb]. rewrite andb_true_r.
  assert (E : existsb (fun a => negb (existsb (names a) dims)) (inputs args kw) = true). { apply existsb_exists. exists a. split; [apply inputs_in; assumption|]. rewrite negb_true_iff. apply not_true_is_false. rewrite dim_iff. exact B. }
  rewrite E. reflexivity.
Qed.
Definition picked (dims : list string) kw (a : aval V) : list (string * nat * option (aval V)) :=
  match a with Name s => match index_of s dims with Some ax => [(s, ax, assoc s (explicit kw))] | None => [] end | Thing _ => [] end.
Lemma ask_eq dims args kw multiple extra : NoDup dims -> NoDup (map fst kw) -> (exists a, asked args kw a /\ is_dim dims a) -> (multiple = true \/ ~ several dims args kw) ->
  (extra = true \/ forall a, asked args kw a -> is_dim dims a) -> dim_axis_value dims args kw multiple extra = Ok (flat_map (picked dims kw) (inputs args kw)).
Proof.
  intros ND N H M X. unfold dim_axis_value. rewrite (ask_right dims args kw multiple ND N H M).
  assert (E : (existsb (fun a => negb (existsb (names a) dims)) (inputs args kw) && negb extra)%bool = false).
  { destruct X as [->|X]; [apply andb_false_r|]. destruct (existsb _ (inputs args kw)) eqn:Q; [|reflexivity]. exfalso. apply existsb_exists in Q as (a & A & Q). rewrite negb_true_iff in Q. apply inputs_in in A; [|exact N]. apply X, dim_iff in A. congruence. }
  rewrite E. reflexivity.
Qed.
Theorem ask_ok dims args kw multiple extra : NoDup dims -> NoDup (map fst kw) -> (exists a, asked args kw a /\ is_dim dims a) -> (multiple = true \/ ~ several dims args kw) ->
  (extra = true \/ forall a, asked args kw a -> is_dim dims a) -> exists out, dim_axis_value dims args kw multiple extra = Ok out /\ out <> [] /\
    (forall d, In d (out_names out) <-> In d dims /\ asked args kw (Name d)) /\
    (forall d ax v, In (d, ax, v) out -> nth_error dims ax = Some d /\ forall x, v = Some x <-> In (d, x) kw /\ ~ name_key d).
Proof.
  intros ND N H M X. exists (flat_map (picked dims kw) (inputs args kw)). split; [apply ask_eq; assumption|].
  assert (IN : forall d, In d (out_names (flat_map (picked dims kw) (inputs args kw))) <-> In d dims /\ asked args kw (Name d)).
  { intros d. unfold out_names. rewrite in_map_iff. split.
    - intros ([[n ax] v] & <- & I). apply in_flat_map in I as (a & A & I). destruct a as [s|?]; cbn in I; [|destruct I]. destruct (index_of s dims) as [k|] eqn:E; [|destruct I]. destruct I as [[= -> -> <-]|[]]. cbn. split; [apply index_of_In; eauto|apply inputs_in; assumption].
    - intros [I A]. apply index_of_In in I as [ax E]. exists (d, ax, assoc d (explicit kw)). split; [reflexivity|]. apply in_flat_map. exists (Name d). split; [apply inputs_in; assumption|]. cbn. rewrite E. left. reflexivity. }
  split.
  { destruct H as (a & A & d & -> & I). intros Z0. specialize (proj2 (IN d) (conj I A)). rewrite Z0. intros []. }
  split; [exact IN|]. intros d ax v I. apply in_flat_map in I as (a & A & I). destruct a as [s|?]; cbn in I; [|destruct I]. destruct (index_of s dims) as [k|] eqn:E; [|destruct I]. destruct I as [[= -> -> <-]|[]].
  split; [apply index_of_spec in E; apply E|]. intros x. rewrite <- explicit_in. split; [apply assoc_in|apply in_assoc, explicit_nodup, N].
Qed.
Theorem ask_single dims args kw extra out : NoDup dims -> NoDup (map fst kw) -> dim_axis_value dims args kw false extra = Ok out -> exists d, In d dims /\ out <> [] /\ forall e, In e out -> fst (fst e) = d.
Proof.
  intros ND N E.
  assert (H : exists a, asked args kw a /\ is_dim dims a).
  { revert E. unfold dim_axis_value. destruct (filter _ dims) as [|d t] eqn:F; [discriminate|]. intros _. assert (I : In d (d :: t)) by (left; reflexivity). rewrite <- F in I. apply (overlap_in dims args kw d N) in I as [I A]. exists (Name d). split; [exact A|exists d; auto]. }
  assert (M : ~ several dims args kw) by (intros M; rewrite (ask_many dims args kw extra N M) in E; discriminate).
  assert (X : extra = true \/ forall a, asked args kw a -> is_dim dims a).
  { destruct extra; [left; reflexivity|]. right. intros a A. apply dim_iff. destruct (existsb (names a) dims) eqn:Q; [reflexivity|]. rewrite (ask_extra dims args kw false ND N H (or_intror M)) in E; [discriminate|]. exists a. split; [exact A|]. rewrite <- dim_iff. congruence. }
  destruct (ask_ok dims args kw false extra ND N H (or_intror M) X) as (out' & E' & NE & IN & _). rewrite E in E'. injection E' as <-.
  destruct H as (a & A & d & -> & I). exists d. split; [exact I|]. split; [exact NE|]. intros e Ie. destruct (string_dec (fst (fst e)) d) as [|Q]; [assumption|]. exfalso. apply M. assert (K : In (fst (fst e)) (out_names out)) by (apply (in_map (fun e => fst (fst e))), Ie). apply IN in K as [K1 K2]. exists (fst (fst e)), d. auto.
Qed.
(** Order *)
Lemma implicit_none kw : (forall k, In k (map fst kw) -> ~ name_key k) -> implicit kw = [].
Proof.
  intros H. unfold implicit. assert (K : forall ks, (forall k, In k ks -> In k arg_keys) -> flat_map (fun k => match assoc k kw with Some v => [v] | None => [] end) ks = []).
  { induction ks as [|k ks IH]; intros S; [reflexivity|]. cbn [flat_map]. rewrite IH by (intros; apply S; right; assumption). rewrite app_nil_r. destruct (assoc k kw) as [v|] eqn:E; [|reflexivity]. exfalso. apply (H k); [apply assoc_In; eauto|apply S; left; reflexivity]. }
  apply K. auto.
Qed.
Lemma explicit_all kw : (forall k, In k (map fst kw) -> ~ name_key k) -> explicit kw = kw.
Proof.
  unfold explicit. induction kw as [|[k v] t IH]; intros H; [reflexivity|]. cbn [filter fst]. rewrite (proj2 (mem_false k arg_keys)) by (apply H; left; reflexivity). cbn [negb]. rewrite IH; [reflexivity|]. intros x I. apply H. right. exact I.
Qed.
Theorem ask_keywords dims kw (multiple extra : bool) : NoDup dims -> NoDup (map fst kw) -> kw <> [] -> (multiple = true \/ zlen kw = 1) -> (forall k, In k (map fst kw) -> In k dims /\ ~ name_key k) ->
  exists out, dim_axis_value dims [] kw multiple extra = Ok out /\ Forall2 (fun e o => fst (fst o) = fst e /\ nth_error dims (snd (fst o)) = Some (fst e) /\ snd o = Some (snd e)) kw out.
Proof.
  intros ND N NE M H. assert (Hn : forall k, In k (map fst kw) -> ~ name_key k) by (intros k I; apply H, I). assert (Hd : forall k, In k (map fst kw) -> In k dims) by (intros k I; apply H, I).
  assert (A : forall a, asked [] kw a -> exists k, a = Name k /\ In k (map fst kw)).
  { intros a [[]|[(k & K & I)|(k & v & -> & I & _)]]; apply (in_map fst) in I; [exfalso; apply (Hn k I K)|]. exists k. auto. }
  exists (flat_map (picked dims kw) (inputs [] kw)). split.
  - apply ask_eq; auto.
    + destruct kw as [|[k v] t]; [contradiction|]. exists (Name k). split; [right; right; exists k, v; split; [reflexivity|]; split; [left; reflexivity|apply Hn; left; reflexivity]|]. exists k. split; [reflexivity|apply Hd; left; reflexivity].
    + destruct M as [M|M]; [left; exact M|]. right. intros (d & e & Q & _ & _ & A1 & A2). apply A in A1 as (k1 & [= <-] & I1). apply A in A2 as (k2 & [= <-] & I2). destruct kw as [|[k v] [|y t]]; [contradiction| |rewrite !zlen_cons in M; pose proof (zlen_nonneg t); lia]. destruct I1 as [<-|[]], I2 as [<-|[]]. contradiction.
    + right. intros a Q. apply A in Q as (k & -> & I). exists k. auto.
  - unfold inputs. rewrite (implicit_none kw Hn), (explicit_all kw Hn). cbn [app]. 
    assert (G : forall l, (forall e, In e l -> In e kw) -> Forall2 (fun e o => fst (fst o) = fst e /\ nth_error dims (snd (fst o)) = Some (fst e) /\ snd o = Some (snd e)) l (flat_map (picked dims kw) (map (fun e => Name (fst e)) l))).
    { induction l as [|[k v] t IH]; intros S; [constructor|]. cbn [map flat_map fst]. unfold picked at 1. assert (I : In (k, v) kw) by (apply S; left; reflexivity). destruct (index_of k dims) as [ax|] eqn:E.
      - cbn [app]. constructor; [|apply IH; intros; apply S; right; assumption]. cbn. rewrite (explicit_all kw Hn), (in_assoc _ _ _ N I). split; [reflexivity|]. split; [apply index_of_spec in E; apply E|reflexivity].
      - exfalso. apply index_of_None in E. apply E, Hd. apply (in_map fst) in I. exact I. }
    apply G. auto.
Qed.
Theorem ask_positional dims (ds : list string) (multiple extra : bool) : NoDup dims -> ds <> [] -> (multiple = true \/ zlen ds = 1) -> (forall d, In d ds -> In d dims) ->
  exists out, dim_axis_value dims (map (@Name V) ds) [] multiple extra = Ok out /\ Forall2 (fun d o => fst (fst o) = d /\ nth_error dims (snd (fst o)) = Some d /\ snd o = None) ds out.
Proof.
  intros ND NE M Hd. assert (A : forall a, asked (map (@Name V) ds) [] a -> exists k, a = Name k /\ In k ds).
  { intros a [I|[(k & K & [])|(k & v & _ & [] & _)]]. apply in_map_iff in I as (k & <- & I). exists k. auto. }
  exists (flat_map (picked dims []) (inputs (map (@Name V) ds) [])). split.
  - apply ask_eq; auto.
    + constructor.
    + destruct ds as [|k t]; [contradiction|]. exists (Name k). split; [left; left; reflexivity|]. exists k. split; [reflexivity|apply Hd; left; reflexivity].
    + destruct M as [M|M]; [left; exact M|]. right. intros (d & e & Q & _ & _ & A1 & A2). apply A in A1 as (k1 & [= <-] & I1). apply A in A2 as (k2 & [= <-] & I2). destruct ds as [|k [|y t]]; [contradiction| |rewrite !zlen_cons in M; pose proof (zlen_nonneg t); lia]. destruct I1 as [<-|[]], I2 as [<-|[]]. contradiction.
    + right. intros a Q. apply A in Q as (k & -> & I). exists k. auto.
  - unfold inputs. change (implicit (@nil (string * aval V))) with (@nil (aval V)). cbn [explicit filter map]. rewrite !app_nil_r. clear A M NE. induction ds as [|k t IH]; [constructor|]. cbn [map flat_map]. unfold picked at 1. destruct (index_of k dims) as [ax|] eqn:E.
    + cbn [app]. constructor; [|apply IH; intros; apply Hd; right; assumption]. cbn. split; [reflexivity|]. split; [apply index_of_spec in E; apply E|reflexivity].
    + exfalso. apply index_of_None in E. apply E, Hd. left. reflexivity.
Qed.
(** A name under one of the keys counts as the last positional argument. *)
Theorem ask_implicit dims args k d kw multiple extra : name_key k -> (forall x, In x (map fst kw) -> ~ name_key x) ->
  dim_axis_value dims args ((k, d) :: kw) multiple extra = dim_axis_value dims (args ++ [d]) kw multiple extra.
Proof.
  intros K H. assert (E : explicit ((k, d) :: kw) = explicit kw) by (unfold explicit; cbn [filter fst]; rewrite (proj2 (mem_In' k arg_keys) K); reflexivity).
  assert (I : implicit ((k, d) :: kw) = [d]).
  { assert (Z0 : forall x, name_key x -> assoc x kw = None) by (intros x X; apply assoc_None; intros Q; exact (H x Q X)).
    assert (A : forall x, name_key x -> assoc x ((k, d) :: kw) = if String.eqb x k then Some d else None).
    { intros x X. cbn. destruct (String.eqb_spec x k) as [->|Q]; [rewrite ?String.eqb_refl; reflexivity|]. try (rewrite (proj2 (String.eqb_neq k x)) by congruence); try (rewrite (proj2 (String.eqb_neq x k)) by congruence). apply Z0, X. }
    unfold implicit, arg_keys. cbn [flat_map]. rewrite !A by (cbn; auto 6). destruct K as [<-|[<-|[<-|[<-|[]]]]]; reflexivity. }
  unfold dim_axis_value. assert (J : inputs args ((k, d) :: kw) = inputs (args ++ [d]) kw). { unfold inputs. rewrite I, E, (implicit_none kw H), <- app_assoc. reflexivity. }
  rewrite J, E. reflexivity.
Qed.
End Ask.

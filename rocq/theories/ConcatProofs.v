(** Lemmas behind ConcatProps.v: dropping hidden coordinates, comparing with the
    first patch, cutting into groups. *)
From Verif Require Import Base BaseFacts CoordModel CoordSpec CoordProofs CoordProofs2 CoordProofs3
  CoordProofs4 CoordProofs5 NdModel NdSpec NdProofs NdProofs2 FrameModel FrameProofs5 ChunkModel CmModel CmSpec
  CmProofs CmProofs2 CmProofs3 CmProofs13 MergeModel MergeSpec MergeProofs BinOpModel ConcatModel ConcatSpec.
From Coq Require Import Strings.String Strings.Ascii ZifyBool.
Ltac Zify.zify_post_hook ::= Z.div_mod_to_equations.
Local Open Scope Z_scope.
Local Open Scope list_scope.

Lemma private_hidden n : private n = true <-> hidden n.
Proof.
  unfold private, hidden. destruct n as [|c t]; split.
  - discriminate.
  - intros [t E]. discriminate.
  - intros E. apply Ascii.eqb_eq in E. subst c. eauto.
  - intros [t' [= -> ->]]. apply Ascii.eqb_refl.
Qed.
Lemma private_open n : private n = false <-> ~ hidden n.
Proof. rewrite <- private_hidden. destruct (private n); split; congruence. Qed.

(** What is left of a patch without its hidden coordinates. *)
Record clean {A} (p q : patch A) : Prop :=
  { cl_wf : wf_patch q;
    cl_data : p_data q = p_data p;
    cl_dims : cm_dims (p_cm q) = cm_dims (p_cm p);
    cl_hide : forall n, private n = true -> assoc n (cm_coords (p_cm q)) = None /\ assoc n (cm_dmap (p_cm q)) = None;
    cl_show : forall n, private n = false -> assoc n (cm_coords (p_cm q)) = assoc n (cm_coords (p_cm p)) /\
      assoc n (cm_dmap (p_cm q)) = assoc n (cm_dmap (p_cm p));
    cl_plain : plain_names (p_cm p) -> plain_names (p_cm q) }.
Lemma drop_private_ok {A} (p : patch A) : wf_patch p -> (forall d, In d (cm_dims (p_cm p)) -> ~ hidden d) ->
  exists q, drop_private p = Ok q /\ clean p q.
Proof.
  intros W H. set (names := filter private (map fst (cm_coords (p_cm p)))).
  assert (NI : forall d, In d names -> ~ In d (cm_dims (p_cm p))).
  { intros d I J. apply filter_In in I as [_ I]. apply (H d J), private_hidden, I. }
  destruct (pt_drop_ok p names W NI) as (q & E & Wq & Dq & Mq & C). exists q. split.
  - unfold pt_drop_coords in E. destruct (meets_any names (cm_dims (p_cm p))); [discriminate|]. exact E.
  - assert (IN : forall n, In n (map fst (cm_coords (p_cm p))) -> private n = true -> In n names) by (intros; apply filter_In; auto).
    assert (SH : forall n, private n = false -> assoc n (cm_coords (p_cm q)) = assoc n (cm_coords (p_cm p)) /\
      assoc n (cm_dmap (p_cm q)) = assoc n (cm_dmap (p_cm p))).
    { intros n P. apply C. intros I. apply filter_In in I as [_ I]. congruence. }
    assert (HI : forall n, private n = true -> assoc n (cm_coords (p_cm q)) = None /\ assoc n (cm_dmap (p_cm q)) = None).
    { intros n P. destruct (assoc n (cm_coords (p_cm p))) as [m|] eqn:En.
      - apply C. apply IN; [apply assoc_In; eauto|exact P].
      - destruct (C n) as [_ C2]. assert (~ In n names) as N.
        { intros I. apply filter_In in I as [I _]. apply assoc_In in I as [m Em]. congruence. }
        destruct (C2 N) as [-> ->]. split; [exact En|]. destruct (assoc n (cm_dmap (p_cm p))) as [ds|] eqn:Ed; [|reflexivity].
        destruct (con_coord _ (wf_con _ (wp_cm _ W)) n ds Ed) as (m & Em & _). congruence. }
    split; auto.
    intros PN n I. rewrite Mq. apply assoc_In in I as [m Em]. apply PN. apply assoc_In.
    destruct (private n) eqn:P; [destruct (HI n P); congruence|]. destruct (SH n P) as [X _]. rewrite X in Em. eauto.
Qed.

(** Filtering with a check that never raises, and with one that may. *)
Lemma filter_r_ok {B} (f : B -> result bool) (b : B -> bool) l : (forall x, In x l -> f x = Ok (b x)) -> filter_r f l = Ok (filter b l).
Proof.
  induction l as [|x l IH]; intros H; [reflexivity|]. cbn [filter_r filter]. rewrite (H x (or_introl eq_refl)). cbn [bind].
  rewrite IH by (intros; apply H; right; assumption). reflexivity.
Qed.
Lemma filter_r_err {B} (f : B -> result bool) e x l : (forall y, In y l -> f y = Ok true \/ f y = Err e) -> In x l -> f x = Err e ->
  filter_r f l = Err e.
Proof.
  induction l as [|y l IH]; intros H I E; [destruct I|]. cbn [filter_r]. destruct (f y) as [b|e'] eqn:Ey.
  - cbn [bind]. destruct I as [->|I]; [congruence|]. rewrite IH; auto. intros; apply H; right; assumption.
  - cbn [bind]. destruct (H y (or_introl eq_refl)); congruence.
Qed.
Lemma selects_filter {B} (P : B -> Prop) (b : B -> bool) l : (forall x, In x l -> b x = true <-> P x) -> selects P l (filter b l).
Proof.
  induction l as [|x l IH]; intros H; [constructor|]. cbn [filter]. assert (IH' := IH (fun y I => H y (or_intror I))).
  specialize (H x (or_introl eq_refl)). destruct (b x); [apply sel_take; tauto|apply sel_skip; [|assumption]].
  intros Q. apply H in Q. discriminate.
Qed.
Lemma filter_map {B C} (f : B -> C) (b : C -> bool) l : filter b (map f l) = map f (filter (fun x => b (f x)) l).
Proof. induction l as [|x l IH]; [reflexivity|]. cbn [map filter]. destruct (b (f x)); cbn [map]; congruence. Qed.

(** ** Comparing with the first patch *)
Lemma same_coord_shape a b : same_coord a b -> m_shape a = m_shape b.
Proof.
  destruct a as [c|k x|s], b as [c'|k' x'|s']; cbn [same_coord m_shape]; try contradiction.
  - intros [->|(k & v & w & A & B & F)]; [reflexivity|]. apply Forall2_length in F.
    assert (zlen v = zlen w) by (unfold zlen; lia). destruct A as [-> | ->], B as [-> | ->]; cbn [c_len]; congruence.
  - intros (_ & E & _). exact E.
  - congruence.
Qed.
Lemma check_dims_same a b lv : cm_dims a = cm_dims b -> check_dims a b lv false = Ok true.
Proof. intros E. unfold check_dims. rewrite (proj2 (strs_eqb_eq _ _) E). reflexivity. Qed.
Lemma differs_none ig es a b : existsb (differs ig es a b) (map fst (cm_coords a)) = false <->
  agree_but ig (fun x y => es = true -> m_shape x = m_shape y) a b.
Proof.
  split.
  - intros H n x y Ex Ey. rewrite <- Bool.not_true_iff_false in H.
    assert (differs ig es a b n = false) as Q.
    { apply Bool.not_true_iff_false. intros Q. apply H, existsb_exists. exists n. split; [apply assoc_In; eauto|exact Q]. }
    unfold differs in Q. rewrite Ex, Ey in Q. destruct (m_eqb x y) eqn:M; [left; apply m_eqb_spec, M|].
    right. destruct ig as [d|]; [|discriminate]. destruct (String.eqb_spec n d) as [->|]; [|discriminate].
    split; [reflexivity|]. intros ->. destruct (zlist_eqb (m_shape x) (m_shape y)) eqn:Z; [apply CmProofs.zlist_eqb_eq, Z|discriminate].
  - intros H. apply Bool.not_true_iff_false. intros Q. apply existsb_exists in Q as (n & _ & Q). unfold differs in Q.
    destruct (assoc n (cm_coords a)) as [x|] eqn:Ex; [|discriminate]. destruct (assoc n (cm_coords b)) as [y|] eqn:Ey; [|discriminate].
    destruct (m_eqb x y) eqn:M; [discriminate|]. destruct (H n x y Ex Ey) as [S|[-> S]].
    + apply m_eqb_spec in S. congruence.
    + rewrite String.eqb_refl in Q. destruct (zlist_eqb (m_shape x) (m_shape y)) eqn:Z; [discriminate|].
      specialize (S Q). apply CmProofs.zlist_eqb_eq in S. congruence.
Qed.
Definition goes (ig : option string) (es : bool) (a b : cman) : bool := negb (existsb (differs ig es a b) (map fst (cm_coords a))).
Lemma goes_spec ig es a b : goes ig es a b = true <-> agree_but ig (fun x y => es = true -> m_shape x = m_shape y) a b.
Proof. unfold goes. rewrite Bool.negb_true_iff. apply differs_none. Qed.
Lemma check_both a b ig es : cm_dims a = cm_dims b ->
  both (check_dims a b LWarn false) (check_coords a b LWarn ig es) = Ok (goes ig es a b).
Proof.
  intros E. rewrite (check_dims_same a b LWarn E). unfold both, check_coords, goes. cbn [bind].
  destruct (existsb _ _); reflexivity.
Qed.
Lemma check_both_raise a b ig es : cm_dims a = cm_dims b ->
  both (check_dims a b LRaise false) (check_coords a b LRaise ig es) =
  if goes ig es a b then Ok true else Err IncompatiblePatchError.
Proof.
  intros E. rewrite (check_dims_same a b LRaise E). unfold both, check_coords, goes. cbn [bind].
  destruct (existsb _ _); reflexivity.
Qed.
Lemma fits_clean {A} d (f p f' p' : patch A) : clean f f' -> clean p p' ->
  goes (Some d) false (p_cm f') (p_cm p') = true <-> fits_first d f p.
Proof.
  intros F P. rewrite goes_spec. split.
  - intros H n a b Hn Nd Ea Eb. apply private_open in Hn.
    destruct (H n a b) as [Q|[Q _]]; [rewrite (proj1 (cl_show _ _ F n Hn)); exact Ea|rewrite (proj1 (cl_show _ _ P n Hn)); exact Eb|exact Q|congruence].
  - intros H n a b Ea Eb. destruct (private n) eqn:Pn.
    + rewrite (proj1 (cl_hide _ _ F n Pn)) in Ea. discriminate.
    + rewrite (proj1 (cl_show _ _ F n Pn)) in Ea. rewrite (proj1 (cl_show _ _ P n Pn)) in Eb.
      destruct (String.eqb_spec n d) as [->|N]; [right; split; [reflexivity|discriminate]|]. left. apply (H n); auto. apply private_open, Pn.
Qed.
Lemma same_coord_refl m : same_coord m m.
Proof.
  destruct m as [c|k x|s]; cbn [same_coord]; [left; reflexivity| |reflexivity].
  apply (proj1 (m_eqb_spec (MN k x) (MN k x))). cbn [m_eqb].
  assert (all_pairs_close k (nd_flat x) (nd_flat x) = true) as ->; [|].
  2: { replace (kind_eqb k k) with true by (destruct k; reflexivity). rewrite (proj2 (CmProofs.zlist_eqb_eq _ _) eq_refl). reflexivity. }
  induction (nd_flat x) as [|y t IH]; [reflexivity|]. cbn. rewrite IH.
  unfold all_close. destruct k; lia.
Qed.

(** ** Cutting *)
Lemma cut_map {B C} (f : B -> C) k : forall fuel l, cut fuel k (map f l) = map (map f) (cut fuel k l).
Proof.
  induction fuel as [|fuel IH]; intros [|x l]; try reflexivity. cbn [cut map]. rewrite <- IH, <- firstn_map, <- skipn_map. reflexivity.
Qed.
Lemma cut_pieces {B} k : (0 < k)%nat -> forall fuel (l : list B), l <> [] -> (List.length l <= fuel)%nat ->
  List.concat (cut fuel k l) = l /\ exists init last, cut fuel k l = init ++ [last] /\ last <> [] /\
    zlen last <= Z.of_nat k /\ forall g, In g init -> zlen g = Z.of_nat k.
Proof.
  intros K. induction fuel as [|fuel IH]; intros l N L; [destruct l; [congruence|cbn in L; lia]|].
  destruct l as [|x l]; [congruence|]. change (cut (S fuel) k (x :: l)) with (firstn k (x :: l) :: cut fuel k (skipn k (x :: l))).
  destruct (skipn k (x :: l)) as [|y t] eqn:E.
  - assert (firstn k (x :: l) = x :: l) as ->. { rewrite <- (firstn_skipn k (x :: l)) at 2. rewrite E, app_nil_r. reflexivity. }
    assert (List.length (x :: l) <= k)%nat. { pose proof (skipn_length k (x :: l)) as Q. rewrite E in Q. cbn [List.length] in *. lia. }
    replace (cut fuel k []) with (@nil (list B)) by (destruct fuel; reflexivity). split; [cbn; rewrite app_nil_r; reflexivity|].
    exists [], (x :: l). split; [reflexivity|]. split; [discriminate|]. split; [unfold zlen; lia|intros g []].
  - destruct (IH (y :: t)) as (C & init & last & E2 & N2 & L2 & G).
    + discriminate.
    + rewrite <- E, skipn_length. cbn [List.length] in *. lia.
    + split; [cbn [List.concat]; rewrite C, <- E; apply firstn_skipn|].
      exists (firstn k (x :: l) :: init), last. rewrite E2. split; [reflexivity|]. split; [exact N2|]. split; [exact L2|].
      intros g [<-|I]; [|apply G, I]. unfold zlen. rewrite firstn_length. pose proof (skipn_length k (x :: l)) as Q. rewrite E in Q. cbn [List.length] in *. lia.
Qed.
Lemma sub_sequences_ok {B} (l : list B) val : l <> [] -> match val with Some k => 0 < k | None => True end ->
  exists gs, in_pieces val l gs /\ forall C (f : B -> C), sub_sequences (map f l) val = Ok (map (map f) gs).
Proof.
  intros N V. set (n := match val with Some n => n | None => zlen l end).
  assert (P : 0 < n). { unfold n. destruct val; [exact V|]. destruct l; [congruence|]. rewrite zlen_cons. pose proof (zlen_nonneg l). lia. }
  exists (cut (List.length l) (Z.to_nat n) l). split.
  - destruct (cut_pieces (Z.to_nat n) ltac:(lia) (List.length l) l N (le_n _)) as (C & init & last & E & NL & L & G).
    split; [exact C|]. exists init, last. split; [exact E|]. split; [exact NL|]. rewrite Z2Nat.id in L, G by lia. unfold n in *.
    destruct val as [k|]; [auto|]. destruct init as [|g init]; [reflexivity|exfalso].
    specialize (G g (or_introl eq_refl)). rewrite E, concat_app in C. cbn [List.concat] in C. rewrite app_nil_r in C.
    assert (Q : zlen (g ++ List.concat init ++ last) = zlen l) by (rewrite app_assoc, C; reflexivity).
    rewrite !zlen_app in Q. pose proof (zlen_nonneg (List.concat init)). destruct last as [|z last]; [congruence|]. rewrite zlen_cons in Q. pose proof (zlen_nonneg last). lia.
  - intros C f. unfold sub_sequences.
    replace (match val with Some n0 => n0 | None => zlen (map f l) end) with n by (unfold n; destruct val; [reflexivity|rewrite zlen_map; reflexivity]).
    replace (n =? 0) with false by lia. replace (n <? 0) with false by lia. rewrite map_length, cut_map. reflexivity.
Qed.

(** DASDAE files: reading back what was saved. *)
From Verif Require Import Base BaseFacts CoordModel CoordSpec CoordProofs CoordProofs2 NdModel NdSpec FrameModel FrameProofs5 ChunkModel CmModel CmSpec CmProofs CmProofs2 CmProofs3 CmProofs5
  AttrsModel AttrsSpec AttrsProofs AttrsProofs2 AttrsProofs8 HistoryModel HistoryProofs HistoryProofs4
  DasdaeModel DasdaeSpec DasdaeProofs DasdaeProofs2 DasdaeProofs3 DasdaeProofs4.
From Coq Require Import Strings.String Strings.Ascii Permutation Sorted.
From Coq Require Import ZifyBool Lia.
Local Open Scope Z_scope.
Local Open Scope list_scope.

Lemma summ_tidy m u : tidy_summ (m_summ m u).
Proof.
  assert (K : forall k, kind_dtype k <> EmptyString /\ ~ contains "[" (kind_dtype k)) by (intros []; split; [discriminate| |discriminate|]; intros C; apply str_contains_spec in C; discriminate).
  assert (F : ~ contains "[" "float64") by (intros C; apply str_contains_spec in C; discriminate).
  unfold tidy_summ. destruct m as [[]| |]; cbn [m_summ s_dtype c_kind]; try apply K; split; try discriminate; exact F.
Qed.

Section Back.
Context {A : Type}.
Implicit Types p q : dpatch A.

Lemma recf_inferred m : recf m = m -> inferred m.
Proof.
  destruct m as [[]| |]; cbn [inferred]; auto; unfold recf; cbn [recoord].
  - destruct (get_coord_data k v) as [c|] eqn:E; cbn [bind]; [|destruct (get_coord_represents k v) as (c & E' & _); congruence]. intros Q. exists k, v. congruence.
  - destruct (get_coord_data k v) as [c|] eqn:E; cbn [bind]; [|destruct (get_coord_represents k v) as (c & E' & _); congruence]. intros Q. exists k, v. congruence.
Qed.
Lemma told_names p cm us : storable p -> rebuilt_cm p cm us -> forall n, In n (map fst (cm_sums cm us)) <-> In n (map fst (a_coords (dp_attrs p))).
Proof. intros S R n. rewrite sums_keys, (st_sums _ S), sums_keys. apply (rc_names _ _ _ R). Qed.
Lemma names_same p cm us a : storable p -> rebuilt_cm p cm us -> a_dims a = a_dims (dp_attrs p) -> a_coords a = cm_sums cm us ->
  forall n, In n (names_of a) <-> In n (names_of (dp_attrs p)).
Proof.
  intros S R Ed Ec n. unfold names_of. rewrite !in_app_iff, Ec, (told_names p cm us S R). unfold dim_tuple. now rewrite Ed.
Qed.
Lemma apart_ext l l' k : (forall n : string, In n l <-> In n l') -> apart l k -> apart l' k.
Proof. intros E (H1 & H2). split; [exact H1|]. intros c C. apply H2. now apply E. Qed.

Theorem read_fresh p : storable p -> exists p', read_patch (fresh p) = Ok p' /\ read_back p p' /\ storable p' /\
  (forall n m', assoc n (cm_coords (dp_cm p')) = Some m' -> inferred m') /\
  (forall n m, assoc n (cm_coords (dp_cm p)) = Some m -> inferred m -> assoc n (cm_coords (dp_cm p')) = Some m) /\
  (forall k, In k (map fst (a_vals (dp_attrs p'))) <-> In k (map fst (a_vals (dp_attrs p)))).
Proof.
  intros S. destruct (get_attrs_fresh p S) as (a & Ea & Sa & Na & Ka). assert (L : like p a) by (constructor; assumption).
  destruct (get_coords_fresh p a S L) as (cm & us & Ec & R). unfold read_patch. rewrite Ea. cbn [bind]. rewrite (get_dims_fresh p S). cbn [bind]. rewrite Ec. cbn [bind fresh g_data].
  set (b := mkAttrs (a_vals a) (a_dims a) (cm_sums cm us)). assert (T : tidy (dp_attrs p)) by (apply (st_family _ S); now left).
  assert (Bd : a_dims b = a_dims (dp_attrs p)) by apply (sa_dims _ _ Sa).
  assert (Nm : forall n, In n (names_of b) <-> In n (names_of (dp_attrs p))) by (apply (names_same p cm us b S R Bd eq_refl)).
  assert (Tb : tidy b).
  { constructor; cbn [b a_vals a_coords].
    - exact Na.
    - rewrite sums_keys. apply (wf_ckeys _ (rc_wf _ _ _ R)).
    - rewrite !Ka. apply (t_own _ T).
    - intros Z. exfalso. apply (st_some _ S). now rewrite <- Bd.
    - rewrite !Nm. apply (t_names _ T).
    - intros n s I. unfold cm_sums in I. apply in_map_iff in I. destruct I as ((j & m) & [= _ <-] & _). apply summ_tidy. }
  assert (Ap : forall k, In k (map fst (a_vals b)) -> apart (names_of b) k).
  { intros k K. apply (apart_ext (names_of (dp_attrs p))); [intros n; symmetry; apply Nm|]. apply (proj2 (st_family _ S) (dp_attrs p) (dp_attrs p)); [now left|now left|now apply Ka]. }
  assert (Fb : family [b]) by (split; [intros x [<-|[]]; exact Tb|intros x y k [<-|[]] [<-|[]] K; now apply Ap]).
  assert (Db : dim_tuple b = cm_dims cm) by (unfold dim_tuple; rewrite Bd; fold (dim_tuple (dp_attrs p)); rewrite (st_dims _ S); symmetry; apply (rc_dims _ _ _ R)).
  assert (U : attrs_update a (mkDict [] (Some (CMan (cm_dims cm) (map (fun e => (fst e, summ_dict (snd e))) (cm_sums cm us))))) = Ok b).
  { rewrite <- Db. apply (attrs_update_man b Fb). rewrite Bd. apply (st_some _ S). }
  unfold make_patch. rewrite U. cbn [bind]. rewrite Db. rewrite (proj2 (strs_eqb_eq _ _) eq_refl).
  pose proof (st_patch _ S) as Wp. pose proof (wp_cm _ Wp) as W. fold (dp_cm p) in W.
  destruct (new_patch_ok cm (p_data (dp_patch p))) as (En & Wn).
  { apply (rc_wf _ _ _ R). } { apply (wp_nd _ Wp). } { rewrite (rc_dims _ _ _ R). apply (wp_some _ Wp). }
  { rewrite (rc_dims _ _ _ R). pose proof (wp_shape _ Wp) as F. fold (dp_cm p) in F. revert F. apply Forall2_impl. intros d k (c & E & Lc).
    destruct (rd_spec p d _ S E) as (_ & Rs). pose proof (rs_shape _ _ Rs) as Sh. pose proof (rs_ok _ _ Rs) as Ok1. unfold dim_len.
    rewrite (rc_coords _ _ _ R d _ E). destruct (rd p d) as [c'|kk aa|s]; cbn [m_shape okm] in *.
    - exists c'. split; [reflexivity|]. congruence.
    - exfalso. destruct Ok1 as (_ & O). rewrite Sh in O. now apply O.
    - exfalso. destruct Ok1 as (_ & O). rewrite Sh in O. now apply O. }
  rewrite En. cbn [bind]. set (p' := mkD (mkPatch cm (p_data (dp_patch p))) us b). exists p'. split; [reflexivity|].
  assert (Un : forall n, In n (names p) -> unit_in us n = unit_in (dp_units p) n) by apply (rc_units _ _ _ R).
  assert (Bk : forall n m', assoc n (cm_coords cm) = Some m' -> exists m, assoc n (cm_coords (dp_cm p)) = Some m /\ m' = rd p n /\ restored m m').
  { intros n m' E. assert (I : In n (names p)) by (apply (rc_names _ _ _ R); apply assoc_In; eauto). apply assoc_In in I. destruct I as (m & I). exists m. split; [exact I|].
    rewrite (rc_coords _ _ _ R n m I) in E. injection E as <-. split; [reflexivity|apply (rd_spec p n m S I)]. }
  split; [|split; [|split; [|split]]].
  - constructor; unfold dp_cm; cbn [p' dp_patch dp_units dp_attrs p_data p_cm]; auto.
    + apply (rc_dims _ _ _ R).
    + apply (rc_dmap _ _ _ R).
    + intros n. fold (dp_cm p). destruct (assoc n (cm_coords (dp_cm p))) as [m|] eqn:E.
      * rewrite (rc_coords _ _ _ R n m E). apply (rd_spec p n m S E).
      * destruct (assoc n (cm_coords cm)) as [m'|] eqn:E'; [|exact I]. destruct (Bk n m' E') as (m & Q & _). congruence.
    + intros k K. transitivity (value_of a k); [rewrite !value_assoc; reflexivity|]. apply (sa_vals _ _ Sa k K).
  - constructor; unfold dp_cm; cbn [p' dp_patch dp_units dp_attrs p_data p_cm].
    + exact Wn.
    + exact Fb.
    + intros k K. apply (apart_ext (names_of (dp_attrs p))); [intros n; symmetry; apply Nm|]. now apply (st_clear _ S).
    + rewrite Bd. apply (st_some _ S).
    + exact Db.
    + reflexivity.
    + intros n ds. rewrite (rc_dmap _ _ _ R). apply (st_owned _ S).
    + intros k K. apply (st_keys _ S). now apply Ka.
    + intros n I. apply (st_names _ S). now apply (rc_names _ _ _ R).
    + intros n m' E. destruct (Bk n m' E) as (m & Q & _ & Rs). rewrite Un by (apply assoc_In; eauto).
      destruct (st_told _ S n m Q) as [H|(H1 & H2 & H3)]; [now left|right]. split; [exact H1|]. split; [exact H2|]. intros O. apply H3. now apply (rs_one _ _ Rs).
    + intros n m' E P. destruct (Bk n m' E) as (m & Q & _ & Rs). rewrite Un by (apply assoc_In; eauto). rewrite (rs_shape _ _ Rs). apply (st_part _ S n m Q). now apply (rs_null _ _ Rs).
  - intros n m' E. destruct (Bk n m' E) as (m & _ & _ & Rs). apply recf_inferred, (rs_rec _ _ Rs).
  - intros n m E I. unfold dp_cm. cbn [p' dp_patch p_cm]. rewrite (rc_coords _ _ _ R n m E). f_equal. apply (rs_exact _ _ (proj2 (rd_spec p n m S E)) I).
  - exact Ka.
Qed.
Theorem read_exact p p' : storable p -> (forall n m, assoc n (cm_coords (dp_cm p)) = Some m -> inferred m) ->
  read_patch (fresh p) = Ok p' -> same_dpatch p p'.
Proof.
  intros S I E. destruct (read_fresh p S) as (q & Eq & B & _ & _ & X & _). assert (q = p') by congruence. subst q.
  assert (Co : forall n, assoc n (cm_coords (dp_cm p')) = assoc n (cm_coords (dp_cm p))).
  { intros n. pose proof (rb_coords _ _ B n) as C. destruct (assoc n (cm_coords (dp_cm p))) as [m|] eqn:Em; [apply X; eauto|].
    destruct (assoc n (cm_coords (dp_cm p'))); [contradiction|reflexivity]. }
  constructor; try apply B; [exact Co|]. intros n. rewrite (rb_sums _ _ B), (st_sums _ S), !sums_assoc, Co. destruct (assoc n (cm_coords (dp_cm p))) as [m|] eqn:Em; [|reflexivity].
  rewrite (rb_units _ _ B); [reflexivity|]. apply assoc_In. eauto.
Qed.

(** ** Sequences of saves *)
Lemma read_names (P : string -> dpatch A -> Prop) f : (forall n g, assoc n f = Some g -> exists p, read_patch g = Ok p /\ P n p) ->
  exists ps, dasdae_read f = Ok ps /\ Forall2 P (sort_strs (map fst f)) ps.
Proof.
  intros H. unfold dasdae_read. assert (G : forall ns, incl ns (map fst f) -> exists ps, map_result (fun name => match assoc name f with Some g => read_patch g | None => Err KeyError end) ns = Ok ps /\ Forall2 P ns ps).
  { induction ns as [|n ns IH]; intros I; [exists []; split; [reflexivity|constructor]|]. destruct IH as (ps & E & F); [intros x X; apply I; now right|].
    assert (K : In n (map fst f)) by (apply I; now left). apply assoc_In in K. destruct K as (g & Eg). destruct (H n g Eg) as (p & Ep & Pp). exists (p :: ps). cbn [map_result].
    rewrite Eg, Ep. cbn [bind]. rewrite E. split; [reflexivity|now constructor]. }
  apply G. intros x X. eapply Permutation_in; [apply sort_strs_perm|exact X].
Qed.
Theorem save_read l : all_storable l -> replaced l -> exists f ns ps, save_all l [] = Ok f /\ dasdae_read f = Ok ps /\ names_in_order l ns /\
  Forall2 (fun n p' => exists p, saved_last l n p /\ read_patch (fresh p) = Ok p' /\ read_back p p') ns ps.
Proof.
  intros H R. destruct (save_all_holds l H) as (f & E & Hf).
  destruct (read_names (fun n p' => exists p, saved_last l n p /\ read_patch (fresh p) = Ok p' /\ read_back p p') f) as (ps & Er & F).
  { intros n g Eg. destruct (holds_fresh l f n g H R Hf Eg) as (p & Lp & Sp & Gq). destruct (read_fresh p Sp) as (p' & Ep & B & _). exists p'.
    rewrite (read_patch_ext _ _ Gq). split; [exact Ep|]. exists p. auto. }
  exists f, (sort_strs (map fst f)), ps. split; [exact E|]. split; [exact Er|]. split; [|exact F]. split; [|split].
  - eapply Permutation_NoDup; [apply Permutation_sym, sort_strs_perm|apply (ho_nodup _ _ Hf)].
  - apply sort_sorted.
  - intros n. rewrite <- (ho_names _ _ Hf n). split; intros I; (eapply Permutation_in; [|exact I]); [apply sort_strs_perm|apply Permutation_sym, sort_strs_perm].
Qed.
End Back.

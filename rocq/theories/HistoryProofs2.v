(** update_attrs writes the attributes it is given and nothing else, continued. *)
From Verif Require Import Base BaseFacts CoordModel FrameModel FrameProofs5 ChunkModel CmModel CmProofs AttrsModel AttrsSpec AttrsProofs AttrsProofs2 AttrsProofs3
  AttrsProofs8 AttrsProofs9 AttrsProofs10 HistoryModel HistorySpec HistoryProofs.
From Coq Require Import Strings.String.
Local Open Scope Z_scope.
Local Open Scope list_scope.

Lemma solid_no_diff s : solid s -> no_diff (summ_dict s) s = true.
Proof.
  intros (H1 & H2 & H3 & H4). unfold no_diff, summ_dict. cbn [forallb snd fst].
  assert (R : forall v, v <> ANull -> scal_eqb v v = true).
  { intros v N. destruct v; cbn; [reflexivity|now elim N|apply Z.eqb_refl|apply String.eqb_refl|now apply strs_eqb_eq]. }
  assert (E1 : get_or ANone "dtype" (summ_short s) = AStr (s_dtype s)) by reflexivity.
  assert (E2 : get_or ANone "min" (summ_short s) = s_min s) by reflexivity.
  assert (E3 : get_or ANone "max" (summ_short s) = s_max s) by reflexivity.
  assert (E4 : get_or ANone "step" (summ_short s) = s_step s).
  { unfold summ_short, get_or. cbn [app assoc String.eqb Ascii.eqb Bool.eqb]. cbn [filter]. unfold not_none at 1. cbn [snd]. destruct (s_step s); cbn [assoc String.eqb Ascii.eqb Bool.eqb]; try reflexivity.
    unfold not_none. cbn [snd]. destruct (s_units s); reflexivity. }
  assert (E5 : get_or ANone "units" (summ_short s) = s_units s).
  { unfold summ_short, get_or. cbn [app assoc String.eqb Ascii.eqb Bool.eqb filter]. unfold not_none. cbn [snd]. destruct (s_step s), (s_units s); reflexivity. }
  rewrite E1, E2, E3, E4, E5, !R by (assumption || discriminate). reflexivity.
Qed.

(** The keys put back for coordinates that are no dimensions. *)
Definition put_back (info : list (string * sdict)) (v : sdict) : sdict :=
  fold_left (fun v e => fold_left (fun v f => assoc_set (fst e ++ "_" ++ fst f)%string (snd f) v) (snd e) v) info v.
Definition flat_keys (info : list (string * sdict)) : list string :=
  flat_map (fun e => map (fun f => (fst e ++ "_" ++ fst f)%string) (snd e)) info.
Lemma put_back_app info : forall v, (forall k, In k (flat_keys info) -> ~ In k (map fst v)) ->
  forall x, incl (map fst x) (flat_keys info ++ map fst x) -> exists y, put_back info (v ++ x) = v ++ y /\
    incl (map fst y) (flat_keys info ++ map fst x).
Proof.
  unfold put_back. induction info as [|(n & m) info IH]; intros v N x _; cbn [fold_left].
  - exists x. split; [reflexivity|]. intros k K. exact K.
  - cbn [fst snd] in *. cbn [flat_keys flat_map fst snd] in N. fold (flat_keys info) in N.
    assert (I1 : forall l x, (forall f, In f l -> ~ In (n ++ "_" ++ fst f)%string (map fst v)) -> exists y,
       fold_left (fun v f => assoc_set (n ++ "_" ++ fst f)%string (snd f) v) l (v ++ x) = v ++ y /\
       incl (map fst y) (map (fun f => (n ++ "_" ++ fst f)%string) l ++ map fst x)).
    { induction l as [|f l IHl]; intros z Nl; cbn [fold_left map].
      - exists z. split; [reflexivity|]. apply incl_refl.
      - rewrite set_app_new by (apply Nl; now left). destruct (IHl (assoc_set (n ++ "_" ++ fst f)%string (snd f) z)) as (y & E & I).
        { intros g G. apply Nl. now right. }
        exists y. split; [exact E|]. intros k K. apply I in K. apply in_app_iff in K as [K|K]; [right; apply in_app_iff; now left|].
        apply In_assoc_set in K as [->|K]; [now left|right; apply in_app_iff; now right]. }
    destruct (I1 m x) as (y & E & Iy).
    { intros f Hf. apply N. apply in_app_iff. left. apply in_map_iff. now exists f. }
    rewrite E. destruct (IH v) with (x := y) as (z & Ez & Iz).
    { intros k K. apply N. apply in_app_iff. now right. }
    { intros k K. apply in_app_iff. now right. }
    exists z. split; [exact Ez|]. intros k K. apply Iz in K. cbn [flat_keys flat_map fst snd]. fold (flat_keys info). rewrite !in_app_iff in *.
    destruct K as [K|K]; [tauto|]. apply Iy in K. rewrite in_app_iff in K. tauto.
Qed.

Section Slow.
Context {B : Type}.

Lemma from_attrs_plain (p : hpatch B) kvs : conforms p -> plain_kvs (h_attrs p) kvs ->
  from_attrs p (mkDict (merge_fields kvs (d_vals (dump_set (h_attrs p)))) (d_coords (dump_set (h_attrs p)))) =
  Ok (with_vals (h_attrs p) kvs).
Proof.
  intros Cf (ND & Q). set (a := h_attrs p). pose proof (cf_family _ Cf) as F. fold a in F, Q.
  pose proof (cf_some _ Cf) as Dn. fold a in Dn. pose proof (cf_dims _ Cf) as Hd. fold a in Hd. pose proof (cf_coords _ Cf) as Hc. fold a in Hc.
  assert (T : tidy a) by (apply F; now left).
  assert (Ap : forall k, In k (map fst (a_vals a)) -> apart (names_of a) k) by (intros k K; apply (proj2 F a a); [now left|now left|exact K]).
  destruct (dim_tuple_ne a Dn) as (Dt & Dne). destruct (t_names _ T) as (N1 & N2).
  assert (Nd : ~ In "dims"%string (map fst kvs)) by (intros H; destruct (Q _ H) as (_ & X & _); now apply X).
  assert (Dd : forall d, In d (dim_tuple a) -> d <> "dims"%string /\ d <> "coords"%string).
  { intros d D. apply dims_in_names in D. split; intros ->; contradiction. }
  set (vals := merge_fields kvs (d_vals (dump_set a))).
  assert (Kv : forall k, In k (map fst vals) -> k <> "dims"%string -> apart (names_of a) k).
  { intros k K N. unfold vals in K. apply merge_keys in K as [K|K]; [apply (Q k K)|].
    unfold dump_set in K. cbn [d_vals] in K. rewrite map_app, in_app_iff in K. destruct K as [K|[K|[]]]; [now apply Ap|cbn in K; congruence]. }
  assert (Ad : assoc "dims"%string vals = Some (AStr (a_dims a))).
  { unfold vals. rewrite merge_assoc by exact ND. assert (Z0 : assoc "dims"%string kvs = None) by now apply assoc_None. rewrite Z0.
    rewrite dump_set_assoc by exact T. now rewrite String.eqb_refl. }
  assert (Hk : has_key "dims"%string vals = true) by (apply has_key_spec, assoc_In; eauto).
  assert (Nn : forall n, In n (map fst (a_coords a)) -> In n (names_of a)) by (intros n N; unfold names_of; apply in_app_iff; now left).
  change (d_coords (dump_set a)) with (Some (CDict (sum_dicts (a_coords a)))). unfold from_attrs. rewrite Hd, Hc. fold a.
  rewrite separate_known; [|exact Dne| |exact Dd|].
  2:{ unfold info_dims. cbn [d_coords d_vals]. rewrite Ad. destruct (String.eqb_spec (a_dims a) ""); [contradiction|]. now rewrite Dt. }
  2:{ cbn [d_vals]. intros d k D K N. apply (proj2 (Kv k K N)). now apply dims_in_names. }
  rewrite nested_all by now left. cbv zeta. cbn [d_vals].
  rewrite pop_keys_id.
  2:{ intros c C k K N. apply (proj2 (Kv k K N)). apply Nn. unfold sum_dicts in C. now rewrite map_fst_map in C. }
  rewrite Hk. cbn [bind].
  assert (ND' : negb (forallb (fun e => match assoc (fst e) (a_coords a) with Some s => no_diff (snd e) s | None => true end) (sum_dicts (a_coords a))) = false).
  { apply Bool.negb_false_iff, forallb_forall. intros (n & m) I. cbn [fst snd]. unfold sum_dicts in I. apply in_map_iff in I as ((n' & s) & E & I).
    injection E as <- <-. cbn [fst snd]. rewrite (in_assoc n' s (a_coords a)) by (auto; apply (t_coords _ T)).
    apply solid_no_diff. apply (cf_solid _ Cf n'). now rewrite Hc. }
  rewrite ND'. set (unused := filter _ (sum_dicts (a_coords a))). fold (put_back unused vals).
  (* the keys put back *)
  assert (Un : forall n m, In (n, m) unused -> exists s, In (n, s) (a_coords a) /\ m = summ_dict s /\ ~ In n (dim_tuple a)).
  { intros n m H. apply filter_In in H as (H & N). cbn [fst] in N. unfold sum_dicts in H. apply in_map_iff in H as ((n' & s) & E & I).
    injection E as <- <-. exists s. split; [exact I|]. split; [reflexivity|]. apply Bool.negb_true_iff in N. intros H. apply mem_In' in H. congruence. }
  assert (Fk : forall k, In k (flat_keys unused) -> exists n s f, In (n, s) (a_coords a) /\ ~ In n (dim_tuple a) /\
     In f ["dtype"; "min"; "max"; "step"; "units"]%string /\ k = (n ++ "_" ++ f)%string).
  { intros k K. unfold flat_keys in K. apply in_flat_map in K as ((n & m) & I & K). apply in_map_iff in K as ((f & v) & <- & Hf).
    destruct (Un n m I) as (s & Is & -> & Ni). exists n, s, f. split; [exact Is|]. split; [exact Ni|]. split; [|reflexivity].
    unfold summ_dict in Hf. cbn in Hf. destruct Hf as [H|[H|[H|[H|[H|[]]]]]]; injection H as <- <-; cbn; tauto. }
  assert (Fd : forall k, In k (flat_keys unused) -> k <> "dims"%string).
  { intros k K E. destruct (Fk k K) as (n & s & f & _ & _ & _ & ->).
    assert (X : contains "_" "dims") by (exists n, f; now rewrite E). apply str_contains_spec in X. discriminate X. }
  destruct (put_back_app unused vals) with (x := @nil (string * scal)) as (y & Ey & Iy).
  { intros k K H. destruct (Fk k K) as (n & s & f & I & Ni & Hf & ->). pose proof (Fd _ K) as N.
    destruct (proj2 (Kv _ H N) n) as (S & _); [apply Nn, in_map_iff; now exists (n, s)|]. apply S. eexists. reflexivity. }
  { intros k []. }
  rewrite !app_nil_r in Ey. rewrite Ey. rewrite app_nil_r in Iy.
  assert (Ky : forall k, In k (map fst (vals ++ y)) -> k <> "dims"%string -> forall d, In d (dim_tuple a) -> ~ starts d k /\ k <> ("d_" ++ d)%string).
  { intros k K N d D. rewrite map_app, in_app_iff in K. destruct K as [K|K].
    - apply (proj2 (Kv k K N)). now apply dims_in_names.
    - apply Iy in K. destruct (Fk k K) as (n & s & f & I & Ni & Hf & ->). apply (cf_lone _ Cf n s d f); rewrite ?Hc, ?Hd; auto. }
  set (w := assoc_set "dims"%string (ASeq (dim_tuple a)) (vals ++ y)).
  assert (Aw : assoc "dims"%string w = Some (ASeq (dim_tuple a))) by (unfold w; rewrite assoc_assoc_set; now rewrite String.eqb_refl).
  assert (Kw : forall k, In k (map fst w) -> k <> "dims"%string -> In k (map fst (vals ++ y))).
  { intros k K N. unfold w in K. apply In_assoc_set in K as [->|K]; [congruence|exact K]. }
  unfold mk_attrs, given_dims. cbn [d_vals]. rewrite Aw. cbn [bind].
  rewrite separate_known; [|exact Dne| |exact Dd|].
  2:{ unfold info_dims. cbn [d_coords d_vals]. rewrite Aw. destruct (dim_tuple a); [congruence|reflexivity]. }
  2:{ cbn [d_vals]. intros d k D K N. apply Ky; auto. }
  rewrite nested_all by now right. cbv zeta. cbn [d_vals]. rewrite pop_popped.
  set (out := sum_dicts (a_coords a)).
  assert (Pd : mem "dims"%string (popped out) = false).
  { apply Bool.not_true_iff_false. intros M. apply mem_In' in M. unfold popped in M. apply in_flat_map in M as ((n & m) & I & M). cbn [fst snd] in M.
    apply in_app_iff in M as [M|M].
    - apply in_map_iff in M as (f & E & _). assert (X : contains "_" "dims") by (exists n, f; now rewrite E). apply str_contains_spec in X. discriminate X.
    - destruct (has_key _ m); [|contradiction]. destruct M as [M|[]]. discriminate M. }
  assert (Fset : forall l, filter (fun e : string * scal => negb (mem (fst e) (popped out))) (assoc_set "dims"%string (ASeq (dim_tuple a)) l) =
     assoc_set "dims"%string (ASeq (dim_tuple a)) (filter (fun e => negb (mem (fst e) (popped out))) l)).
  { induction l as [|(k & v) l IH]; cbn [assoc_set filter fst]; [now rewrite Pd|].
    destruct (String.eqb_spec "dims" k) as [<-|N]; cbn [filter fst].
    - rewrite Pd. cbn [negb assoc_set]. now rewrite String.eqb_refl.
    - destruct (mem k (popped out)); cbn [negb]; [exact IH|]. cbn [assoc_set]. destruct (String.eqb_spec "dims" k); [contradiction|]. now rewrite IH. }
  assert (Fv : filter (fun e : string * scal => negb (mem (fst e) (popped out))) vals = vals).
  { rewrite <- pop_popped. apply pop_keys_id. intros c C k K N. apply (proj2 (Kv k K N)). apply Nn. unfold out, sum_dicts in C. now rewrite map_fst_map in C. }
  assert (Fy : filter (fun e : string * scal => negb (mem (fst e) (popped out))) y = []).
  { apply filter_none. intros (k & v) I. cbn [fst]. apply Bool.negb_false_iff, mem_In'.
    assert (K : In k (flat_keys unused)) by (apply Iy, in_map_iff; now exists (k, v)).
    destruct (Fk k K) as (n & s & f & Is & _ & Hf & ->). unfold popped. apply in_flat_map. exists (n, summ_dict s). split.
    - unfold out, sum_dicts. apply in_map_iff. now exists (n, s).
    - apply in_app_iff. left. apply in_map_iff. exists f. split; [reflexivity|]. exact Hf. }
  unfold w. rewrite Fset, filter_app, Fv, Fy, app_nil_r.
  assert (Hk' : has_key "dims"%string (assoc_set "dims"%string (ASeq (dim_tuple a)) vals) = true).
  { apply has_key_spec, In_assoc_set. now left. }
  rewrite Hk'. cbn [bind].
  assert (Ms : map_result (fun e => do s <- mk_summ (snd e); Ok (fst e, s)) out = Ok (a_coords a)).
  { unfold out, sum_dicts. apply map_result_self. intros (n & s) I. apply mk_summ_dict. apply (t_summ _ T n s I). }
  rewrite Ms. cbn [bind]. rewrite assoc_assoc_set, String.eqb_refl. cbn [bind]. rewrite del_set_same.
  unfold vals. rewrite del_merge by exact Nd.
  assert (E : del "dims"%string (d_vals (dump_set a)) = a_vals a).
  { unfold dump_set. cbn [d_vals]. unfold del. rewrite filter_app. cbn. rewrite app_nil_r. apply (del_id "dims"%string (a_vals a)), (proj1 (t_own _ T)). }
  rewrite E, Dt, join_split. reflexivity.
Qed.

Lemma update_attrs_exact (p : hpatch B) kvs : conforms p -> plain_kvs (h_attrs p) kvs ->
  update_attrs p kvs = Ok (mkH (with_vals (h_attrs p) kvs) (h_dims p) (h_sums p) (h_body p)).
Proof.
  intros Cf Q. pose proof (cf_family _ Cf) as F. pose proof (cf_some _ Cf) as Dn.
  assert (S : (do a <- from_attrs p (mkDict (merge_fields kvs (d_vals (dump_set (h_attrs p)))) (d_coords (dump_set (h_attrs p)))); init_patch p a)
    = Ok (mkH (with_vals (h_attrs p) kvs) (h_dims p) (h_sums p) (h_body p))).
  { rewrite from_attrs_plain by assumption. cbn [bind]. unfold init_patch.
    assert (E : attrs_update (with_vals (h_attrs p) kvs) (mkDict [] (Some (CMan (h_dims p) (sum_dicts (h_sums p))))) = Ok (with_vals (h_attrs p) kvs)).
    { rewrite (cf_dims _ Cf), (cf_coords _ Cf). apply (attrs_update_man (with_vals (h_attrs p) kvs)); [now apply with_vals_family|exact Dn]. }
    rewrite E. cbn [bind]. change (dim_tuple (with_vals (h_attrs p) kvs)) with (dim_tuple (h_attrs p)). rewrite <- (cf_dims _ Cf).
    assert (X : strs_eqb (h_dims p) (h_dims p) = true) by now apply strs_eqb_eq. now rewrite X. }
  unfold update_attrs. destruct kvs as [|(k & v) [|e t]]; [exact S| |exact S].
  destruct (String.eqb k "history"); [|exact S]. rewrite mk_attrs_with by assumption. reflexivity.
Qed.

Lemma with_vals_conforms (p : hpatch B) kvs : conforms p -> plain_kvs (h_attrs p) kvs ->
  conforms (mkH (with_vals (h_attrs p) kvs) (h_dims p) (h_sums p) (h_body p)).
Proof.
  intros Cf Q. constructor; cbn [h_attrs h_dims h_sums].
  - apply with_vals_family; [apply (cf_family _ Cf)|exact Q].
  - exact (cf_clear _ Cf).
  - exact (cf_some _ Cf).
  - exact (cf_dims _ Cf).
  - exact (cf_coords _ Cf).
  - exact (cf_solid _ Cf).
  - exact (cf_lone _ Cf).
Qed.
Lemma with_vals_only (p : hpatch B) kvs : plain_kvs (h_attrs p) kvs ->
  only_attrs p kvs (mkH (with_vals (h_attrs p) kvs) (h_dims p) (h_sums p) (h_body p)).
Proof.
  intros (ND & Q). constructor; try reflexivity; cbn [h_attrs].
  - intros k v I. rewrite with_vals_value by exact ND. now rewrite (in_assoc k v kvs ND I).
  - intros k _ N. rewrite with_vals_value by exact ND. assert (Z0 : assoc k kvs = None) by now apply assoc_None. now rewrite Z0.
Qed.
End Slow.

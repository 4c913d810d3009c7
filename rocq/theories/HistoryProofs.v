(** update_attrs writes the attributes it is given and nothing else. *)
From Verif Require Import Base BaseFacts CoordModel FrameModel FrameProofs5 ChunkModel CmModel CmProofs AttrsModel AttrsSpec AttrsProofs AttrsProofs2 AttrsProofs3
  AttrsProofs8 AttrsProofs9 AttrsProofs10 HistoryModel HistorySpec.
From Coq Require Import Strings.String.
Local Open Scope Z_scope.
Local Open Scope list_scope.

(** ** separate_coord_info when the dimensions are known and no key is about them *)
Lemma separate_known req o dims : dims <> [] -> info_dims req o = Ok dims ->
  (forall d, In d dims -> d <> "dims"%string /\ d <> "coords"%string) ->
  (forall d k, In d dims -> In k (map fst (d_vals o)) -> k <> "dims"%string -> ~ starts d k /\ k <> ("d_" ++ d)%string) ->
  separate req o (Some dims) =
    let out := nested_info req o in
    let v := pop_keys out (d_vals o) in
    Ok (out, if has_key "dims"%string v then v else assoc_set "dims"%string (ASeq dims) v).
Proof.
  intros Dn I F K. unfold separate. rewrite I. cbn [bind].
  assert (S : strs_eqb dims dims = true) by now apply strs_eqb_eq. rewrite S. destruct dims as [|h t]; [congruence|]. cbn [negb].
  assert (SB : subset (h :: t) (map fst (d_vals o) ++ match d_coords o with Some _ => ["coords"%string] | None => [] end) = false).
  { unfold subset. cbn [forallb]. match goal with |- mem h ?l && _ = _ => destruct (mem h l) eqn:M end; [|reflexivity]. exfalso. apply mem_In' in M.
    apply in_app_iff in M. destruct (F h (or_introl eq_refl)) as (F1 & F2). destruct M as [M|M].
    - destruct (K h h (or_introl eq_refl) M F1) as (Q & _). apply Q. exists EmptyString. now rewrite append_nil_r'.
    - destruct (d_coords o); [|contradiction]. destruct M as [<-|[]]. now apply F2. }
  rewrite SB. cbn [bind].
  assert (FL : forall l out, incl l (h :: t) -> fold_left (add_flat req o) l out = out).
  { induction l as [|d l IH]; intros out Il; [reflexivity|]. cbn [fold_left]. unfold add_flat at 2. rewrite flat_info_nil.
    - cbn [map meets_required]. apply IH. intros x X. apply Il. now right.
    - intros k Kk N. apply K; auto. apply Il. now left. }
  rewrite FL by apply incl_refl. reflexivity.
Qed.

Lemma nested_all req l : req = [] \/ req = ["min"; "max"]%string -> forall v,
  nested_info req (mkDict v (Some (CDict (sum_dicts l)))) = sum_dicts l.
Proof.
  intros R v. unfold nested_info. cbn [d_coords coval_dict]. apply filter_all. intros (n & m) I. unfold sum_dicts in I.
  apply in_map_iff in I as ((n' & s) & Q & _). injection Q as <- <-. now destruct R as [-> | ->].
Qed.
Lemma nested_man req l : req = [] \/ req = ["min"; "max"]%string -> forall v ds,
  nested_info req (mkDict v (Some (CMan ds (sum_dicts l)))) = sum_dicts l.
Proof. intros R v ds. rewrite <- (nested_all req l R v) at 2. reflexivity. Qed.

(** ** Keys and dicts *)
Lemma del_set {A} k j (v : A) l : k <> j -> del k (assoc_set j v l) = assoc_set j v (del k l).
Proof.
  intros N. unfold del. induction l as [|(m & w) l IH]; cbn [assoc_set filter fst].
  - destruct (String.eqb_spec k j); [contradiction|]. reflexivity.
  - destruct (String.eqb_spec j m) as [->|Nm]; cbn [filter fst].
    + destruct (String.eqb_spec k m); [contradiction|]. cbn [negb assoc_set]. now rewrite String.eqb_refl.
    + destruct (String.eqb_spec k m) as [->|Nk]; cbn [negb]; [exact IH|]. cbn [assoc_set].
      destruct (String.eqb_spec j m); [contradiction|]. now rewrite IH.
Qed.
Lemma del_set_same {A} k (v : A) l : del k (assoc_set k v l) = del k l.
Proof.
  unfold del. induction l as [|(m & w) l IH]; cbn [assoc_set filter fst].
  - now rewrite String.eqb_refl.
  - destruct (String.eqb_spec k m) as [->|N]; cbn [filter fst].
    + now rewrite String.eqb_refl.
    + destruct (String.eqb_spec k m); [contradiction|]. cbn [negb]. now rewrite IH.
Qed.
Lemma del_merge k new : forall base, ~ In k (map fst new) -> del k (merge_fields new base) = merge_fields new (del k base).
Proof.
  unfold merge_fields. induction new as [|(j & v) new IH]; intros base N; [reflexivity|]. cbn [fold_left fst snd]. rewrite IH.
  - rewrite del_set; [reflexivity|]. intros ->. apply N. now left.
  - intros H. apply N. now right.
Qed.
Lemma set_app_new {A} k (v : A) l x : ~ In k (map fst l) -> assoc_set k v (l ++ x) = l ++ assoc_set k v x.
Proof.
  induction l as [|(j & w) l IH]; intros N; [reflexivity|]. cbn [app assoc_set]. destruct (String.eqb_spec k j) as [->|Nk].
  - elim N. now left.
  - rewrite IH; [reflexivity|]. intros H. apply N. now right.
Qed.

Section Update.
Context {B : Type}.

(** The attributes [kvs] cannot be taken for coordinate information of [a]. *)
Definition plain_kvs (a : attrs) (kvs : sdict) : Prop :=
  NoDup (map fst kvs) /\ forall k, In k (map fst kvs) -> apart (names_of a) k /\ k <> "dims"%string /\ k <> "coords"%string.
Definition with_vals (a : attrs) (kvs : sdict) : attrs := mkAttrs (merge_fields kvs (a_vals a)) (a_dims a) (a_coords a).

Lemma with_vals_tidy a kvs : tidy a -> plain_kvs a kvs -> tidy (with_vals a kvs).
Proof.
  intros T (ND & Q). constructor; cbn [with_vals a_vals a_dims a_coords].
  - apply merge_nodup, (t_keys _ T).
  - apply (t_coords _ T).
  - rewrite !merge_keys. destruct (t_own _ T) as (O1 & O2). split; intros [H|H]; try contradiction; destruct (Q _ H) as (_ & X & Y); congruence.
  - apply (t_dims _ T).
  - exact (t_names _ T).
  - apply (t_summ _ T).
Qed.
Lemma with_vals_family a kvs : family [a] -> plain_kvs a kvs -> family [with_vals a kvs].
Proof.
  intros (T & F) P. split.
  - intros x [<-|[]]. apply with_vals_tidy; auto. apply T. now left.
  - intros x y k [<-|[]] [<-|[]] K. change (names_of (with_vals a kvs)) with (names_of a).
    cbn [with_vals a_vals] in K. apply merge_keys in K as [K|K]; [apply (proj2 P k K)|]. apply (F a a); auto; now left.
Qed.
Lemma with_vals_value a kvs k : NoDup (map fst kvs) -> 
  value_of (with_vals a kvs) k = match assoc k kvs with Some v => Some v | None => value_of a k end.
Proof.
  intros ND. rewrite !value_assoc. cbn [with_vals a_vals]. rewrite merge_assoc by exact ND. now destruct (assoc k kvs).
Qed.

(** What PatchAttrs makes of a dict that has the dims and the coordinates of [a]. *)
Lemma mk_attrs_with a kvs : family [a] -> a_dims a <> EmptyString -> plain_kvs a kvs ->
  mk_attrs (mkDict (merge_fields kvs (d_vals (dump_set a))) (d_coords (dump_set a))) = Ok (with_vals a kvs).
Proof.
  intros F Dn (ND & Q). assert (T : tidy a) by (apply F; now left).
  assert (Ap : forall k, In k (map fst (a_vals a)) -> apart (names_of a) k) by (intros k K; apply (proj2 F a a); [now left|now left|exact K]).
  destruct (dim_tuple_ne a Dn) as (Dt & Dne). destruct (full_coords_good a T) as (C1 & C2 & C3).
  assert (Nd : ~ In "dims"%string (map fst kvs)) by (intros H; destruct (Q _ H) as (_ & X & _); now apply X).
  assert (Nc : ~ In "coords"%string (map fst kvs)) by (intros H; destruct (Q _ H) as (_ & _ & X); now apply X).
  assert (Ad : assoc "dims"%string (merge_fields kvs (d_vals (dump_set a))) = Some (AStr (a_dims a))).
  { rewrite merge_assoc by exact ND. assert (Z0 : assoc "dims"%string kvs = None) by now apply assoc_None. rewrite Z0.
    rewrite dump_set_assoc by exact T. now rewrite String.eqb_refl. }
  assert (G : good (names_of a) (mkDict (merge_fields kvs (d_vals (dump_set a))) (Some (CDict (full_coords a))))).
  { apply set_good; [exact T|apply merge_nodup, dump_set_nodup, T| | | |exact C1|apply map_fst_map].
    + intros k K N. apply merge_keys in K as [K|K]; [apply (Q k K)|].
      unfold dump_set in K. cbn [d_vals] in K. rewrite map_app, in_app_iff in K. destruct K as [K|[K|[]]]; [now apply Ap|cbn in K; congruence].
    + intros K. apply merge_keys in K as [K|K]; [now apply Nc|].
      unfold dump_set in K. cbn [d_vals] in K. rewrite map_app, in_app_iff in K. destruct K as [K|[K|[]]]; [now apply (proj2 (t_own _ T))|discriminate].
    + exists (AStr (a_dims a)), (dim_tuple a). split; [exact Ad|]. split; [split; [exact Dn|exact Dt]|apply dims_in_names]. }
  change (d_coords (dump_set a)) with (Some (CDict (full_coords a))).
  rewrite (mk_attrs_plain _ (good_plain _ _ (fair_of a T) G) (a_coords a)).
  - cbn [d_vals]. rewrite Ad. rewrite del_merge by exact Nd. unfold dump_set. cbn [d_vals].
    assert (E : del "dims"%string (a_vals a ++ [("dims"%string, AStr (a_dims a))]) = a_vals a).
    { unfold del. rewrite filter_app. cbn. rewrite app_nil_r. apply (del_id "dims"%string (a_vals a)), (proj1 (t_own _ T)). }
    now rewrite E.
  - unfold coords_of. cbn [d_coords coval_dict]. unfold full_coords. apply map_result_self.
    intros (n & s) I. apply mk_summ_dict. apply (t_summ _ T n s I).
Qed.

(** A dict of attributes next to a coordinate manager with the coordinates of [a]. *)
Lemma attrs_update_man a : family [a] -> a_dims a <> EmptyString ->
  attrs_update a (mkDict [] (Some (CMan (dim_tuple a) (sum_dicts (a_coords a))))) = Ok a.
Proof.
  intros F Dn. assert (T : tidy a) by (apply F; now left). destruct (dim_tuple_ne a Dn) as (Dt & Dne).
  unfold attrs_update. rewrite separate_known; [|exact Dne|reflexivity| |intros d k _ []].
  2:{ intros d D. apply dims_in_names in D. destruct (t_names _ T) as (N1 & N2). split; intros ->; contradiction. }
  rewrite nested_man by now left. cbv zeta. rewrite pop_popped. cbn [filter d_vals has_key map mem existsb bind d_coords assoc_set].
  assert (Cs : fold_left add_info (sum_dicts (a_coords a)) [] = full_coords a).
  { assert (G : forall l acc, NoDup (map fst acc ++ map fst l) -> fold_left add_info (sum_dicts l) acc = acc ++ sum_dicts l).
    { induction l as [|(n & s) l IH]; intros acc N; [now rewrite app_nil_r|]. cbn [sum_dicts map fold_left fst snd] in *.
      assert (Na : ~ In n (map fst acc)).
      { apply NoDup_remove_2 in N. intros H. apply N. apply in_app_iff. now left. }
      unfold add_info at 2. cbn [fst snd]. assert (Z0 : assoc n acc = None) by now apply assoc_None. rewrite Z0.
      rewrite assoc_set_new by exact Na. fold (sum_dicts l). rewrite IH; [now rewrite <- app_assoc|].
      rewrite map_app. cbn [map fst]. now rewrite <- app_assoc. }
    rewrite G; [reflexivity|]. apply (t_coords _ T). }
  rewrite Cs.
  assert (M : mk_attrs (mkDict (merge_fields [] (d_vals (dump_set a))) (d_coords (dump_set a))) = Ok (with_vals a [])).
  { apply mk_attrs_with; auto. split; [constructor|intros k []]. }
  destruct (full_coords_good a T) as (C1 & C2 & C3).
  set (vals := merge_fields [("dims"%string, ASeq (dim_tuple a))] (d_vals (dump_set a))).
  assert (Ad : assoc "dims"%string vals = Some (ASeq (dim_tuple a))).
  { unfold vals. rewrite merge_assoc by (repeat constructor; auto). reflexivity. }
  assert (Ap : forall k, In k (map fst (a_vals a)) -> apart (names_of a) k) by (intros k K; apply (proj2 F a a); [now left|now left|exact K]).
  assert (G : good (names_of a) (mkDict vals (Some (CDict (full_coords a))))).
  { apply set_good; [exact T|apply merge_nodup, dump_set_nodup, T| | | |exact C1|apply map_fst_map].
    + intros k K N. unfold vals in K. apply merge_keys in K as [[K|[]]|K]; [cbn in K; congruence|].
      unfold dump_set in K. cbn [d_vals] in K. rewrite map_app, in_app_iff in K. destruct K as [K|[K|[]]]; [now apply Ap|cbn in K; congruence].
    + intros K. unfold vals in K. apply merge_keys in K as [[K|[]]|K]; [discriminate|].
      unfold dump_set in K. cbn [d_vals] in K. rewrite map_app, in_app_iff in K. destruct K as [K|[K|[]]]; [now apply (proj2 (t_own _ T))|discriminate].
    + exists (ASeq (dim_tuple a)), (dim_tuple a). split; [exact Ad|]. split; [now split|apply dims_in_names]. }
  rewrite (mk_attrs_plain _ (good_plain _ _ (fair_of a T) G) (a_coords a)).
  - cbn [d_vals]. rewrite Ad. unfold vals, merge_fields. cbn [fold_left fst snd]. rewrite del_set_same.
    assert (E : del "dims"%string (d_vals (dump_set a)) = a_vals a).
    { unfold dump_set. cbn [d_vals]. unfold del. rewrite filter_app. cbn. rewrite app_nil_r. apply (del_id "dims"%string (a_vals a)), (proj1 (t_own _ T)). }
    rewrite E. rewrite Dt, join_split. now destruct a.
  - unfold coords_of. cbn [d_coords coval_dict]. unfold full_coords. apply map_result_self.
    intros (n & s) I. apply mk_summ_dict. apply (t_summ _ T n s I).
Qed.
End Update.

(** DASDAE files: the attributes read from the group of one patch. *)
From Verif Require Import Base BaseFacts CoordModel NdModel NdSpec FrameModel FrameProofs5 ChunkModel CmModel CmSpec CmProofs CmProofs5
  AttrsModel AttrsSpec AttrsProofs AttrsProofs2 AttrsProofs8 HistoryProofs4 DasdaeModel DasdaeSpec DasdaeProofs DasdaeProofs2.
From Coq Require Import Strings.String Strings.Ascii Permutation Sorted.
Local Open Scope Z_scope.
Local Open Scope list_scope.

Section Attrs.
Context {A : Type}.
Implicit Types g h : group A.
Implicit Types p q : dpatch A.

(** Keys with a prefix are the prefixed names, in some order. *)
Lemma strip_keys prefix (K ks : list string) : prefix <> EmptyString -> NoDup K -> (forall k, In k ks -> ~ contains prefix k) ->
  (forall x, In x K <-> exists k, x = (prefix ++ k)%string /\ In k ks) ->
  exists ks', K = map (append prefix) ks' /\ NoDup ks' /\ (forall k, In k ks' <-> In k ks) /\ map (str_replace prefix EmptyString) K = ks'.
Proof.
  intros P ND C H. exists (map (str_replace prefix EmptyString) K).
  assert (E : K = map (append prefix) (map (str_replace prefix EmptyString) K)).
  { rewrite map_map. rewrite <- (map_id K) at 1. apply map_ext_in. intros x X. apply H in X. destruct X as (k & -> & I).
    rewrite strip_prefix; auto. }
  split; [exact E|]. split; [|split; [|reflexivity]].
  - rewrite E in ND. now apply NoDup_map_inv in ND.
  - intros k. rewrite in_map_iff. split.
    + intros (x & <- & X). apply H in X. destruct X as (j & -> & I). rewrite strip_prefix; auto.
    + intros I. exists (prefix ++ k)%string. split; [apply strip_prefix; auto|]. apply H. eauto.
Qed.

Definition attr_names p : list string := map fst (a_vals (dp_attrs p)) ++ ["dims"; "coords"]%string.
Lemma attr_names_clean p : storable p -> forall k, In k (attr_names p) -> ~ contains "_attrs_" k.
Proof.
  intros S k H. unfold attr_names in H. apply in_app_iff in H as [H|[<-|[<-|[]]]]; [now apply (st_keys _ S)| |]; intros C; apply str_contains_spec in C; discriminate.
Qed.
Lemma attr_keys p : storable p -> exists ks, keys_with "_attrs_" (entries p) = map (append "_attrs_") ks /\ NoDup ks /\
  (forall k, In k ks <-> In k (attr_names p)) /\ map (str_replace "_attrs_" EmptyString) (keys_with "_attrs_" (entries p)) = ks.
Proof.
  intros S. apply strip_keys; [discriminate|apply keys_with_nodup, entries_nodup, S|now apply attr_names_clean|].
  intros x. rewrite keys_with_In, entries_keys, !in_app_iff. split.
  - intros ([H|[[<-|[]]|H]] & St).
    + apply in_map_iff in H. destruct H as (k & <- & I). exists k. split; [reflexivity|exact I].
    + apply str_prefix_starts in St. discriminate.
    + apply in_map_iff in H. destruct H as (k & <- & I). apply str_prefix_starts in St. discriminate.
  - intros (k & -> & I). split; [left; now apply in_map|]. apply str_prefix_starts. apply str_prefix_starts. exists k. reflexivity.
Qed.

(** What is stored under an attribute's name. *)
Definition stored_val p k : scal := if String.eqb k "dims" then AStr (a_dims (dp_attrs p)) else get_or ANone k (a_vals (dp_attrs p)).
Lemma entry_val p k : storable p -> In k (attr_names p) -> k <> "coords"%string ->
  assoc ("_attrs_" ++ k)%string (entries p) = Some (SVal (stored_val p k)).
Proof.
  intros S I Nc. assert (T : tidy (dp_attrs p)) by (apply (st_family _ S); now left). apply in_assoc; [now apply entries_nodup|].
  unfold entries, attr_entries. rewrite <- !app_assoc. apply in_app_iff. left. apply in_map_iff.
  assert (X : assoc k (d_vals (dump_set (dp_attrs p))) = Some (stored_val p k)).
  { rewrite dump_set_assoc by exact T. unfold stored_val. destruct (String.eqb_spec k "dims"); [reflexivity|]. unfold get_or.
    unfold attr_names in I. apply in_app_iff in I as [I|[I|[I|[]]]]; try congruence. apply assoc_In in I. destruct I as (v & ->). reflexivity. }
  exists (k, stored_val p k). split; [reflexivity|]. now apply assoc_in.
Qed.
Lemma entry_coords p : storable p -> assoc "_attrs_coords"%string (entries p) = Some (SCoords (full_coords (dp_attrs p))).
Proof.
  intros S. apply in_assoc; [now apply entries_nodup|]. unfold entries, attr_entries. rewrite <- !app_assoc. apply in_app_iff. right. now left.
Qed.

Lemma fold_attrs g (look : string -> scal) c ks : (forall k, In k ks -> ~ contains "_attrs_" k) ->
  (forall k, In k ks -> k <> "coords"%string -> assoc ("_attrs_" ++ k)%string (g_attrs g) = Some (SVal (look k))) ->
  (In "coords"%string ks -> assoc "_attrs_coords"%string (g_attrs g) = Some (SCoords c)) -> forall d,
  fold_left (fun acc key => do d <- acc; match assoc key (g_attrs g) with
               | Some v => add_attr d (str_replace "_attrs_" EmptyString key) v | None => Err KeyError end)
            (map (append "_attrs_") ks) (Ok d)
  = Ok (mkDict (put_all (map (fun k => (k, look k)) (filter (fun k => negb (String.eqb k "coords")) ks)) (d_vals d))
               (if mem "coords" ks then Some (CDict c) else d_coords d)).
Proof.
  induction ks as [|k ks IH]; intros C V X d; [destruct d; reflexivity|]. cbn [map fold_left bind].
  rewrite strip_prefix; [|discriminate|apply C; now left].
  assert (C' : forall k', In k' ks -> ~ contains "_attrs_" k') by (intros; apply C; now right).
  assert (V' : forall k', In k' ks -> k' <> "coords"%string -> assoc ("_attrs_" ++ k')%string (g_attrs g) = Some (SVal (look k'))) by (intros; apply V; [now right|assumption]).
  assert (X' : In "coords"%string ks -> assoc "_attrs_coords"%string (g_attrs g) = Some (SCoords c)) by (intros; apply X; now right).
  destruct (string_dec k "coords") as [->|N].
  - change (assoc ("_attrs_" ++ "coords")%string (g_attrs g)) with (assoc "_attrs_coords"%string (g_attrs g)). rewrite X by now left. cbn [add_attr].
    rewrite String.eqb_refl. rewrite (IH C' V' X'). cbn [d_vals d_coords filter]. rewrite String.eqb_refl. cbn [negb]. f_equal. f_equal.
    unfold mem. cbn [existsb]. rewrite String.eqb_refl. cbn [orb]. now destruct (existsb (String.eqb "coords") ks).
  - rewrite V; [|now left|exact N]. cbn [add_attr]. destruct (String.eqb_spec k "coords"); [contradiction|]. rewrite (IH C' V' X'). cbn [d_vals d_coords filter].
    destruct (String.eqb_spec k "coords"); [contradiction|]. cbn [negb map]. unfold put_all. cbn [fold_left fst snd]. f_equal. f_equal.
    unfold mem. cbn [existsb]. destruct (String.eqb_spec "coords" k); [congruence|]. reflexivity.
Qed.

Lemma get_attrs_fresh p : storable p -> exists a, get_attrs (fresh p) = Ok a /\ same_attrs (dp_attrs p) a /\
  NoDup (map fst (a_vals a)) /\ (forall k, In k (map fst (a_vals a)) <-> In k (map fst (a_vals (dp_attrs p)))).
Proof.
  intros S. assert (T : tidy (dp_attrs p)) by (apply (st_family _ S); now left).
  destruct (attr_keys p S) as (ks & E & ND & Iff & _). unfold get_attrs, get_attr_dict. cbn [fresh g_attrs]. rewrite E.
  pose proof (fold_attrs (fresh p) (stored_val p) (full_coords (dp_attrs p)) ks) as FA. cbn [fresh g_attrs] in FA.
  rewrite FA; clear FA.
  2:{ intros k K. apply (attr_names_clean p S). now apply Iff. }
  2:{ intros k K N. apply entry_val; auto. now apply Iff. }
  2:{ intros _. now apply entry_coords. }
  assert (Mc : mem "coords" ks = true). { apply mem_In'. apply Iff. apply in_app_iff. right. right. now left. }
  rewrite Mc. cbn [bind d_vals]. set (ks1 := filter (fun k => negb (String.eqb k "coords")) ks). set (vals := map (fun k => (k, stored_val p k)) ks1).
  assert (Fst : map fst vals = ks1) by (unfold vals; rewrite map_map; apply map_id).
  assert (ND1 : NoDup ks1) by now apply NoDup_filter.
  assert (NDv : NoDup (map fst vals)) by now rewrite Fst. rewrite put_self by exact NDv.
  assert (I1 : forall k, In k ks1 <-> In k (map fst (a_vals (dp_attrs p))) \/ k = "dims"%string).
  { intros k. unfold ks1. rewrite filter_In, Iff. unfold attr_names. rewrite in_app_iff. destruct (t_own _ T) as (O1 & O2). split.
    - intros ([H|[<-|[<-|[]]]] & Q); auto. now rewrite String.eqb_refl in Q.
    - intros [H| ->].
      + split; [now left|]. destruct (String.eqb_spec k "coords") as [->|]; [contradiction|reflexivity].
      + split; [right; now left|reflexivity]. }
  assert (As : forall k, In k ks1 -> assoc k vals = Some (stored_val p k)).
  { intros k K. apply in_assoc; [exact NDv|]. apply in_map_iff. eauto. }
  assert (Ad : assoc "dims"%string vals = Some (AStr (a_dims (dp_attrs p)))).
  { rewrite As; [reflexivity|]. apply I1. now right. }
  destruct (dim_tuple_ne _ (st_some _ S)) as (Dt & Dne). destruct (full_coords_good _ T) as (C1 & C2 & C3).
  assert (G : good (names_of (dp_attrs p)) (mkDict vals (Some (CDict (full_coords (dp_attrs p)))))).
  { apply set_good; [exact T|exact NDv| | | |exact C1|apply map_fst_map].
    - intros k K N. rewrite Fst in K. apply I1 in K as [K|K]; [|contradiction]. apply (proj2 (st_family _ S) (dp_attrs p) (dp_attrs p)); [now left|now left|exact K].
    - rewrite Fst. intros K. apply I1 in K as [K|K]; [now apply (proj2 (t_own _ T))|discriminate].
    - exists (AStr (a_dims (dp_attrs p))), (dim_tuple (dp_attrs p)). split; [exact Ad|]. split; [split; [apply (st_some _ S)|exact Dt]|apply dims_in_names]. }
  rewrite (mk_attrs_plain _ (good_plain _ _ (fair_of _ T) G) (a_coords (dp_attrs p))).
  2:{ unfold coords_of. cbn [d_coords coval_dict]. unfold full_coords. apply map_result_self. intros (n & s) I. apply mk_summ_dict. apply (t_summ _ T n s I). }
  cbn [d_vals]. rewrite Ad. eexists. split; [reflexivity|].
  assert (Ks : forall k, In k (map fst (del "dims"%string vals)) <-> In k (map fst (a_vals (dp_attrs p)))).
  { intros k. unfold del. split.
    - intros H. apply in_map_iff in H. destruct H as ((j & v) & <- & H). apply filter_In in H. cbn [fst] in *. destruct H as (H & Q).
      destruct (String.eqb_spec "dims" j) as [<-|N]; [discriminate|]. assert (K : In j (map fst vals)) by (apply in_map_iff; exists (j, v); auto).
      rewrite Fst in K. apply I1 in K as [K|K]; [exact K|congruence].
    - intros H. apply in_map_iff. exists (k, stored_val p k). split; [reflexivity|]. apply filter_In. split.
      + apply assoc_in, As, I1. now left.
      + cbn [fst]. destruct (String.eqb_spec "dims" k) as [<-|]; [|reflexivity]. exfalso. now apply (proj1 (t_own _ T)). }
  split; [|split; [|exact Ks]].
  - constructor; cbn [a_vals a_dims a_coords]; [|reflexivity|reflexivity]. intros k N. rewrite !value_assoc. cbn [a_vals].
    assert (X : assoc k (del "dims"%string vals) = assoc k (a_vals (dp_attrs p))); [|now rewrite X].
    destruct (assoc k (a_vals (dp_attrs p))) as [v|] eqn:Ev.
    + assert (K : In k (map fst (a_vals (dp_attrs p)))) by (apply assoc_In; eauto).
      rewrite assoc_del. destruct (String.eqb_spec k "dims"); [contradiction|]. rewrite As by (apply I1; now left). unfold stored_val. destruct (String.eqb_spec k "dims"); [contradiction|].
      unfold get_or. now rewrite Ev.
    + apply assoc_None. rewrite Ks. now apply assoc_None.
  - cbn [a_vals]. unfold del. apply NoDup_map_filter. exact NDv.
Qed.
End Attrs.

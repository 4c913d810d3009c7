(** PatchAttrs: rebuilding from a dump, and updating. *)
From Verif Require Import Base BaseFacts CoordModel FrameModel FrameProofs5 ChunkModel CmModel CmProofs
  AttrsModel AttrsSpec AttrsProofs AttrsProofs2 AttrsProofs5.
From Coq Require Import Strings.String Strings.Ascii.
Local Open Scope Z_scope.

Lemma join_split s : str_join "," (str_split "," s) = s.
Proof.
  induction s as [|c s IH]; [reflexivity|]. cbn [str_split]. destruct (Ascii.eqb_spec c ",") as [->|N].
  - destruct (str_split_cons "," s) as (h & t & S). rewrite S in *. change (str_join "," (EmptyString :: h :: t)) with (EmptyString ++ "," ++ str_join "," (h :: t))%string.
    rewrite IH. reflexivity.
  - destruct (str_split_cons "," s) as (h & t & S). rewrite S in *. destruct t as [|x t]; cbn [str_join] in *; [now rewrite IH|].
    rewrite <- IH. reflexivity.
Qed.
Lemma dim_tuple_ne a : a_dims a <> EmptyString -> dim_tuple a = str_split "," (a_dims a) /\ dim_tuple a <> [].
Proof.
  intros N. unfold dim_tuple. destruct (String.eqb_spec (a_dims a) ""); [contradiction|]. split; [reflexivity|].
  destruct (str_split_cons "," (a_dims a)) as (h & t & ->). discriminate.
Qed.
Lemma mk_summ_dict s : tidy_summ s -> mk_summ (summ_dict s) = Ok s.
Proof.
  intros (D1 & D2). unfold mk_summ, get_or, summ_dict. cbn -[str_split hd]. destruct (String.eqb_spec (s_dtype s) ""); [contradiction|].
  rewrite str_split_single; [now destruct s|]. intros a b E. apply D2. exists a, b. exact E.
Qed.
Lemma summ_dict_keys s : NoDup (map fst (summ_dict s)).
Proof. cbn. repeat constructor; cbn; intuition congruence. Qed.
Definition full_coords (a : attrs) : list (string * sdict) := map (fun e => (fst e, summ_dict (snd e))) (a_coords a).

(** From a dict that holds what [a] reads. *)
Lemma map_result_self (l : list (string * summ)) g : (forall e, In e l -> mk_summ (g (snd e)) = Ok (snd e)) ->
  map_result (fun e => do s <- mk_summ (snd e); Ok (fst e, s)) (map (fun e => (fst e, g (snd e))) l) = Ok l.
Proof.
  induction l as [|(n & s) l IH]; intros H; [reflexivity|]. cbn [map map_result fst snd].
  pose proof (H (n, s) (or_introl eq_refl)) as Hs. cbn [snd] in Hs. rewrite Hs. cbn [bind].
  rewrite IH; [reflexivity|]. intros e E. apply H. now right.
Qed.
Lemma rebuild_from a d g : fair_names (names_of a) -> good (names_of a) d -> a_dims a <> EmptyString ->
  coords_of d = map (fun e => (fst e, g (snd e))) (a_coords a) -> (forall e, In e (a_coords a) -> mk_summ (g (snd e)) = Ok (snd e)) ->
  (assoc "dims"%string (d_vals d) = Some (AStr (a_dims a)) \/ assoc "dims"%string (d_vals d) = Some (ASeq (dim_tuple a))) ->
  exists r, mk_attrs d = Ok r /\ (forall k, k <> "dims"%string -> value_of r k = eff d k) /\ a_dims r = a_dims a /\ a_coords r = a_coords a.
Proof.
  intros F G Dn Cd Mk Dd. rewrite (mk_attrs_plain d (good_plain _ d F G) (a_coords a)); [|rewrite Cd; now apply map_result_self].
  eexists. split; [reflexivity|]. split; [|split; [|reflexivity]].
  - intros k K. rewrite value_assoc, <- default_of_spec. unfold eff. cbn [a_vals]. rewrite assoc_del.
    destruct (String.eqb_spec k "dims"); [contradiction|reflexivity].
  - cbn [a_dims]. destruct Dd as [-> | ->]; [reflexivity|]. rewrite (proj1 (dim_tuple_ne a Dn)). apply join_split.
Qed.

Lemma fair_of a : tidy a -> fair_names (names_of a).
Proof. intros T. destruct (t_names _ T). now split. Qed.
Lemma dims_in_names a : incl (dim_tuple a) (names_of a).
Proof. intros d D. unfold names_of. apply in_app_iff. now right. Qed.
Lemma full_coords_good a : tidy a -> (forall n m, In (n, m) (full_coords a) -> entry_ok m) /\ NoDup (map fst (full_coords a)) /\ incl (map fst (full_coords a)) (names_of a).
Proof.
  intros T. assert (E : map fst (full_coords a) = map fst (a_coords a)) by apply map_fst_map. rewrite E. split; [|split].
  - intros n m H. apply in_map_iff in H. destruct H as ((n' & s) & Q & I). cbn [fst snd] in Q. injection Q as <- <-.
    split; [apply summ_dict_keys|]. split; [reflexivity|]. split; [reflexivity|]. exists s. apply mk_summ_dict. apply (t_summ _ T n' s I).
  - apply (t_coords _ T).
  - intros n N. unfold names_of. apply in_app_iff. now left.
Qed.

(** ** model_dump() *)
Lemma map_fst_any {A B} (f : string * A -> B) (l : list (string * A)) : map fst (map (fun e => (fst e, f e)) l) = map fst l.
Proof. rewrite map_map. apply map_ext. reflexivity. Qed.
Lemma assoc_none_app {A} k (l l' : list (string * A)) : assoc k l = None -> assoc k (l ++ l') = assoc k l'.
Proof. intros E. rewrite assoc_app, E. reflexivity. Qed.
Lemma dump_assoc a k : tidy a -> k <> "dims"%string -> assoc k (d_vals (dump a)) = value_of a k.
Proof.
  intros T K. rewrite value_assoc, <- default_of_spec. unfold dump. cbn [d_vals]. rewrite !assoc_app.
  assert (E1 : assoc k (map (fun e => (fst e, match assoc (fst e) (a_vals a) with Some v => v | None => snd e end)) field_defaults) =
    match assoc k field_defaults with Some d => Some (match assoc k (a_vals a) with Some v => v | None => d end) | None => None end).
  { generalize field_defaults as l. induction l as [|(n & d) l IH]; [reflexivity|]. cbn [map assoc fst snd].
    destruct (String.eqb_spec k n) as [->|]; [reflexivity|exact IH]. }
  rewrite E1. destruct (assoc k field_defaults) as [d|] eqn:D; [destruct (assoc k (a_vals a)); reflexivity|].
  rewrite (assoc_filter (fun n => negb (has_key n field_defaults))). apply assoc_None in D. apply has_key_false in D. rewrite D. cbn [negb].
  destruct (assoc k (a_vals a)); [reflexivity|]. cbn [assoc]. destruct (String.eqb_spec k "dims"); [contradiction|reflexivity].
Qed.
Lemma dump_dims a : tidy a -> assoc "dims"%string (d_vals (dump a)) = Some (AStr (a_dims a)).
Proof.
  intros T. unfold dump. cbn [d_vals]. rewrite app_assoc, assoc_none_app; [reflexivity|]. apply assoc_None. rewrite map_app, in_app_iff.
  intros [H|H]; [cbn in H; intuition congruence|]. apply in_filter_fst in H. apply (proj1 (t_own _ T)). exact H.
Qed.
Lemma dump_good a : tidy a -> (forall k, In k (map fst (a_vals a)) -> apart (names_of a) k) -> clear_names a -> a_dims a <> EmptyString ->
  good (names_of a) (dump a).
Proof.
  intros T Ap Cl Dn. destruct (full_coords_good a T) as (C1 & C2 & C3).
  assert (I : forall k, In k (map fst (d_vals (dump a))) -> k = "dims"%string \/ In k (map fst field_defaults) \/ In k (map fst (a_vals a))).
  { intros k. unfold dump. cbn [d_vals]. rewrite !map_app, !in_app_iff, map_fst_any. intros [H|[H|[H|[]]]]; [auto|right; right; now apply in_filter_fst in H|auto]. }
  constructor; unfold coords_of; change (d_coords (dump a)) with (Some (CDict (full_coords a))); cbn [coval_dict]; try assumption.
  - unfold dump. cbn [d_vals]. rewrite !map_app, map_fst_any. apply NoDup_app'; [cbn; repeat constructor; cbn; intuition congruence| |].
    + apply NoDup_app'; [apply NoDup_filter_fst, (t_keys _ T)|repeat constructor; auto|].
      intros k K [<-|[]]. apply in_filter_fst in K. now apply (proj1 (t_own _ T)).
    + intros k K H. apply in_app_iff in H. destruct H as [H|[<-|[]]]; [|cbn in K; intuition congruence].
      apply in_map_iff in H. destruct H as (e & <- & H). apply filter_In in H. destruct H as (_ & H). apply has_key_spec in K. rewrite K in H. discriminate.
  - intros k K N. destruct (I k K) as [H|[H|H]]; [contradiction|apply Cl; exact H|now apply Ap].
  - intros H. destruct (I _ H) as [Q|[Q|Q]]; [discriminate|cbn in Q; intuition congruence|now apply (proj2 (t_own _ T))].
  - discriminate.
  - right. exists (AStr (a_dims a)), (dim_tuple a). split; [now apply dump_dims|]. split; [|apply dims_in_names].
    split; [exact Dn|apply (dim_tuple_ne a Dn)].
Qed.
Theorem rebuild_dump a : family [a] -> clear_names a -> a_dims a <> EmptyString ->
  exists r, mk_attrs (dump a) = Ok r /\ same_attrs a r.
Proof.
  intros F Cl Dn. assert (T : tidy a) by (apply F; now left).
  assert (Ap : forall k, In k (map fst (a_vals a)) -> apart (names_of a) k) by (intros k K; apply (proj2 F a a); [now left|now left|exact K]).
  destruct (rebuild_from a (dump a) summ_dict (fair_of a T) (dump_good a T Ap Cl Dn) Dn eq_refl) as (r & E & V & D & C).
  - intros (n & s) I. apply mk_summ_dict. apply (t_summ _ T n s I).
  - left. now apply dump_dims.
  - exists r. split; [exact E|]. constructor; [|exact D|exact C]. intros k K. rewrite (V k K). unfold eff. rewrite (dump_assoc a k T K).
    destruct (value_of a k) as [v|] eqn:Ev; [reflexivity|]. rewrite value_assoc in Ev. rewrite default_of_spec. now destruct (assoc k (a_vals a)).
Qed.

(** ** update with plain attributes *)
Lemma quiet_coord_str k : quiet k -> coord_str k = false.
Proof.
  intros Q. apply Bool.not_true_iff_false. unfold coord_str. rewrite existsb_exists. intros (f & If & C). apply str_contains_spec in C.
  now apply (Q f If).
Qed.
Lemma potential_nil keys : (forall k, In k keys -> coord_str k = false) -> potential_keys keys = [].
Proof.
  unfold potential_keys. intros H. assert (G : forall m, fold_left (fun m k => if coord_str k then add_word (word0 k) (word1 k) m else m) keys m = m).
  { induction keys as [|k t IH]; intros m; [reflexivity|]. cbn [fold_left]. rewrite (H k (or_introl eq_refl)). apply IH. intros x X. apply H. now right. }
  apply G.
Qed.
Lemma merge_assoc new : forall base k, NoDup (map fst new) ->
  assoc k (merge_fields new base) = match assoc k new with Some v => Some v | None => assoc k base end.
Proof.
  unfold merge_fields. induction new as [|(j & w) new IH]; intros base k ND; [reflexivity|]. cbn [fold_left fst snd map] in *. inversion ND; subst.
  rewrite IH by assumption. cbn [assoc]. rewrite assoc_assoc_set. destruct (String.eqb_spec k j) as [->|N].
  - assert (Z : assoc j new = None) by now apply assoc_None. now rewrite Z.
  - reflexivity.
Qed.
Lemma merge_keys new : forall base k, In k (map fst (merge_fields new base)) <-> In k (map fst new) \/ In k (map fst base).
Proof.
  unfold merge_fields. induction new as [|(j & w) new IH]; intros base k; cbn [fold_left fst snd map In]; [tauto|].
  rewrite IH, In_assoc_set. intuition congruence.
Qed.
Lemma merge_nodup new : forall base, NoDup (map fst base) -> NoDup (map fst (merge_fields new base)).
Proof.
  unfold merge_fields. induction new as [|(j & w) new IH]; intros base ND; cbn [fold_left fst snd]; [exact ND|]. apply IH. now apply NoDup_assoc_set.
Qed.
Lemma set_good a vals cs : tidy a -> NoDup (map fst vals) ->
  (forall k, In k (map fst vals) -> k <> "dims"%string -> apart (names_of a) k) -> ~ In "coords"%string (map fst vals) ->
  (exists v ds, assoc "dims"%string vals = Some v /\ dims_val v ds /\ incl ds (names_of a)) ->
  (forall n m, In (n, m) cs -> entry_ok m) -> map fst cs = map fst (a_coords a) ->
  good (names_of a) (mkDict vals (Some (CDict cs))).
Proof.
  intros T ND Ap Nc Dv En Fs. constructor; cbn [d_vals d_coords coords_of coval_dict]; auto; unfold coords_of; cbn [d_coords coval_dict]; try assumption.
  - discriminate.
  - rewrite Fs. intros n N. unfold names_of. apply in_app_iff. now left.
  - rewrite Fs. apply (t_coords _ T).
Qed.
Lemma dump_set_assoc a k : tidy a -> assoc k (d_vals (dump_set a)) = if String.eqb k "dims" then Some (AStr (a_dims a)) else assoc k (a_vals a).
Proof.
  intros T. unfold dump_set. cbn [d_vals]. rewrite assoc_app. destruct (String.eqb_spec k "dims") as [->|N].
  - assert (Z : assoc "dims"%string (a_vals a) = None) by (apply assoc_None, (proj1 (t_own _ T))). now rewrite Z.
  - destruct (assoc k (a_vals a)); [reflexivity|]. cbn [assoc]. destruct (String.eqb_spec k "dims"); [contradiction|reflexivity].
Qed.
Lemma dump_set_nodup a : tidy a -> NoDup (map fst (d_vals (dump_set a))).
Proof.
  intros T. unfold dump_set. cbn [d_vals]. rewrite map_app. apply NoDup_app'; [apply (t_keys _ T)|repeat constructor; auto|].
  intros k K [<-|[]]. now apply (proj1 (t_own _ T)).
Qed.

Lemma separate_same req vals dims nd : info_dims req (mkDict vals None) = Ok nd -> nd = [] \/ nd = dims ->
  (exists d, In d dims /\ ~ In d (map fst vals)) ->
  separate req (mkDict vals None) (Some dims) =
    let out := fold_left (add_flat req (mkDict vals None)) dims [] in
    let v := pop_keys out vals in
    Ok (out, if has_key "dims"%string v then v else assoc_set "dims"%string (ASeq dims) v).
Proof.
  intros I Nd (d & D1 & D2). unfold separate. rewrite I. cbn [bind d_vals d_coords].
  assert (Ch : match nd with [] => false | _ :: _ => negb (strs_eqb nd dims) end = false).
  { destruct Nd as [-> | ->]; [reflexivity|]. destruct dims; [reflexivity|]. assert (Q : strs_eqb (s :: dims) (s :: dims) = true) by now apply strs_eqb_eq.
    now rewrite Q. }
  rewrite Ch. cbn [d_vals d_coords nested_info].
  assert (SB : subset dims (map fst vals ++ []) = false).
  { rewrite app_nil_r. apply Bool.not_true_iff_false. unfold subset. rewrite forallb_forall. intros H. apply D2, mem_In', H, D1. }
  rewrite SB. destruct dims as [|h t]; [destruct D1|]. reflexivity.
Qed.
Theorem update_plain a kvs : family [a] -> a_dims a <> EmptyString -> NoDup (map fst kvs) ->
  (forall k, In k (map fst kvs) -> quiet k /\ apart (names_of a) k /\ k <> "dims"%string /\ k <> "coords"%string) ->
  exists r, attrs_update a (mkDict kvs None) = Ok r
    /\ (forall k, k <> "dims"%string -> value_of r k = match assoc k kvs with Some v => Some v | None => value_of a k end)
    /\ a_dims r = a_dims a /\ a_coords r = a_coords a.
Proof.
  intros F Dn ND Q. assert (T : tidy a) by (apply F; now left).
  assert (Ap : forall k, In k (map fst (a_vals a)) -> apart (names_of a) k) by (intros k K; apply (proj2 F a a); [now left|now left|exact K]).
  destruct (dim_tuple_ne a Dn) as (Dt & Dne).
  assert (Nd : ~ In "dims"%string (map fst kvs)) by (intros H; destruct (Q _ H) as (_ & _ & X & _); now apply X).
  assert (Nc : ~ In "coords"%string (map fst kvs)) by (intros H; destruct (Q _ H) as (_ & _ & _ & X); now apply X).
  assert (Zd : assoc "dims"%string kvs = None) by now apply assoc_None.
  assert (S : separate [] (mkDict kvs None) (Some (dim_tuple a)) = Ok ([], kvs ++ [("dims"%string, ASeq (dim_tuple a))])).
  { rewrite (separate_same [] kvs (dim_tuple a) []).
    2:{ unfold info_dims. cbn [d_coords d_vals]. rewrite Zd. rewrite potential_nil; [reflexivity|]. intros k K. apply quiet_coord_str, (Q k K). }
    2:{ now left. }
    2:{ destruct (dim_tuple a) as [|h t] eqn:E; [congruence|]. exists h. split; [now left|]. intros M.
        destruct (Q h M) as (_ & (_ & A) & _). destruct (A h) as (A1 & _); [apply dims_in_names; rewrite E; now left|].
        apply A1. exists EmptyString. now rewrite append_nil_r'. }
    assert (FL : forall l out, incl l (names_of a) -> fold_left (add_flat [] (mkDict kvs None)) l out = out).
    { induction l as [|d l IH]; intros out Il; cbn [fold_left]; [reflexivity|]. unfold add_flat at 2. rewrite flat_info_nil.
      - cbn [map meets_required]. apply IH. intros x X. apply Il. now right.
      - cbn [d_vals]. intros k K _. destruct (Q k K) as (_ & (_ & A) & _). apply A. apply Il. now left. }
    rewrite FL by apply dims_in_names. unfold pop_keys. cbn [fold_left].
    assert (HK : has_key "dims"%string kvs = false) by now apply has_key_false.
    rewrite HK. rewrite assoc_set_new by exact Nd. reflexivity. }
  assert (ND' : NoDup (map fst (kvs ++ [("dims"%string, ASeq (dim_tuple a))]))).
  { rewrite map_app. apply NoDup_app'; [exact ND|repeat constructor; auto|]. intros k K [<-|[]]. now apply Nd. }
  unfold attrs_update. rewrite S. cbn [bind d_coords fold_left].
  change (match d_coords (dump_set a) with Some c => coval_dict c | None => [] end) with (full_coords a).
  set (vals := merge_fields _ _).
  assert (Av : forall k, assoc k vals = match assoc k (kvs ++ [("dims"%string, ASeq (dim_tuple a))]) with Some v => Some v | None => assoc k (d_vals (dump_set a)) end).
  { intros k. unfold vals. now apply merge_assoc. }
  destruct (full_coords_good a T) as (C1 & C2 & C3).
  assert (Ad : assoc "dims"%string vals = Some (ASeq (dim_tuple a))) by (rewrite Av, assoc_app, Zd; reflexivity).
  destruct (rebuild_from a (mkDict vals (Some (CDict (full_coords a)))) summ_dict (fair_of a T)) as (r & E & V & D & C).
  - apply set_good; [exact T|apply merge_nodup, dump_set_nodup, T| | | |exact C1|apply map_fst_map].
    + intros k K N. apply merge_keys in K. rewrite map_app, in_app_iff in K. destruct K as [[K|[K|[]]]|K]; [apply (Q k K)|cbn in K; congruence|].
      unfold dump_set in K. cbn [d_vals] in K. rewrite map_app, in_app_iff in K. destruct K as [K|[K|[]]]; [now apply Ap|cbn in K; congruence].
    + intros K. apply merge_keys in K. rewrite map_app, in_app_iff in K. destruct K as [[K|[K|[]]]|K]; [now apply Nc|discriminate|].
      unfold dump_set in K. cbn [d_vals] in K. rewrite map_app, in_app_iff in K. destruct K as [K|[K|[]]]; [now apply (proj2 (t_own _ T))|discriminate].
    + exists (ASeq (dim_tuple a)), (dim_tuple a). split; [exact Ad|]. split; [now split|apply dims_in_names].
  - exact Dn.
  - reflexivity.
  - intros (n & s) I. apply mk_summ_dict. apply (t_summ _ T n s I).
  - right. exact Ad.
  - exists r. split; [exact E|]. split; [|split; [exact D|exact C]]. intros k K. rewrite (V k K). unfold eff. cbn [d_vals]. rewrite Av, assoc_app.
    destruct (assoc k kvs); [reflexivity|]. cbn [assoc]. destruct (String.eqb_spec k "dims"); [contradiction|].
    rewrite dump_set_assoc by exact T. destruct (String.eqb_spec k "dims"); [contradiction|]. rewrite value_assoc, default_of_spec. reflexivity.
Qed.

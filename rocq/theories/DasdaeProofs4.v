(** DASDAE files: the coordinates read from the group of one patch. *)
From Verif Require Import Base BaseFacts CoordModel CoordSpec CoordProofs CoordProofs2 NdModel NdSpec FrameModel FrameProofs5 ChunkModel CmModel CmSpec CmProofs CmProofs2 CmProofs5
  AttrsModel AttrsSpec AttrsProofs AttrsProofs2 AttrsProofs8 AttrsProofs9 AttrsProofs11 HistoryProofs4 FourierProofs2 MergeProofs6
  DasdaeModel DasdaeSpec DasdaeProofs DasdaeProofs2 DasdaeProofs3.
From Coq Require Import Strings.String Strings.Ascii Permutation Sorted.
From Coq Require Import ZifyBool Lia.
Local Open Scope Z_scope.
Local Open Scope list_scope.

(** ** One coordinate *)
Lemma get_coord_stable k v c : get_coord_data k v = Ok c -> v <> [] ->
  recf (M1 c) = M1 c /\ c_kind c = k /\ concrete c /\ c_len c = zlen v /\ represents c v /\ wf_coord c /\
  (forall k' v', c = CMono k' v' \/ c = CArr k' v' -> k' = k /\ v' = v).
Proof.
  intros E N. destruct (get_coord_represents k v) as (c0 & E0 & R & W). assert (c0 = c) by congruence. subst c0. clear E0.
  pose proof (get_coord_cases k v) as C. destruct v as [|x0 [|x1 t]]; [contradiction| |].
  - assert (c = CMono k [x0]) by congruence. subst c. cbn in *. do 4 (split; [reflexivity || exact I|]). do 2 (split; [assumption|]).
    intros k' v' [H|H]; [|discriminate]. injection H as <- <-. auto.
  - set (v := x0 :: x1 :: t) in *. destruct C as [(_ & E')|[(_ & E' & _)|(_ & _ & s & _ & _ & _ & E')]].
    + assert (c = CArr k v) by congruence. subst c. unfold recf. cbn [recoord]. rewrite E. cbn [bind]. do 4 (split; [reflexivity || exact I|]). do 2 (split; [assumption|]).
      intros k' v' [H|H]; [discriminate|]. inversion H. auto.
    + assert (c = CMono k v) by congruence. subst c. unfold recf. cbn [recoord]. rewrite E. cbn [bind]. do 4 (split; [reflexivity || exact I|]). do 2 (split; [assumption|]).
      intros k' v' [H|H]; [|discriminate]. inversion H. auto.
    + assert (c = CRange (mkRange k x0 (x0 + s * zlen v) s (zlen v))) by congruence. subst c. do 4 (split; [reflexivity || exact I|]). do 2 (split; [assumption|]).
      intros k' v' [H|H]; discriminate.
Qed.

Record restored (m m' : mcoord) : Prop :=
  { rs_re : reread m m'; rs_rec : recf m' = m'; rs_ok : okm m'; rs_shape : m_shape m' = m_shape m;
    rs_exact : inferred m -> m' = m; rs_null : placeholder m' -> placeholder m; rs_one : one_sample m' -> one_sample m }.

Lemma read_array k v step c0 : v <> [] -> (zlen v = 1 -> step = ANone) -> c0 = CMono k v \/ c0 = CArr k v ->
  exists m', read_coord (A1 k v) step = Ok m' /\ restored (M1 c0) m'.
Proof.
  intros N St C0. destruct (get_coord_represents k v) as (c & E & R & W). exists (M1 c). split.
  - destruct v as [|x [|y t]]; [contradiction| |]; cbn [read_coord]; [rewrite St by reflexivity|]; rewrite E; reflexivity.
  - destruct (get_coord_stable k v c E N) as (Rc & K & Cc & L & _ & _ & X). assert (L0 : c_len c0 = zlen v) by (destruct C0 as [-> | ->]; reflexivity).
    constructor; [|exact Rc|now apply wf_okc|cbn [m_shape]; congruence| | |].
    + destruct C0 as [-> | ->]; cbn [reread]; exists c; auto.
    + assert (In : inferred (M1 c0) -> exists k' v', get_coord_data k' v' = Ok c0) by (destruct C0 as [-> | ->]; auto). intros I. destruct (In I) as (k' & v' & E').
      assert (Nv : v' <> []) by (intros ->; cbn in E'; destruct C0; subst; discriminate). destruct (get_coord_stable k' v' c0 E' Nv) as (_ & _ & _ & _ & _ & _ & X').
      destruct (X' k v C0) as (-> & ->). congruence.
    + destruct c; cbn in *; tauto.
    + intros (r & Q & L1). exfalso. injection Q as ->. cbn [c_len] in L. destruct v as [|x [|y t]]; [contradiction|discriminate|]. rewrite !zlen_cons in L. pose proof (zlen_nonneg t). lia.
Qed.
Lemma read_stored m u step : wf_mcoord m -> m_shape m <> [] -> (placeholder m -> nth_error (m_shape m) 0 <> Some 1) ->
  (step = s_step (m_summ m u) \/ (step = ANone /\ ~ one_sample m)) ->
  exists m', read_coord (m_stored m) step = Ok m' /\ restored m m'.
Proof.
  intros W Sh P St. destruct m as [[r|k v|k v|n]|k a|s]; cbn [m_stored c_kind c_ints].
  - cbn [wf_mcoord wf_coord] in W. pose proof W as (Hs & Hn & Hst). exists (M1 (CRange r)). split.
    + destruct (Z.eq_dec (r_len r) 1) as [L1|L1].
      * assert (r_values r = [r_start r]) as -> by (unfold r_values; now rewrite L1). destruct St as [-> |(_ & N)]; [|exfalso; apply N; exists r; auto].
        cbn [m_summ s_step read_coord]. unfold get_coord_one. replace (r_start r + r_step r) with (r_start r + r_step r * 1) by lia. rewrite mk_range_exact by lia. cbn [bind].
        destruct r as [rk ra rb rs rn]. cbn in *. subst rn. do 4 f_equal. lia.
      * assert (E : get_coord_data (r_kind r) (r_values r) = Ok (CRange r)).
        { rewrite r_values_prog by exact W. rewrite get_coord_even by lia. destruct r as [rk ra rb rs rn]. cbn in *. do 3 f_equal. lia. }
        assert (L : zlen (r_values r) = r_len r) by (rewrite r_values_prog by exact W; rewrite zlen_progression; lia).
        destruct (r_values r) as [|x [|y t]]; [rewrite zlen_nil in L; lia|rewrite zlen_cons, zlen_nil in L; lia|]. cbn [read_coord]. rewrite E. reflexivity.
    + constructor; cbn [okm okc]; auto. cbn [reread]. exists (CRange r). do 3 (split; [reflexivity || exact I|]). apply represents_exact. reflexivity.
  - apply read_array; [apply W| |now left]. intros _. destruct St as [-> |(-> & _)]; reflexivity.
  - apply read_array; [apply W| |now right]. intros _. destruct St as [-> |(-> & _)]; reflexivity.
  - exists (M1 (CPart n)). split.
    + cbn [read_coord]. destruct (Z.eqb_spec n 1) as [->|]; [|reflexivity]. exfalso. now apply P.
    + constructor; cbn [okm okc]; auto; reflexivity.
  - cbn [wf_mcoord] in W. destruct W as (Wn & L & Sz). exists (MN k a). assert (G : get_coord_nd k a = MN k a) by (unfold get_coord_nd; destruct (Z.eqb_spec (size (nd_shape a)) 0); [lia|reflexivity]). split.
    + cbn [read_coord]. cbn [m_shape] in Sh. destruct (nd_shape a) as [|n0 s0]; [contradiction|]. assert (is_null step = true) as -> by (destruct St as [-> |(-> & _)]; reflexivity).
      cbn [negb]. rewrite andb_false_r. now rewrite G.
    + assert (Rc : recf (MN k a) = MN k a) by (unfold recf; cbn [recoord]; now rewrite G). constructor; cbn [okm]; auto; try reflexivity.
  - cbn [wf_mcoord] in W. destruct W as (Fs & L). exists (MNP s). split.
    + cbn [read_coord m_shape] in *. destruct s as [|n0 [|n1 s]]; [contradiction|now elim L|]. destruct (Z.eqb_spec n0 1) as [->|]; [|reflexivity]. exfalso. now apply P.
    + constructor; cbn [okm]; auto; reflexivity.
Qed.

(** ** Reading units and steps from the attributes *)
Lemma split_more c s r : exists h t, str_split c (s ++ String c r) = h :: t /\ (List.length (str_split c (s ++ String c r)) = List.length (str_split c s) + List.length (str_split c r))%nat.
Proof.
  induction s as [|x s IH].
  - cbn [append str_split]. rewrite Ascii.eqb_refl. eexists _, _. split; [reflexivity|]. reflexivity.
  - cbn [append str_split]. destruct IH as (h & t & E & L). rewrite E in *. destruct (str_split_cons c s) as (h' & t' & E'). rewrite E' in *.
    destruct (Ascii.eqb x c); eexists _, _; (split; [reflexivity|]); cbn [List.length] in *; lia.
Qed.
Lemma split_three n f : contains "_" n -> (3 <= List.length (str_split "_" (n ++ "_" ++ f)))%nat.
Proof.
  intros (a & b & ->). cbn [append]. destruct (split_more "_" (a ++ String "_" b) f) as (h & t & _ & ->).
  destruct (split_more "_" a b) as (h' & t' & _ & ->). destruct (str_split_cons "_" a) as (x1 & x2 & ->). destruct (str_split_cons "_" b) as (y1 & y2 & ->).
  destruct (str_split_cons "_" f) as (z1 & z2 & ->). cbn [List.length]. lia.
Qed.

Section Coords.
Context {A : Type}.
Implicit Types p : dpatch A.

Record like p (a : attrs) : Prop :=
  { lk_same : same_attrs (dp_attrs p) a;
    lk_nodup : NoDup (map fst (a_vals a));
    lk_keys : forall k, In k (map fst (a_vals a)) <-> In k (map fst (a_vals (dp_attrs p))) }.
Definition names p : list string := map fst (cm_coords (dp_cm p)).

Lemma sums_keys cm us : map fst (cm_sums cm us) = map fst (cm_coords cm).
Proof. unfold cm_sums. rewrite map_map. reflexivity. Qed.
Lemma sums_assoc cm us n : assoc n (cm_sums cm us) = match assoc n (cm_coords cm) with Some m => Some (m_summ m (unit_in us n)) | None => None end.
Proof.
  unfold cm_sums. induction (cm_coords cm) as [|(j & m) l IH]; [reflexivity|]. cbn [map assoc fst snd]. destruct (String.eqb_spec n j) as [->|]; [reflexivity|exact IH].
Qed.
Lemma name_in p n : storable p -> In n (names p) -> In n (names_of (dp_attrs p)).
Proof. intros S I. unfold names_of. apply in_app_iff. left. rewrite (st_sums _ S), sums_keys. exact I. Qed.
Lemma no_field p a n f : storable p -> like p a -> In n (names p) -> value_of a (n ++ "_" ++ f) = None.
Proof.
  intros S L I. pose proof (name_in p n S I) as In'. rewrite value_assoc.
  assert (St : starts n (n ++ "_" ++ f)) by (exists ("_" ++ f)%string; reflexivity).
  assert (assoc (n ++ "_" ++ f)%string (a_vals a) = None) as ->.
  { apply assoc_None. rewrite (lk_keys _ _ L). intros K. destruct (proj2 (st_family _ S) (dp_attrs p) (dp_attrs p) _ (or_introl eq_refl) (or_introl eq_refl) K) as (_ & Q).
    now apply (proj1 (Q n In')). }
  assert (D : forall k, In k ["data_type"; "data_category"; "data_units"; "instrument_id"; "acquisition_id"; "tag"; "station"; "network"; "history"]%string -> (n ++ "_" ++ f)%string <> k).
  { intros k K <-. destruct (st_clear _ S _ K) as (_ & Q). now apply (proj1 (Q n In')). }
  set (k := (n ++ "_" ++ f)%string) in *. clearbody k. unfold default_of. cbn [existsb].
  repeat match goal with |- context [(k =? ?x)%string] => destruct (String.eqb_spec k x); [exfalso; apply (D x); [cbn; tauto|assumption]|] end. reflexivity.
Qed.

Definition stp p n : scal := if str_contains "_" n then ANone else match assoc n (cm_coords (dp_cm p)) with Some m => s_step (m_summ m ANone) | None => ANone end.
Definition rd p n : mcoord :=
  match assoc n (cm_coords (dp_cm p)) with
  | Some m => match read_coord (m_stored m) (stp p n) with Ok m' => m' | Err _ => m end
  | None => MNP []
  end.
Lemma step_unit m u u' : s_step (m_summ m u) = s_step (m_summ m u').
Proof. destruct m as [[]| |]; reflexivity. Qed.
Lemma own_spec p n m : storable p -> assoc n (cm_coords (dp_cm p)) = Some m ->
  assoc n (cm_dmap (dp_cm p)) = Some (own p n) /\ own p n <> [] /\ (forall d, In d (own p n) -> In d (cm_dims (dp_cm p))) /\ Forall2 (dim_len (dp_cm p)) (own p n) (m_shape m).
Proof.
  intros S E. destruct (wf_lookup _ n m (wp_cm _ (st_patch _ S)) E) as (ds & D & I & F). fold (dp_cm p) in D, I, F. unfold own. rewrite D.
  pose proof (st_owned _ S n ds D) as N. destruct F as [F|F]; [contradiction|]. auto.
Qed.
Lemma rd_spec p n m : storable p -> assoc n (cm_coords (dp_cm p)) = Some m -> read_coord (m_stored m) (stp p n) = Ok (rd p n) /\ restored m (rd p n).
Proof.
  intros S E. destruct (own_spec p n m S E) as (_ & No & _ & F).
  destruct (read_stored m ANone (stp p n)) as (m' & R & X).
  - apply (wf_vals _ (wp_cm _ (st_patch _ S)) n m E).
  - intros Z. rewrite Z in F. inversion F. congruence.
  - intros P. apply (st_part _ S n m E P).
  - unfold stp. rewrite E. destruct (str_contains "_" n) eqn:Q; [|now left]. apply str_contains_spec in Q. right. split; [reflexivity|].
    destruct (st_told _ S n m E) as [(C & _)|(_ & _ & N)]; [contradiction|exact N].
  - unfold rd. rewrite E, R. auto.
Qed.
Lemma told p a n m : storable p -> like p a -> assoc n (cm_coords (dp_cm p)) = Some m ->
  attr_or_none a (n ++ "_units") = Ok (unit_in (dp_units p) n) /\ attr_or_none a (n ++ "_step") = Ok (stp p n).
Proof.
  intros S L E. assert (I : In n (names p)) by (apply assoc_In; eauto). unfold stp. rewrite E. destruct (st_told _ S n m E) as [(C & Nd)|(C & U & _)].
  - assert (As : assoc n (a_coords a) = Some (m_summ m (unit_in (dp_units p) n))) by (rewrite (sa_coords _ _ (lk_same _ _ L)), (st_sums _ S), sums_assoc, E; reflexivity).
    assert (Q : str_contains "_" n = false). { destruct (str_contains "_" n) eqn:Q; [|reflexivity]. apply str_contains_spec in Q. contradiction. }
    rewrite Q. unfold attr_or_none. split.
    + change (n ++ "_units")%string with (n ++ "_" ++ "units")%string. rewrite (read_field a n _ "units" C Nd ltac:(cbn; tauto) (no_field p a n "units" S L I) As).
      cbn [field_of String.eqb]. change (field_of (m_summ m (unit_in (dp_units p) n)) "units") with (s_units (m_summ m (unit_in (dp_units p) n))).
      f_equal. pose proof (st_part _ S n m E) as P. destruct m as [[]| |]; cbn [m_summ s_units]; try reflexivity; symmetry; now apply P.
    + change (n ++ "_step")%string with (n ++ "_" ++ "step")%string. rewrite (read_field a n _ "step" C Nd ltac:(cbn; tauto) (no_field p a n "step" S L I) As).
      f_equal. change (field_of (m_summ m (unit_in (dp_units p) n)) "step") with (s_step (m_summ m (unit_in (dp_units p) n))). apply step_unit.
  - assert (Q : str_contains "_" n = true) by now apply str_contains_spec. rewrite Q, U.
    assert (G : forall f, attr_or_none a (n ++ "_" ++ f) = Ok ANone).
    { intros f. unfold attr_or_none, attr_read. rewrite attr_get_value, (no_field p a n f S L I). unfold split_us. pose proof (split_three n f C) as T.
      destruct (str_split "_" (n ++ "_" ++ f)) as [|x1 [|x2 [|x3 t]]]; cbn [List.length] in T; try lia. reflexivity. }
    split; [exact (G "units"%string)|exact (G "step"%string)].
Qed.
Lemma load_one p a n : storable p -> like p a -> In n (names p) -> load_coord (fresh p) a ("_coord_" ++ n) = Ok (n, (rd p n, unit_in (dp_units p) n)).
Proof.
  intros S L I. assert (E := I). apply assoc_In in E. destruct E as (m & E). unfold load_coord. rewrite strip_prefix; [|discriminate|apply (st_names _ S n I)].
  cbn [fresh g_arrays].
  assert (X : assoc ("_coord_" ++ n)%string (coord_arrays p) = Some (m_stored m)).
  { apply in_assoc; [now apply arrays_nodup|]. unfold coord_arrays. apply in_map_iff. exists (n, m). split; [reflexivity|now apply assoc_in]. }
  rewrite X. destruct (told p a n m S L E) as (-> & ->). cbn [bind]. destruct (rd_spec p n m S E) as (-> & _). reflexivity.
Qed.

Lemma coord_keys p : storable p -> exists ns, keys_with "_coord_" (coord_arrays p) = map (append "_coord_") ns /\ NoDup ns /\ (forall n, In n ns <-> In n (names p)).
Proof.
  intros S. destruct (strip_keys "_coord_" (keys_with "_coord_" (coord_arrays p)) (names p)) as (ns & E & ND & I & _); [discriminate|apply keys_with_nodup, arrays_nodup, S| | |eauto].
  - intros k K. apply (st_names _ S k K).
  - intros x. rewrite keys_with_In, arrays_keys. split.
    + intros (H & _). apply in_map_iff in H. destruct H as (k & <- & K). exists k. auto.
    + intros (k & -> & K). split; [now apply in_map|]. exists k. reflexivity.
Qed.
Lemma cdim_keys p : storable p -> exists ns, keys_with "_cdims" (entries p) = map (append "_cdims_") ns /\ NoDup ns /\ (forall n, In n ns <-> In n (names p)).
Proof.
  intros S. destruct (strip_keys "_cdims_" (keys_with "_cdims" (entries p)) (names p)) as (ns & E & ND & I & _); [discriminate|apply keys_with_nodup, entries_nodup, S| | |eauto].
  - intros k K. apply (st_names _ S k K).
  - intros x. rewrite keys_with_In, entries_keys, !in_app_iff. split.
    + intros ([H|[[<-|[]]|H]] & St).
      * apply in_map_iff in H. destruct H as (k & <- & _). apply str_prefix_starts in St. discriminate.
      * apply str_prefix_starts in St. discriminate.
      * apply in_map_iff in H. destruct H as (k & <- & K). exists k. auto.
    + intros (k & -> & K). split; [right; right; now apply in_map|]. exists ("_" ++ k)%string. reflexivity.
Qed.
Definition loaded p ns : list (string * (mcoord * scal)) := map (fun n => (n, (rd p n, unit_in (dp_units p) n))) ns.
Lemma loaded_assoc p ns n : NoDup ns -> In n ns -> assoc n (loaded p ns) = Some (rd p n, unit_in (dp_units p) n).
Proof. intros ND I. apply in_assoc; [unfold loaded; rewrite map_map, map_id; exact ND|]. unfold loaded. apply in_map_iff. eauto. Qed.
Lemma load_coords_fresh p a : storable p -> like p a -> exists ns, load_coords (fresh p) a = Ok (loaded p ns) /\ NoDup ns /\ (forall n, In n ns <-> In n (names p)).
Proof.
  intros S L. destruct (coord_keys p S) as (ns & E & ND & I). exists ns. split; [|auto]. unfold load_coords. cbn [fresh g_arrays]. rewrite E.
  rewrite (map_result_map _ (fun k => let n := str_replace "_coord_" EmptyString k in (n, (rd p n, unit_in (dp_units p) n)))).
  - cbn [bind]. f_equal. rewrite map_map.
    rewrite (map_ext_in _ (fun n => (n, (rd p n, unit_in (dp_units p) n)))).
    2:{ intros n N. cbv beta zeta. rewrite strip_prefix; [reflexivity|discriminate|]. apply (st_names _ S). now apply I. }
    fold (loaded p ns). apply put_self. unfold loaded. rewrite map_map, map_id. exact ND.
  - intros k K. apply in_map_iff in K. destruct K as (n & <- & N). apply I in N. cbv zeta. rewrite strip_prefix; [|discriminate|apply (st_names _ S n N)].
    now apply load_one.
Qed.
Lemma load_dims_one p ns n : storable p -> NoDup ns -> In n ns -> In n (names p) ->
  load_dims (fresh p) (loaded p ns) ("_cdims_" ++ n) = Ok (n, KTuple (own p n) (VCoord (rd p n))).
Proof.
  intros S ND In1 I. assert (E := I). apply assoc_In in E. destruct E as (m & E). unfold load_dims. rewrite strip_prefix; [|discriminate|apply (st_names _ S n I)]. cbn [fresh g_attrs].
  assert (X : assoc ("_cdims_" ++ n)%string (entries p) = Some (SVal (AStr (str_join "," (own p n))))).
  { apply in_assoc; [now apply entries_nodup|]. unfold entries. apply in_app_iff. right. unfold cdims. apply in_map_iff. exists (n, m). split; [reflexivity|now apply assoc_in]. }
  rewrite X, loaded_assoc by assumption. destruct (own_spec p n m S E) as (_ & No & Sub & _). do 3 f_equal. apply split_join; [exact No|].
  intros d D. destruct (dim_tuple_ne _ (st_some _ S)) as (Dt & _). apply (split_clean _ (a_dims (dp_attrs p))). rewrite <- Dt, (st_dims _ S). now apply Sub.
Qed.
Definition kws p ns : list (string * kval) := map (fun n => (n, KTuple (own p n) (VCoord (rd p n)))) ns.
Lemma kws_assoc p ns n : NoDup ns -> assoc n (kws p ns) = if mem n ns then Some (KTuple (own p n) (VCoord (rd p n))) else None.
Proof.
  intros ND. destruct (mem n ns) eqn:M.
  - apply mem_In' in M. apply in_assoc; [unfold kws; rewrite map_map, map_id; exact ND|]. unfold kws. apply in_map_iff. eauto.
  - apply assoc_None. unfold kws. rewrite map_map, map_id. intros H. apply mem_In' in H. congruence.
Qed.
Lemma get_dims_fresh p : storable p -> get_dims (fresh p) = Ok (cm_dims (dp_cm p)).
Proof.
  intros S. destruct (dim_tuple_ne _ (st_some _ S)) as (Dt & Dn). unfold get_dims. cbn [fresh g_attrs].
  assert (X : assoc "_dims"%string (entries p) = Some (SVal (AStr (str_join "," (cm_dims (dp_cm p)))))).
  { apply in_assoc; [now apply entries_nodup|]. unfold entries, attr_entries. apply in_app_iff. left. apply in_app_iff. right. apply in_app_iff. right. now left. }
  rewrite X. rewrite <- (st_dims _ S), Dt, join_split. destruct (String.eqb_spec (a_dims (dp_attrs p)) EmptyString) as [Z|_]; [now elim (st_some _ S)|reflexivity].
Qed.

Record rebuilt_cm p (cm : cman) (us : list (string * scal)) : Prop :=
  { rc_wf : wf_cm cm; rc_dims : cm_dims cm = cm_dims (dp_cm p);
    rc_names : forall n, In n (map fst (cm_coords cm)) <-> In n (names p);
    rc_coords : forall n m, assoc n (cm_coords (dp_cm p)) = Some m -> assoc n (cm_coords cm) = Some (rd p n);
    rc_dmap : forall n, assoc n (cm_dmap cm) = assoc n (cm_dmap (dp_cm p));
    rc_units : forall n, In n (names p) -> unit_in us n = unit_in (dp_units p) n }.
Lemma get_coords_fresh p a : storable p -> like p a ->
  exists cm us, get_coords (fresh p) (cm_dims (dp_cm p)) a = Ok (cm, us) /\ rebuilt_cm p cm us.
Proof.
  intros S L. destruct (load_coords_fresh p a S L) as (ns & E & ND & I). destruct (cdim_keys p S) as (ks & Ek & NDk & Ik). unfold get_coords. rewrite E. cbn [bind fresh g_attrs].
  rewrite Ek. rewrite (map_result_map _ (fun k => let n := str_replace "_cdims_" EmptyString k in (n, KTuple (own p n) (VCoord (rd p n))))).
  2:{ intros k K. apply in_map_iff in K. destruct K as (n & <- & N). apply Ik in N. cbv zeta. rewrite strip_prefix; [|discriminate|apply (st_names _ S n N)].
      apply load_dims_one; auto. now apply I. }
  rewrite map_map. rewrite (map_ext_in _ (fun n => (n, KTuple (own p n) (VCoord (rd p n))))).
  2:{ intros n N. cbv beta zeta. rewrite strip_prefix; [reflexivity|discriminate|]. apply (st_names _ S). now apply Ik. }
  fold (kws p ks). cbn [bind]. rewrite put_self by (unfold kws; rewrite map_map, map_id; exact NDk).
  pose proof (wp_cm _ (st_patch _ S)) as W. fold (dp_cm p) in W.
  assert (Hit : forall n, In n (names p) -> assoc n (kws p ks) = Some (KTuple (own p n) (VCoord (rd p n)))).
  { intros n N. rewrite kws_assoc by exact NDk. now rewrite (proj2 (mem_In' n ks) (proj2 (Ik n) N)). }
  assert (Inv : forall n v, assoc n (kws p ks) = Some v -> In n (names p) /\ v = KTuple (own p n) (VCoord (rd p n))).
  { intros n v. rewrite kws_assoc by exact NDk. destruct (mem n ks) eqn:M; [|discriminate]. apply mem_In', Ik in M. intros Q. split; [exact M|congruence]. }
  assert (One : forall d k, dim_len (dp_cm p) d k -> assoc d (cm_dmap (dp_cm p)) = Some [d] -> exists c, assoc d (kws p ks) = Some (KTuple [d] (VCoord (M1 c))) /\ c_len c = k).
  { intros d k (c & Ec & Lc) Dm. destruct (rd_spec p d _ S Ec) as (_ & [_ _ _ Sh _ _ _]). rewrite Hit by (apply assoc_In; eauto).
    unfold own. rewrite Dm. destruct (rd p d) as [c'|kk aa|s] eqn:Er.
    - exists c'. split; [reflexivity|]. cbn [m_shape] in Sh. congruence.
    - exfalso. cbn [m_shape] in Sh. destruct (rd_spec p d _ S Ec) as (_ & R). pose proof (rs_ok _ _ R) as O. rewrite Er in O. cbn [okm] in O. destruct O as (_ & O). rewrite Sh in O. now apply O.
    - exfalso. cbn [m_shape] in Sh. destruct (rd_spec p d _ S Ec) as (_ & R). pose proof (rs_ok _ _ R) as O. rewrite Er in O. cbn [okm] in O. destruct O as (_ & O). rewrite Sh in O. now apply O. }
  assert (Fit : tuples_fit (kws p ks) (cm_dims (dp_cm p))).
  { constructor.
    - unfold kws. rewrite map_map, map_id. exact NDk.
    - apply (wf_dims _ W).
    - intros n v V. destruct (Inv n v V) as (N & ->). assert (E1 := N). apply assoc_In in E1. destruct E1 as (m & E1). destruct (own_spec p n m S E1) as (Dm & No & Sub & F).
      destruct (rd_spec p n m S E1) as (_ & R). exists (own p n), (rd p n). split; [reflexivity|]. split; [apply (rs_ok _ _ R)|]. split; [apply (wf_distinct _ W n _ Dm)|].
      split; [exact Sub|]. right. rewrite (rs_shape _ _ R). revert F. generalize (m_shape m). clear -Sub W One. induction (own p n) as [|d ds IH]; intros sh F; inversion F; subst; constructor.
      + apply One; [assumption|]. destruct (wf_dim_coord _ d W) as (_ & _ & _ & D); [apply Sub; now left|exact D].
      + apply IH; [intros; apply Sub; now right|assumption].
    - intros d D. destruct (wf_dim_coord _ d W D) as (c & Ec & _ & Dm). destruct (One d (c_len c) (ex_intro _ c (conj Ec eq_refl)) Dm) as (c' & Q & _). eauto. }
  destruct (get_cm_tuples _ _ Fit) as (cm & Ec & Wc & Dc & Kc & Ac & Md). rewrite Ec. cbn [bind]. eexists cm, _. split; [reflexivity|]. constructor; auto.
  - intros n. rewrite Kc. unfold kws. rewrite map_map, map_id. apply Ik.
  - intros n m E1. rewrite Ac, Hit by (apply assoc_In; eauto). destruct (rd_spec p n m S E1) as (_ & R). now rewrite (rs_rec _ _ R).
  - intros n. rewrite Md. destruct (assoc n (cm_coords (dp_cm p))) as [m|] eqn:E1.
    + rewrite Hit by (apply assoc_In; eauto). symmetry. apply (own_spec p n m S E1).
    + rewrite kws_assoc by exact NDk. assert (mem n ks = false) as ->.
      { destruct (mem n ks) eqn:M; [|reflexivity]. apply mem_In', Ik in M. apply assoc_In in M. destruct M as (m & M). congruence. }
      destruct (assoc n (cm_dmap (dp_cm p))) as [ds|] eqn:D; [|reflexivity]. destruct (con_coord _ (wf_con _ W) n ds D) as (m & M & _). congruence.
  - intros n N. unfold unit_in at 1. assert (Q : assoc n (map (fun e : string * (mcoord * scal) => (fst e, snd (snd e))) (loaded p ns)) = Some (unit_in (dp_units p) n)); [|now rewrite Q].
    apply in_assoc; [unfold loaded; rewrite !map_map; cbn [fst]; now rewrite map_id|]. apply in_map_iff. exists (n, (rd p n, unit_in (dp_units p) n)). split; [reflexivity|].
    unfold loaded. apply in_map_iff. exists n. split; [reflexivity|now apply I].
Qed.
End Coords.

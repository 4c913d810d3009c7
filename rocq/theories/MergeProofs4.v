(** Lemmas behind MergeProps.v: the outcomes of merge_coord_managers. *)
From Verif Require Import Base BaseFacts CoordModel CoordSpec CoordProofs CoordProofs2 CoordProofs5 NdModel NdSpec NdProofs
  FrameModel FrameProofs5 ChunkModel CmModel CmSpec CmProofs CmProofs2 CmProofs3 CmProofs4 FourierProofs2 MergeModel MergeSpec MergeProofs
  MergeProofs2 MergeProofs3.
From Coq Require Import Strings.String ZifyBool Sorting.Permutation Sorting.Sorted.
Ltac Zify.zify_post_hook ::= Z.div_mod_to_equations.
Local Open Scope Z_scope.
Local Open Scope list_scope.

(** The steps up to the sorted list of trimmed managers. *)
Lemma merge_setup tol drop D dim k cms : joinable D dim k cms ->
  exists first rest first' rest', in_order dim cms = first :: rest /\
    Forall2 (trimmed cms) (first :: rest) (first' :: rest') /\
    merge_cms tol drop dim cms =
    do kept <- map_result (non_merge drop first' (first' :: rest')) (others dim first');
    do merged <- map_result (merged_coord tol dim first' (first' :: rest')) (to_merge dim first');
    get_cm (List.concat kept ++ merged) (Some D) None.
Proof.
  intros J. destruct (drop_unshared_ok D cms (jn_wf _ _ _ _ J) (jn_dims _ _ _ _ J)) as (cms' & E & T).
  pose proof (dims_shared D dim k cms J dim (jn_dim _ _ _ _ J)) as SD.
  assert (K : Forall2 (fun a b => fst a = fst b /\ trimmed cms (snd a) (snd b))
     (map (fun cm => (start_of dim cm, cm)) cms) (map (fun cm => (start_of dim cm, cm)) cms')).
  { clear E. revert T. generalize cms at 2 4. intros l T. induction T as [|a b l l' H F IH]; [constructor|]. cbn [map]. constructor; [|exact IH].
    cbn [fst snd]. split; [|exact H]. unfold start_of, values_of. destruct (tr_keep _ _ _ H dim _ SD) as [-> _]. reflexivity. }
  apply sort_keyed_rel in K. fold (in_order dim cms) in K. fold (in_order dim cms') in K.
  destruct (in_order dim cms) as [|first rest] eqn:IO.
  { exfalso. apply (jn_some _ _ _ _ J). destruct (in_order_stable dim cms) as (P & _). rewrite IO in P.
    apply Permutation_nil in P. exact P. }
  destruct (in_order dim cms') as [|first' rest'] eqn:IO'; [inversion K|].
  exists first, rest, first', rest'. split; [reflexivity|]. split; [exact K|].
  unfold merge_cms. rewrite (common_dims_ok D cms (jn_some _ _ _ _ J) (jn_dims _ _ _ _ J)). cbn [bind].
  rewrite E. cbn [bind].
  assert (M : map_result (dim_min dim) cms' = Ok (map (fun cm => (start_of dim cm, cm)) cms')).
  { apply map_result_map. intros cm' I.
    assert (exists cm, In cm cms /\ trimmed cms cm cm') as (cm & Ic & Tc).
    { clear E K IO'. revert T I. generalize cms at 2 3. intros c2 T.
      induction T as [|x y l l' H F IH]; intros []; [subst; exists x; split; [left; reflexivity|exact H]|].
      destruct IH as (z & Iz & Tz); [assumption|]. exists z. split; [right; exact Iz|exact Tz]. }
    destruct (dim_min_ok D dim k cms cm J Ic) as (A & _). revert A. unfold dim_min, start_of, values_of.
    destruct (tr_keep _ _ _ Tc dim _ SD) as [-> _]. destruct (assoc dim (cm_coords cm)) as [[c| |]|]; try discriminate.
    destruct (c_min c); [|discriminate]. intros A. f_equal. f_equal. congruence. }
  rewrite M. cbn [bind]. fold (in_order dim cms'). rewrite IO'. fold (to_merge dim first').
  destruct (to_merge dim first') as [|x0 xs] eqn:TM; [|rewrite <- TM; unfold others; reflexivity].
  exfalso. assert (TF : trimmed cms first first') by (inversion K; assumption).
  assert (In dim (to_merge dim first')) as Q; [|rewrite TM in Q; destruct Q].
  apply (to_merge_In D dim k cms J first' first TF). exists [dim]. split; [exact SD|left; reflexivity].
Qed.

Lemma Forall2_trimmed_dimc dim cms l l' : shared cms dim [dim] -> Forall2 (trimmed cms) l l' -> map (dimc dim) l' = map (dimc dim) l.
Proof.
  intros S. induction 1 as [|a b l l' H F IH]; [reflexivity|]. cbn [map]. rewrite IH. f_equal.
  unfold dimc. destruct (tr_keep _ _ _ H dim _ S) as [-> _]. reflexivity.
Qed.

Lemma merge_core tol drop D dim k cms cs' : joinable D dim k cms -> leading dim cms -> agreeable drop D dim cms ->
  snap_coords tol (map (dimc dim) (in_order dim cms)) = Ok cs' -> cs' <> [] -> (forall c, In c cs' -> c_kind c = k) ->
  exists first rest out, in_order dim cms = first :: rest /\ In first cms /\ merge_cms tol drop dim cms = Ok out /\
    wf_cm out /\ cm_dims out = D /\
    (forall n ds, shared cms n ds -> In dim ds ->
       assoc n (cm_coords out) = Some (recf (M1 (CArr k (List.concat (map c_ints cs'))))) /\
       assoc n (cm_dmap out) = Some [dim]) /\
    (forall n ds m, shared cms n ds -> ~ In dim ds -> assoc n (cm_coords first) = Some m ->
       (agrees_with_all cms first n -> assoc n (cm_coords out) = Some (recf m) /\ assoc n (cm_dmap out) = Some ds) /\
       (~ agrees_with_all cms first n -> assoc n (cm_coords out) = None)) /\
    (forall n, (forall ds, ~ shared cms n ds) -> assoc n (cm_coords out) = None).
Proof.
  intros J L A SN NE KK. destruct (merge_setup tol drop D dim k cms J) as (first & rest & first' & rest' & IO & T & EQ).
  assert (TF : trimmed cms first first') by (inversion T; assumption).
  assert (INS : forall cm, In cm (first :: rest) <-> In cm cms) by (intros cm; rewrite <- IO; apply in_order_In).
  assert (FI : In first cms) by (apply INS; left; reflexivity).
  pose proof (dims_shared D dim k cms J dim (jn_dim _ _ _ _ J)) as SD.
  set (data := List.concat (map c_ints cs')).
  assert (KEPT : map_result (non_merge drop first' (first' :: rest')) (others dim first') =
     Ok (map (keepf first' (first' :: rest')) (others dim first'))).
  { apply map_result_map. intros n I. apply (others_In D dim k cms J first' first TF) in I as (ds & f & S & N & E).
    eapply (non_merge_ok drop D dim k cms J (first :: rest) first' (first' :: rest') T INS first TF n ds f S E).
    intros Dr. apply (A n ds first S N Dr FI). }
  assert (DC : map_result (dim_coord dim) (first' :: rest') = Ok (map (dimc dim) (first :: rest))).
  { rewrite <- (Forall2_trimmed_dimc dim cms _ _ SD T). apply map_result_map. intros cm' I.
    destruct (srt_back cms (first :: rest) (first' :: rest') T INS cm' I) as (cm & Ic & Tc).
    destruct (dim_min_ok D dim k cms cm J Ic) as (_ & _ & _ & _ & X & _). unfold dim_coord, dimc.
    destruct (tr_keep _ _ _ Tc dim _ SD) as [-> _]. rewrite X. reflexivity. }
  assert (MERGED : map_result (merged_coord tol dim first' (first' :: rest')) (to_merge dim first') =
     Ok (map (fun n => (n, KTuple [dim] (VArr k data))) (to_merge dim first'))).
  { apply map_result_map. intros n I. apply (to_merge_In D dim k cms J first' first TF) in I as (ds & S & I).
    unfold merged_coord. rewrite DC. cbn [bind]. destruct (tr_keep _ _ _ TF n ds S) as [_ ->].
    destruct (tr_keep _ _ _ TF dim _ SD) as [_ ->]. rewrite IO in SN. rewrite SN. cbn [bind].
    destruct (L n ds S I) as (t & ->). cbn [index_of]. rewrite String.eqb_refl.
    destruct cs' as [|c cs]; [congruence|]. rewrite (KK c (or_introl eq_refl)).
    assert (forallb (fun d => kind_eqb k (c_kind d)) cs = true) as ->; [|reflexivity].
    apply forallb_forall. intros d Id. rewrite (KK d (or_intror Id)). destruct k; reflexivity. }
  rewrite KEPT in EQ. cbn [bind] in EQ. rewrite MERGED in EQ. cbn [bind] in EQ. rewrite get_cm_array in EQ.
  change (_ ++ _) with (kwm dim k first' (first' :: rest') data) in EQ.
  assert (AG : forall n, In n D -> n <> dim -> agrees_with_all cms first n).
  { intros n I N. apply (A n [n] first (dims_shared D dim k cms J n I)); [intros [Q|[]]; congruence|right; exact I|exact FI]. }
  pose proof (kwm_fit D dim k cms J (first :: rest) first' (first' :: rest') T INS first TF FI data AG) as FIT.
  destruct (get_cm_tuples _ _ FIT) as (out & E & W & Dm & _ & C & M).
  exists first, rest, out. split; [exact IO|]. split; [exact FI|]. split; [rewrite EQ; exact E|]. split; [exact W|]. split; [exact Dm|].
  split; [|split].
  - intros n ds S I. rewrite C, M.
    rewrite (kwm_merged D dim k cms J first' (first' :: rest') first TF data n ds S I). auto.
  - intros n ds m S N Em. rewrite C, M.
    rewrite (kwm_other D dim k cms J first' (first' :: rest') first TF data n ds m S N Em).
    pose proof (agreeb_spec D dim k cms J (first :: rest) (first' :: rest') T INS first n ds m S Em) as Q.
    destruct (agreeb (first' :: rest') m n); split; intros H; auto.
    + exfalso. apply H, Q. reflexivity.
    + exfalso. apply Q in H. discriminate.
  - intros n N. rewrite C. rewrite (kwm_gone D dim k cms J first' (first' :: rest') first TF data n N). reflexivity.
Qed.

(** Combining attribute sets: the three ways of handling conflicts. *)
From Verif Require Import Base BaseFacts CoordModel FrameModel FrameProofs5 ChunkModel CmModel CmProofs
  AttrsModel AttrsSpec AttrsProofs AttrsProofs2 AttrsProofs3.
From Coq Require Import Strings.String Strings.Ascii.
Local Open Scope Z_scope.

(** The dicts compared, once the coordinate [name] became [new]. *)
Definition placed (name : string) (new : sdict) (d : adict) : adict :=
  if String.eqb name EmptyString then d else put_coord name new d.

Lemma part_has_key drop a name : plain_drop drop ->
  has_key name (coords_of (part_dict drop a)) = existsb (String.eqb name) (map fst (a_coords a)).
Proof.
  intros P. unfold coords_of. rewrite part_coords by exact P. change (match d_coords (dump_short a) with Some c => coval_dict c | None => [] end)
    with (coords_of (dump_short a)). rewrite coords_short. unfold has_key, mem. now rewrite map_fst_map.
Qed.
Lemma part_coord drop a name : plain_drop drop ->
  assoc name (coords_of (part_dict drop a)) = match assoc name (a_coords a) with Some s => Some (summ_short s) | None => None end.
Proof.
  intros P. unfold coords_of. rewrite part_coords by exact P. change (match d_coords (dump_short a) with Some c => coval_dict c | None => [] end)
    with (coords_of (dump_short a)). rewrite coords_short. apply assoc_map_snd.
Qed.
Lemma in_part name l a : In a (part name l) -> In a l.
Proof. unfold part. destruct (String.eqb name ""); [auto|]. intros H. apply filter_In in H. tauto. Qed.

Lemma model_dicts_eq l name drop : plain_drop drop ->
  model_dicts (map MAttrs l) name drop None =
  if String.eqb name EmptyString then Ok (map (part_dict drop) (part name l))
  else do new <- merged_coord (map summ_short (held name l));
       Ok (map (fun a => put_coord name new (part_dict drop a)) (part name l)).
Proof.
  intros P. unfold model_dicts. rewrite map_map. cbn [model_dict].
  change (map _ l) with (map (part_dict drop) l).
  destruct (String.eqb_spec name "") as [->|N]; [reflexivity|].
  assert (F : filter (fun d => has_key name (coords_of d)) (map (part_dict drop) l) = map (part_dict drop) (part name l)).
  { unfold part. destruct (String.eqb_spec name ""); [contradiction|]. induction l as [|a l IH]; [reflexivity|].
    cbn [map filter]. rewrite part_has_key by exact P. destruct (existsb _ _); [cbn [map]; now rewrite IH|exact IH]. }
  rewrite F.
  assert (E : flat_map (fun d => match assoc name (coords_of d) with Some m => [m] | None => [] end) (map (part_dict drop) (part name l))
              = map summ_short (held name l)).
  { unfold held. clear F. induction (part name l) as [|a t IH]; [reflexivity|]. cbn [map flat_map]. rewrite map_app, IH, part_coord by exact P.
    now destruct (assoc name (a_coords a)). }
  rewrite E. destruct (merged_coord _); [|reflexivity]. cbn [bind]. now rewrite map_map.
Qed.

(** Placing the coordinate. *)
Lemma placed_vals name new d : d_vals (placed name new d) = d_vals d.
Proof. unfold placed, put_coord. destruct (String.eqb name ""); [reflexivity|]. now destruct new. Qed.
Lemma placed_coord name new d n : new <> [] \/ name = EmptyString ->
  assoc n (coords_of (placed name new d)) =
  if String.eqb n name && negb (String.eqb name EmptyString) then Some new else assoc n (coords_of d).
Proof.
  intros H. unfold placed. destruct (String.eqb_spec name "") as [->|N]; cbn [negb]; [now rewrite Bool.andb_false_r|].
  rewrite Bool.andb_true_r. destruct H as [H|H]; [|contradiction]. unfold put_coord. destruct new as [|e t]; [congruence|].
  unfold coords_of at 1. cbn [d_coords coval_dict]. rewrite assoc_app, assoc_del. destruct (String.eqb_spec n name) as [->|D].
  - cbn [assoc]. now rewrite String.eqb_refl.
  - destruct (assoc n (coords_of d)); [reflexivity|]. cbn [assoc]. destruct (String.eqb_spec n name); [contradiction|reflexivity].
Qed.
Lemma placed_good N name new d : good N d -> (name = EmptyString \/ (entry_ok new /\ new <> [] /\ In name N)) -> good N (placed name new d).
Proof.
  intros G H. unfold placed. destruct (String.eqb_spec name "") as [->|Nn]; [exact G|].
  destruct H as [H|(Eo & Ne & In')]; [contradiction|]. unfold put_coord. destruct new as [|e t]; [congruence|]. set (new := e :: t) in *.
  assert (I : forall n, In n (map fst (del name (coords_of d))) -> In n (map fst (coords_of d))) by (intros n; apply in_filter_fst).
  constructor; cbn [d_vals d_coords]; try apply G; unfold coords_of at 1; cbn [d_coords coval_dict].
  - discriminate.
  - rewrite map_app. apply incl_app; [intros n X; apply (g_names _ _ G), I, X|]. intros n [<-|[]]. exact In'.
  - rewrite map_app. apply NoDup_app'; [apply NoDup_filter_fst, (g_nodup _ _ G)|repeat constructor; auto|].
    intros n X [<-|[]]. apply in_map_iff in X. destruct X as (x & Fx & X). apply filter_In in X. destruct X as (_ & X).
    rewrite Fx in X. cbn [fst] in X. rewrite String.eqb_refl in X. discriminate.
  - intros n m X. apply in_app_iff in X. destruct X as [X|[X|[]]].
    + apply filter_In in X. apply (g_entry _ _ G n m). tauto.
    + injection X as <- <-. exact Eo.
Qed.

(** Dict equality in terms of attribute values. *)
Definition nn (v : scal) : scal := match v with ANull => ANone | v => v end.
Lemma nn_map d : d_vals (null_to_none d) = map (fun e => (fst e, nn (snd e))) (d_vals d).
Proof. unfold null_to_none. cbn [d_vals]. apply map_ext. intros (k & []); reflexivity. Qed.
Lemma nn_assoc k d : assoc k (d_vals (null_to_none d)) = match assoc k (d_vals d) with Some v => Some (nn v) | None => None end.
Proof. rewrite nn_map. apply assoc_map_snd. Qed.
Lemma nn_keys d : map fst (d_vals (null_to_none d)) = map fst (d_vals d).
Proof. rewrite nn_map. apply map_fst_map. Qed.
Lemma nn_not_null v : nn v <> ANull.
Proof. destruct v; discriminate. Qed.
Definition coords_eq (a b : adict) : Prop :=
  match d_coords a, d_coords b with
  | Some x, Some y => coval_eqb x y = true | None, None => True | _, _ => False end.
Lemma adict_eqb_spec N a b : good N a -> good N b ->
  adict_eqb (null_to_none a) (null_to_none b) = true <->
  (forall k, match assoc k (d_vals a), assoc k (d_vals b) with
             | Some v, Some w => nn v = nn w | None, None => True | _, _ => False end)
  /\ coords_eq a b.
Proof.
  intros G H. unfold adict_eqb. rewrite Bool.andb_true_iff.
  rewrite dict_eqb_spec by (rewrite nn_keys; first [apply (g_keys _ _ G)|apply (g_keys _ _ H)]).
  assert (E : forall k, rel_opt scal_eqb (assoc k (d_vals (null_to_none a))) (assoc k (d_vals (null_to_none b)))
     <-> match assoc k (d_vals a), assoc k (d_vals b) with
             | Some v, Some w => nn v = nn w | None, None => True | _, _ => False end).
  { intros k. rewrite !nn_assoc. unfold rel_opt. destruct (assoc k (d_vals a)), (assoc k (d_vals b)); try tauto.
    rewrite scal_eqb_spec. pose proof (nn_not_null s). tauto. }
  unfold coords_eq. cbn [null_to_none d_coords].
  split; intros (A & B); (split; [intros k; apply E, A|]);
  destruct (d_coords a), (d_coords b); auto; discriminate.
Qed.

Lemma alike_nn v w : nn v = nn w -> alike (Some v) (Some w).
Proof. destruct v, w; cbn; intros E; try discriminate E; try (left; congruence); unfold alike; tauto. Qed.
Lemma alike_eff a b k : match assoc k (d_vals a), assoc k (d_vals b) with
             | Some v, Some w => nn v = nn w | None, None => True | _, _ => False end -> alike (eff a k) (eff b k).
Proof.
  unfold eff. destruct (assoc k (d_vals a)), (assoc k (d_vals b)); try contradiction; [apply alike_nn|intros _; now left].
Qed.

(** Summaries read off equal entries are equal. *)
Lemma mk_summ_ext m m' : (forall k, assoc k m = assoc k m') -> mk_summ m = mk_summ m'.
Proof. intros H. unfold mk_summ, get_or. now rewrite !H. Qed.
Lemma coval_eqb_assoc N a b x y : good N a -> good N b -> d_coords a = Some x -> d_coords b = Some y ->
  coval_eqb x y = true <-> forall n, rel_opt (dict_eqb scal_eqb) (assoc n (coords_of a)) (assoc n (coords_of b)).
Proof.
  intros G H X Y. unfold coval_eqb. pose proof (g_nodup _ _ G) as N1. pose proof (g_nodup _ _ H) as N2.
  unfold coords_of in *. rewrite X, Y in *. now apply dict_eqb_spec.
Qed.
Lemma entry_eq m m' : entry_ok m -> entry_ok m' -> dict_eqb scal_eqb m m' = true -> mk_summ m = mk_summ m'.
Proof.
  intros (N1 & _) (N2 & _) E. apply mk_summ_ext. intros k. rewrite dict_eqb_spec in E by assumption.
  specialize (E k). unfold rel_opt in E. destruct (assoc k m), (assoc k m'); try contradiction; [|reflexivity].
  apply scal_eqb_spec in E. destruct E as (-> & _). reflexivity.
Qed.
Lemma coords_eq_summ N a b n : good N a -> good N b -> coords_eq a b ->
  match assoc n (coords_of a), assoc n (coords_of b) with
  | Some m, Some m' => mk_summ m = mk_summ m' | None, None => True | _, _ => False end.
Proof.
  intros G H E. unfold coords_eq in E. destruct (d_coords a) as [x|] eqn:X, (d_coords b) as [y|] eqn:Y; try contradiction.
  - rewrite (coval_eqb_assoc N a b x y G H X Y) in E. specialize (E n). unfold rel_opt in E.
    destruct (assoc n (coords_of a)) as [m|] eqn:A, (assoc n (coords_of b)) as [m'|] eqn:B; try contradiction; [|exact I].
    apply entry_eq; [apply (g_entry _ _ G n)|apply (g_entry _ _ H n)|exact E]; now apply assoc_in.
  - unfold coords_of. rewrite X, Y. exact I.
Qed.

(** ** Combining *)
Definition ready (name : string) (l : list attrs) (new : sdict) (s : summ) : Prop :=
  name = EmptyString \/
  (name <> EmptyString /\ entry_ok new /\ new <> [] /\ mk_summ new = Ok s /\ merged (held name l) s
   /\ dict_eqb scal_eqb new new = true).
Definition live (name : string) (drop : list string) (new : sdict) (a : attrs) : adict :=
  placed name new (part_dict drop a).

Lemma part_in_name name l a : name <> EmptyString -> In a (part name l) -> In name (map fst (a_coords a)).
Proof.
  intros N H. unfold part in H. destruct (String.eqb_spec name ""); [contradiction|]. apply filter_In in H.
  destruct H as (_ & H). apply existsb_exists in H. destruct H as (x & X & E). apply String.eqb_eq in E. now subst.
Qed.
Lemma held_cons name l : name <> EmptyString -> part name l <> [] -> held name l <> [].
Proof.
  intros N H. unfold held. destruct (part name l) as [|a t] eqn:E; [congruence|]. cbn [flat_map].
  assert (I : In name (map fst (a_coords a))) by (apply (part_in_name name l a N); rewrite E; now left).
  apply assoc_In in I. destruct I as [s ->]. discriminate.
Qed.
Lemma in_held name l h : In h (held name l) <-> exists a, In a (part name l) /\ assoc name (a_coords a) = Some h.
Proof.
  unfold held. rewrite in_flat_map. split.
  - intros (a & A & H). exists a. split; [exact A|]. destruct (assoc name (a_coords a)); [|contradiction]. destruct H as [->|[]]. reflexivity.
  - intros (a & A & H). exists a. split; [exact A|]. rewrite H. now left.
Qed.
Lemma held_tidy name l h : family l -> In h (held name l) -> tidy_summ h.
Proof.
  intros (T & _) H. apply in_held in H. destruct H as (a & A & H). apply assoc_in in H.
  apply (t_summ _ (T a (in_part _ _ _ A)) name h H).
Qed.

Lemma combine_shape l name conflicts drop : family l -> plain_drop drop -> l <> [] ->
  mem conflicts conflict_values = true -> (forall h, In h (held name l) -> numeric h) -> part name l <> [] ->
  (exists new s, ready name l new s /\
     combine_attrs (map MAttrs l) name conflicts drop None =
     do ds <- handle_others conflicts (map (live name drop new) (part name l));
     match ds with [] => Err AttributeMergeError | d :: _ => mk_attrs d end)
  \/ (name <> EmptyString /\ clash (held name l) /\ combine_attrs (map MAttrs l) name conflicts drop None = Err AttributeMergeError).
Proof.
  intros F P L C Nu Ne. unfold combine_attrs. rewrite C. cbn [negb]. rewrite model_dicts_eq by exact P.
  assert (M : forall X Y : result attrs, match map MAttrs l with [] => X | _ => Y end = Y) by (destruct l; [congruence|reflexivity]).
  destruct (String.eqb_spec name "") as [->|N].
  - left. exists [], (mkSumm "" ANone ANone ANone ANone). split; [now left|]. cbn [bind].
    change (map (live "" drop []) (part "" l)) with (map (part_dict drop) (part "" l)).
    destruct (handle_others conflicts (map (part_dict drop) (part "" l))); [|reflexivity]. cbn [bind]. now rewrite M.
  - destruct (merged_coord_cases (held name l)) as [(new & s & E & Eo & Nn & Ms & Mg & Sf)|(E & Cl)].
    + now apply held_cons.
    + exact Nu.
    + intros h H. now apply (held_tidy name l).
    + left. exists new, s. split; [right; auto 10|]. rewrite E. cbn [bind].
      assert (Lv : map (live name drop new) (part name l) = map (fun a => put_coord name new (part_dict drop a)) (part name l)).
      { apply map_ext. intros a. unfold live, placed. destruct (String.eqb_spec name ""); [contradiction|reflexivity]. }
      rewrite Lv. destruct (handle_others _ _); [|reflexivity]. cbn [bind]. now rewrite M.
    + right. rewrite E. auto.
Qed.

Lemma live_good l name drop new s a : family l -> plain_drop drop -> ready name l new s -> In a (part name l) ->
  good (all_names l) (live name drop new a).
Proof.
  intros F P R A. apply placed_good; [apply part_good; [exact F|exact P|now apply in_part in A]|].
  destruct R as [R|(N & Eo & Nn & _)]; [now left|right]. split; [exact Eo|]. split; [exact Nn|].
  apply (in_all_names l a); [now apply in_part in A|]. unfold names_of. apply in_app_iff. left. now apply (part_in_name name l).
Qed.
Lemma live_vals name drop new a : d_vals (live name drop new a) = d_vals (part_dict drop a).
Proof. apply placed_vals. Qed.
Lemma live_eff l name drop new a k : family l -> In a l -> k <> "dims"%string ->
  eff (live name drop new a) k = if mem k drop then default_of k else value_of a k.
Proof.
  intros F A K. unfold eff. rewrite live_vals. apply (eff_part drop a k); [apply F; exact A|exact K].
Qed.
Lemma live_dims l name drop new a : family l -> plain_drop drop -> In a l ->
  assoc "dims"%string (d_vals (live name drop new a)) = if String.eqb (a_dims a) "" then None else Some (AStr (a_dims a)).
Proof.
  intros F (P & _) A. rewrite live_vals, part_assoc. apply mem_false in P. rewrite P.
  apply (short_vals a). apply F. exact A.
Qed.
Lemma live_coord l name drop new s a n : plain_drop drop -> ready name l new s ->
  assoc n (coords_of (live name drop new a)) =
  if String.eqb n name && negb (String.eqb name EmptyString) then Some new
  else match assoc n (a_coords a) with Some s => Some (summ_short s) | None => None end.
Proof.
  intros P R. unfold live. rewrite placed_coord.
  - destruct (_ && _); [reflexivity|]. now apply part_coord.
  - destruct R as [R|(_ & _ & R & _)]; [now right|now left].
Qed.

Lemma not_merged name n : name = EmptyString \/ n <> name -> String.eqb n name && negb (String.eqb name EmptyString) = false.
Proof.
  intros [->|N]; [now rewrite Bool.andb_false_r|]. destruct (String.eqb_spec n name); [contradiction|reflexivity].
Qed.
Lemma made_of l name drop new s f : family l -> plain_drop drop -> ready name l new s -> In f (part name l) ->
  exists r, mk_attrs (live name drop new f) = Ok r /\ made name drop s f r.
Proof.
  intros F P R A. pose proof (in_part _ _ _ A) as Al.
  destruct (mk_attrs_good _ _ (family_fair l F) (live_good l name drop new s f F P R A)) as (r & E & V & _ & ND & D1 & D2 & Fs & C & _).
  exists r. split; [exact E|]. pose proof (proj1 F f Al) as T.
  constructor.
  - intros k K. rewrite V by exact K. rewrite (live_eff l name drop new f k F Al K). destruct (mem k drop) eqn:D.
    + right. split; [now apply mem_In'|reflexivity].
    + left. split; [now apply mem_false|reflexivity].
  - exact ND.
  - pose proof (live_dims l name drop new f F P Al) as D. destruct (String.eqb_spec (a_dims f) "") as [Z|Z].
    + rewrite D2 by exact D. pose proof (t_dims _ T Z) as Cn.
      assert (Nn : name = EmptyString).
      { destruct (string_dec name ""); [assumption|]. pose proof (part_in_name name l f n A) as I. rewrite Cn in I. destruct I. }
      subst name. unfold live, placed. cbn [String.eqb]. unfold coords_of. rewrite part_coords by exact P.
      unfold dump_short. cbn [d_coords]. rewrite Cn. rewrite Z. reflexivity.
    + now apply D1.
  - intros n N. rewrite C, (live_coord l name drop new s f n P R), (not_merged name n N).
    destruct (assoc n (a_coords f)) as [s'|] eqn:Q; [|reflexivity].
    rewrite mk_summ_short; [reflexivity|]. apply (t_summ _ T n s'). now apply assoc_in.
  - intros N. rewrite C, (live_coord l name drop new s f name P R). rewrite String.eqb_refl.
    destruct (String.eqb_spec name ""); [contradiction|]. cbn [andb negb].
    destruct R as [R|(_ & _ & _ & -> & _)]; [contradiction|reflexivity].
Qed.

Lemma live_compatible l name drop new s f m : family l -> plain_drop drop -> ready name l new s ->
  In f (part name l) -> In m (part name l) ->
  adict_eqb (null_to_none (live name drop new f)) (null_to_none (live name drop new m)) = true ->
  compatible name drop f m.
Proof.
  intros F P R A B E. pose proof (live_good l name drop new s f F P R A) as G. pose proof (live_good l name drop new s m F P R B) as H.
  rewrite (adict_eqb_spec _ _ _ G H) in E. destruct E as (V & C).
  pose proof (in_part _ _ _ A) as Al. pose proof (in_part _ _ _ B) as Bl. constructor.
  - intros k K D. specialize (V k). apply alike_eff in V. rewrite (live_eff l name drop new f k F Al K), (live_eff l name drop new m k F Bl K) in V.
    apply mem_false in D. now rewrite D in V.
  - specialize (V "dims"%string). rewrite (live_dims l name drop new f F P Al), (live_dims l name drop new m F P Bl) in V.
    destruct (String.eqb_spec (a_dims f) ""), (String.eqb_spec (a_dims m) ""); try contradiction; [congruence|].
    cbn in V. congruence.
  - intros n N. pose proof (coords_eq_summ _ _ _ n G H C) as Q. rewrite !(live_coord l name drop new s _ n P R) in Q.
    rewrite (not_merged name n N) in Q.
    destruct (assoc n (a_coords f)) as [s1|] eqn:Q1, (assoc n (a_coords m)) as [s2|] eqn:Q2; try contradiction; [|reflexivity].
    rewrite !mk_summ_short in Q.
    + injection Q as ->. reflexivity.
    + apply (t_summ _ (proj1 F m Bl) n s2). now apply assoc_in.
    + apply (t_summ _ (proj1 F f Al) n s1). now apply assoc_in.
Qed.

(** ** raise *)
Theorem raise_ok l name drop r : family l -> plain_drop drop -> l <> [] ->
  (forall h, In h (held name l) -> numeric h) ->
  combine_attrs (map MAttrs l) name "raise" drop None = Ok r ->
  exists f t s, part name l = f :: t /\ made name drop s f r /\ (forall m, In m t -> compatible name drop f m)
    /\ (name <> EmptyString -> merged (held name l) s).
Proof.
  intros F P L Nu E. destruct (part name l) as [|f t] eqn:Pt.
  - exfalso. unfold combine_attrs in E. cbn [mem conflict_values existsb String.eqb Ascii.eqb Bool.eqb negb orb] in E.
    rewrite model_dicts_eq in E by exact P. rewrite Pt in E.
    destruct (String.eqb_spec name "") as [->|N].
    + unfold part in Pt. cbn in Pt. congruence.
    + unfold held in E. rewrite Pt in E. cbn in E. destruct (map MAttrs l); discriminate.
  - destruct (combine_shape l name "raise" drop F P L eq_refl Nu) as [(new & s & R & Q)|(_ & _ & Q)]; [rewrite Pt; discriminate| |congruence].
    rewrite Pt in Q. rewrite Q in E. cbn [map] in E. unfold handle_others in E. cbn [String.eqb Ascii.eqb Bool.eqb] in E.
    destruct (forallb _ (map (live name drop new) t)) eqn:Fa; [|discriminate]. cbn [bind] in E.
    assert (If : In f (part name l)) by (rewrite Pt; now left).
    destruct (made_of l name drop new s f F P R If) as (r' & E' & Md). rewrite E' in E. injection E as <-.
    exists f, t, s. split; [reflexivity|]. split; [exact Md|]. split.
    + intros m Hm. apply (live_compatible l name drop new s f m F P R If); [rewrite Pt; now right|].
      rewrite forallb_forall in Fa. apply Fa. now apply in_map.
    + intros N. destruct R as [R|(_ & _ & _ & _ & R & _)]; [contradiction|exact R].
Qed.

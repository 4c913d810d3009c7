(** Combining attribute sets: the results of raise, drop and keep_first. *)
From Verif Require Import Base BaseFacts CoordModel FrameModel FrameProofs5 ChunkModel CmModel CmProofs
  AttrsModel AttrsSpec AttrsProofs AttrsProofs2 AttrsProofs3 AttrsProofs4.
From Coq Require Import Strings.String Strings.Ascii.
Local Open Scope Z_scope.

(** The short dump is determined by what the attributes read. *)
Lemma default_at k d : default_of k = Some d -> at_default (k, d) = true.
Proof.
  rewrite <- default_of_spec. unfold at_default. cbn [fst snd]. intros E. rewrite E. apply scal_eqb_spec. split; [reflexivity|].
  intros ->. revert E. rewrite default_of_spec. unfold default_of. destruct (existsb _ _); [discriminate|].
  destruct (String.eqb k "data_units"); [discriminate|]. destruct (String.eqb k "history"); discriminate.
Qed.
Lemma short_of_get a k : tidy a -> k <> "dims"%string -> assoc k (d_vals (dump_short a)) =
  match value_of a k with Some v => if at_default (k, v) then None else Some v | None => None end.
Proof.
  intros T K. destruct (short_vals a T) as (_ & _ & A & _). rewrite (A k K), value_assoc.
  destruct (assoc k (a_vals a)); [reflexivity|]. destruct (default_of k) as [d|] eqn:D; [|reflexivity].
  now rewrite default_at.
Qed.
Lemma live_of_get l name drop new a k : family l -> In a l -> k <> "dims"%string ->
  assoc k (d_vals (live name drop new a)) =
  if mem k drop then None
  else match value_of a k with Some v => if at_default (k, v) then None else Some v | None => None end.
Proof.
  intros F A K. rewrite live_vals, part_assoc. destruct (mem k drop); [reflexivity|]. apply short_of_get; [apply F; exact A|exact K].
Qed.

Lemma combine_none l name conflicts drop : family l -> plain_drop drop -> l <> [] ->
  mem conflicts conflict_values = true -> part name l = [] ->
  combine_attrs (map MAttrs l) name conflicts drop None =
  if String.eqb conflicts "keep_first" then Ok (mkAttrs [] "" []) else Err AttributeMergeError.
Proof.
  intros F P L C Pt. unfold combine_attrs. rewrite C. cbn [negb]. rewrite model_dicts_eq by exact P. unfold held. rewrite Pt.
  destruct (String.eqb_spec name "") as [->|N]; [unfold part in Pt; cbn in Pt; congruence|].
  cbn [flat_map map merged_coord bind]. unfold handle_others.
  destruct (String.eqb conflicts "keep_first"); cbn [bind]; destruct (map MAttrs l) eqn:Q; try (destruct l; [congruence|discriminate]); reflexivity.
Qed.

(** ** raise *)
Lemma raise_class l name drop : family l -> plain_drop drop -> l <> [] ->
  (forall h, In h (held name l) -> numeric h) ->
  (exists r, combine_attrs (map MAttrs l) name "raise" drop None = Ok r)
  \/ combine_attrs (map MAttrs l) name "raise" drop None = Err AttributeMergeError.
Proof.
  intros F P L Nu. destruct (part name l) as [|f t] eqn:Pt.
  - right. now rewrite combine_none.
  - destruct (combine_shape l name "raise" drop F P L eq_refl Nu) as [(new & s & R & Q)|(_ & _ & Q)]; [rewrite Pt; discriminate| |now right].
    rewrite Q. rewrite Pt. cbn [map]. unfold handle_others. cbn [String.eqb Ascii.eqb Bool.eqb].
    destruct (forallb _ (map (live name drop new) t)); [|now right]. cbn [bind]. left.
    destruct (made_of l name drop new s f F P R) as (r & E & _); [rewrite Pt; now left|]. eauto.
Qed.
Theorem raise_conflict l name drop f t m : family l -> plain_drop drop ->
  (forall h, In h (held name l) -> numeric h) -> part name l = f :: t -> In m t -> ~ compatible name drop f m ->
  combine_attrs (map MAttrs l) name "raise" drop None = Err AttributeMergeError.
Proof.
  intros F P Nu Pt M N. assert (L : l <> []).
  { intros ->. unfold part in Pt. destruct (String.eqb name ""); discriminate. }
  destruct (raise_class l name drop F P L Nu) as [(r & E)|E]; [|exact E]. exfalso. apply N.
  destruct (raise_ok l name drop r F P L Nu E) as (f' & t' & s & Pt' & _ & C & _). rewrite Pt in Pt'. injection Pt' as <- <-. auto.
Qed.

Lemma short_self s : solid s -> dict_eqb scal_eqb (summ_short s) (summ_short s) = true.
Proof.
  intros (S1 & S2 & S3 & S4). apply dict_self; [apply short_keys|].
  intros k v H. unfold summ_short in H. apply in_app_iff in H. destruct H as [[H|[H|[H|[]]]]|H]; try (injection H as <- <-; congruence).
  apply filter_In in H. destruct H as ([H|[H|[]]] & _); injection H as <- <-; assumption.
Qed.
Lemma rest_coords_eq l name drop new s f m : family l -> plain_drop drop -> ready name l new s ->
  In f (part name l) -> In m (part name l) -> same_rest name m f ->
  (forall n s, n <> name \/ name = EmptyString -> assoc n (a_coords f) = Some s -> solid s) ->
  coords_eq (live name drop new f) (live name drop new m).
Proof.
  intros F P R A B Sr So.
  pose proof (live_good l name drop new s f F P R A) as G. pose proof (live_good l name drop new s m F P R B) as H.
  assert (Z : forall n, rel_opt (dict_eqb scal_eqb) (assoc n (coords_of (live name drop new f))) (assoc n (coords_of (live name drop new m)))).
  { intros n. rewrite !(live_coord l name drop new s _ n P R). destruct (String.eqb_spec n name) as [->|N].
    - destruct (String.eqb_spec name "") as [->|Ne]; cbn [andb negb].
      + rewrite (Sr ""%string (or_introl eq_refl)). destruct (assoc "" (a_coords f)) eqn:Q; [|exact I]. apply short_self. apply (So ""%string); auto.
      + destruct R as [R|(_ & _ & _ & _ & _ & R)]; [contradiction|]. exact R.
    - cbn [andb]. rewrite (Sr n (or_intror N)). destruct (assoc n (a_coords f)) eqn:Q; [|exact I]. apply short_self. apply (So n); auto. }
  unfold coords_eq. destruct (d_coords (live name drop new f)) as [x|] eqn:X, (d_coords (live name drop new m)) as [y|] eqn:Y; try exact I.
  - now apply (coval_eqb_assoc _ _ _ x y G H X Y).
  - (* one has coordinates, the other has none *)
    assert (Nn : name = EmptyString).
    { unfold live, placed, put_coord in Y. destruct (String.eqb_spec name ""); [assumption|]. destruct new; discriminate. }
    subst name. assert (Hm : a_coords m = []).
    { unfold live, placed in Y. cbn [String.eqb] in Y. rewrite part_coords in Y by exact P. unfold dump_short in Y. cbn [d_coords] in Y.
      destruct (a_coords m); [reflexivity|discriminate]. }
    assert (Hf : a_coords f = []).
    { destruct (a_coords f) as [|(n & sn) q] eqn:Q; [reflexivity|]. pose proof (Sr n (or_introl eq_refl)) as W. rewrite Hm, Q in W. cbn in W.
      rewrite String.eqb_refl in W. discriminate. }
    unfold live, placed in X. cbn [String.eqb] in X. rewrite part_coords in X by exact P. unfold dump_short in X. cbn [d_coords] in X.
    rewrite Hf in X. discriminate.
  - assert (Nn : name = EmptyString).
    { unfold live, placed, put_coord in X. destruct (String.eqb_spec name ""); [assumption|]. destruct new; discriminate. }
    subst name. assert (Hf : a_coords f = []).
    { unfold live, placed in X. cbn [String.eqb] in X. rewrite part_coords in X by exact P. unfold dump_short in X. cbn [d_coords] in X.
      destruct (a_coords f); [reflexivity|discriminate]. }
    assert (Hm : a_coords m = []).
    { destruct (a_coords m) as [|(n & sn) q] eqn:Q; [reflexivity|]. pose proof (Sr n (or_introl eq_refl)) as W. rewrite Hf, Q in W. cbn in W.
      rewrite String.eqb_refl in W. discriminate. }
    unfold live, placed in Y. cbn [String.eqb] in Y. rewrite part_coords in Y by exact P. unfold dump_short in Y. cbn [d_coords] in Y.
    rewrite Hm in Y. discriminate.
Qed.
Lemma equal_dicts l name drop new s f m : family l -> plain_drop drop -> ready name l new s ->
  In f (part name l) -> In m (part name l) -> equal_sets name drop f m ->
  adict_eqb (null_to_none (live name drop new f)) (null_to_none (live name drop new m)) = true.
Proof.
  intros F P R A B E. pose proof (in_part _ _ _ A) as Al. pose proof (in_part _ _ _ B) as Bl.
  rewrite (adict_eqb_spec (all_names l) _ _ (live_good l name drop new s f F P R A) (live_good l name drop new s m F P R B)). split.
  - intros k. destruct (string_dec k "dims") as [->|K].
    + rewrite (live_dims l name drop new f F P Al), (live_dims l name drop new m F P Bl), (e_dims _ _ _ _ E).
      destruct (String.eqb (a_dims f) ""); auto.
    + rewrite (live_of_get l name drop new f k F Al K), (live_of_get l name drop new m k F Bl K).
      destruct (mem k drop) eqn:D; [exact I|]. apply mem_false in D. rewrite (e_vals _ _ _ _ E k K D).
      destruct (value_of m k) as [v|]; [|exact I]. destruct (at_default (k, v)); [exact I|reflexivity].
  - apply (rest_coords_eq l name drop new s f m F P R A B (e_rest _ _ _ _ E)). apply (e_solid _ _ _ _ E).
Qed.
Theorem raise_equal l name drop f t : family l -> plain_drop drop ->
  (forall h, In h (held name l) -> numeric h) -> part name l = f :: t ->
  (forall m, In m t -> equal_sets name drop f m) -> name = EmptyString \/ ~ clash (held name l) ->
  exists r, combine_attrs (map MAttrs l) name "raise" drop None = Ok r.
Proof.
  intros F P Nu Pt E Cl. assert (L : l <> []).
  { intros ->. unfold part in Pt. destruct (String.eqb name ""); discriminate. }
  destruct (combine_shape l name "raise" drop F P L eq_refl Nu) as [(new & s & R & Q)|(N & C & _)]; [rewrite Pt; discriminate| |destruct Cl; contradiction].
  assert (If : In f (part name l)) by (rewrite Pt; now left).
  rewrite Q, Pt. cbn [map]. unfold handle_others. cbn [String.eqb Ascii.eqb Bool.eqb].
  assert (Fa : forallb (fun x => adict_eqb (null_to_none (live name drop new f)) (null_to_none x)) (map (live name drop new) t) = true).
  { apply forallb_forall. intros x X. apply in_map_iff in X. destruct X as (m & <- & M).
    apply (equal_dicts l name drop new s f m F P R If); [rewrite Pt; now right|auto]. }
  rewrite Fa. cbn [bind]. destruct (made_of l name drop new s f F P R If) as (r & Er & _). eauto.
Qed.

(** C51: merging attribute sets.
    Model: AttrsModel.v. Specification vocabulary: AttrsSpec.v. *)
From Verif Require Import Base BaseFacts FrameModel CmModel AttrsModel AttrsSpec AttrsProofs4 AttrsProofs5 AttrsProofs6 AttrsProofs7.
From Coq Require Import Strings.String.
Local Open Scope Z_scope.
Local Open Scope string_scope.

(** Attribute sets for the witnesses. *)
Definition aset (tag : string) (lo hi : Z) (step units : scal) (far : Z) : attrs :=
  mkAttrs [("tag", AStr tag); ("station", AStr "st"); ("gauge", ANum 3)] "time,distance"
    [("time", mkSumm "int64" (ANum lo) (ANum hi) step units);
     ("distance", mkSumm "int64" (ANum 0) (ANum far) (ANum 1) (AStr "m"))].
Definition early : attrs := aset "a" 0 4 (ANum 1) (AStr "s") 9.
Definition late : attrs := aset "a" 5 9 (ANum 1) ANone 9.
Definition other_tag : attrs := aset "b" 5 9 (ANum 1) ANone 9.
Definition shorter : attrs := aset "a" 5 9 (ANum 1) ANone 8.
Definition other_dtype : attrs :=
  mkAttrs [("tag", AStr "a")] "time" [("time", mkSumm "float64" (ANum 5) (ANum 9) ANone ANone)].
(** The merged time coordinate of [early] and [late]. *)
Definition both : summ := mkSumm "int64" (ANum 0) (ANum 9) (ANum 1) (AStr "s").
Lemma aset_numeric name l : Forall (fun a => Forall (fun e => numeric (snd e)) (a_coords a)) l ->
  forall h, In h (held name l) -> numeric h.
Proof.
  intros F h H. unfold held in H. apply in_flat_map in H. destruct H as (a & A & H). apply in_part in A.
  rewrite Forall_forall in F. specialize (F a A). rewrite Forall_forall in F.
  destruct (assoc name (a_coords a)) as [s|] eqn:E; [|destruct H]. destruct H as [<-|[]]. apply CmProofs.assoc_in in E. exact (F _ E).
Qed.
Ltac numbers := apply aset_numeric; repeat first [apply Forall_nil | apply Forall_cons];
  (split; [eexists; reflexivity|split; [eexists; reflexivity|first [left; reflexivity | right; right; eexists; reflexivity]]]).

(** raise succeeds only when the sets with the coordinate agree; the result is then
    the first of them without the names in [drop], with the merged coordinate. *)
Theorem C51_raise : forall l name drop r, family l -> plain_drop drop -> l <> [] ->
  (forall h, In h (held name l) -> numeric h) ->
  combine_attrs (map MAttrs l) name "raise" drop None = Ok r ->
  exists f t s, part name l = f :: t /\ made name drop s f r /\ (forall m, In m t -> compatible name drop f m)
    /\ (name <> "" -> merged (held name l) s).
Proof. exact raise_ok. Qed.
Print Assumptions C51_raise.
Example C51_raise_applies : exists r, combine_attrs (map MAttrs [early; late]) "time" "raise" [] None = Ok r
  /\ family [early; late] /\ plain_drop [] /\ (forall h, In h (held "time" [early; late]) -> numeric h)
  /\ assoc "time" (a_coords r) = Some both.
Proof.
  eexists. split; [vm_compute; reflexivity|]. split; [apply familyb_ok; vm_compute; reflexivity|].
  split; [split; intros []|]. split; [numbers|vm_compute; reflexivity].
Qed.

Theorem C51_raise_conflict : forall l name drop f t m, family l -> plain_drop drop ->
  (forall h, In h (held name l) -> numeric h) -> part name l = f :: t -> In m t -> ~ compatible name drop f m ->
  combine_attrs (map MAttrs l) name "raise" drop None = Err AttributeMergeError.
Proof. exact raise_conflict. Qed.
Print Assumptions C51_raise_conflict.
Example C51_raise_conflict_applies : family [early; other_tag] /\ part "time" [early; other_tag] = [early; other_tag]
  /\ (forall h, In h (held "time" [early; other_tag]) -> numeric h) /\ ~ compatible "time" [] early other_tag
  /\ exists r, combine_attrs (map MAttrs [early; other_tag]) "time" "raise" ["tag"] None = Ok r.
Proof.
  split; [apply familyb_ok; vm_compute; reflexivity|]. split; [reflexivity|]. split; [numbers|]. split.
  - intros C. destruct (c_vals _ _ _ _ C "tag") as [E|[(E & _)|(E & _)]]; try discriminate; intros [].
  - eexists. vm_compute. reflexivity.
Qed.

Theorem C51_raise_equal : forall l name drop f t, family l -> plain_drop drop ->
  (forall h, In h (held name l) -> numeric h) -> part name l = f :: t ->
  (forall m, In m t -> equal_sets name drop f m) -> name = "" \/ ~ clash (held name l) ->
  exists r, combine_attrs (map MAttrs l) name "raise" drop None = Ok r.
Proof. exact raise_equal. Qed.
Print Assumptions C51_raise_equal.
Example C51_raise_equal_applies : family [early; late] /\ part "time" [early; late] = [early; late]
  /\ equal_sets "time" [] early late /\ ~ clash (held "time" [early; late]).
Proof.
  split; [apply familyb_ok; vm_compute; reflexivity|]. split; [reflexivity|]. split.
  - constructor; [reflexivity|reflexivity| |].
    + intros n [E|N]; [discriminate E|]. cbn. destruct (String.eqb_spec n "time"); [contradiction|reflexivity].
    + intros n s [N|E] H; [|discriminate E]. cbn in H. destruct (String.eqb_spec n "time"); [contradiction|].
      destruct (String.eqb n "distance"); [|discriminate]. injection H as <-. repeat split; discriminate.
  - intros (g & h & G & H & C). cbn in G, H.
    destruct G as [<-|[<-|[]]], H as [<-|[<-|[]]]; cbn in C; intuition congruence.
Qed.

(** drop: agreeing values are kept, conflicting ones go back to their default. The
    merge fails only when dtype or units of the coordinate differ. *)
Theorem C51_drop : forall l name drop f t, family l -> plain_drop drop ->
  (forall h, In h (held name l) -> numeric h) -> part name l = f :: t ->
  (exists r s, combine_attrs (map MAttrs l) name "drop" drop None = Ok r /\ dropped name drop s f t r
     /\ (name <> "" -> merged (held name l) s))
  \/ (name <> "" /\ clash (held name l) /\ combine_attrs (map MAttrs l) name "drop" drop None = Err AttributeMergeError).
Proof. exact drop_result. Qed.
Print Assumptions C51_drop.
Example C51_drop_applies : family [early; other_tag] /\ part "time" [early; other_tag] = [early; other_tag]
  /\ (forall h, In h (held "time" [early; other_tag]) -> numeric h)
  /\ exists r, combine_attrs (map MAttrs [early; other_tag]) "time" "drop" [] None = Ok r
     /\ value_of r "tag" = Some (AStr "") /\ value_of r "gauge" = Some (ANum 3) /\ assoc "time" (a_coords r) = Some both.
Proof.
  split; [apply familyb_ok; vm_compute; reflexivity|]. split; [reflexivity|]. split; [numbers|].
  eexists. split; [vm_compute; reflexivity|]. repeat split; vm_compute; reflexivity.
Qed.
Example C51_drop_clashes : family [early; other_dtype] /\ clash (held "time" [early; other_dtype])
  /\ (forall h, In h (held "time" [early; other_dtype]) -> numeric h)
  /\ combine_attrs (map MAttrs [early; other_dtype]) "time" "drop" [] None = Err AttributeMergeError.
Proof.
  split; [apply familyb_ok; vm_compute; reflexivity|]. split; [|split; [numbers|vm_compute; reflexivity]].
  eexists _, _. split; [now left|]. split; [right; now left|]. left. discriminate.
Qed.

(** keep_first: the first value that is not the default, and the first set's
    coordinates. *)
Theorem C51_keep_first : forall l name drop f t, family l -> plain_drop drop ->
  (forall h, In h (held name l) -> numeric h) -> part name l = f :: t ->
  (exists r s, combine_attrs (map MAttrs l) name "keep_first" drop None = Ok r /\ first_kept name drop s f t r
     /\ (name <> "" -> merged (held name l) s))
  \/ (name <> "" /\ clash (held name l) /\ combine_attrs (map MAttrs l) name "keep_first" drop None = Err AttributeMergeError).
Proof. exact keep_first_result. Qed.
Print Assumptions C51_keep_first.
Example C51_keep_first_applies : family [early; other_tag] /\ part "time" [early; other_tag] = [early; other_tag]
  /\ (forall h, In h (held "time" [early; other_tag]) -> numeric h)
  /\ exists r, combine_attrs (map MAttrs [early; other_tag]) "time" "keep_first" [] None = Ok r
     /\ value_of r "tag" = Some (AStr "a") /\ assoc "time" (a_coords r) = Some both.
Proof.
  split; [apply familyb_ok; vm_compute; reflexivity|]. split; [reflexivity|]. split; [numbers|].
  eexists. split; [vm_compute; reflexivity|]. repeat split; vm_compute; reflexivity.
Qed.

(** Nothing to merge, and arguments that are refused. *)
Theorem C51_no_coordinate : forall l name conflicts drop, family l -> plain_drop drop -> l <> [] ->
  In conflicts ["drop"; "raise"] -> part name l = [] ->
  combine_attrs (map MAttrs l) name conflicts drop None = Err AttributeMergeError.
Proof.
  intros l name conflicts drop F P L [<-|[<-|[]]] Pt; rewrite (combine_none l name) by (auto; reflexivity); reflexivity.
Qed.
Print Assumptions C51_no_coordinate.
Example C51_no_coordinate_applies : family [early; late] /\ part "depth" [early; late] = [].
Proof. split; [apply familyb_ok; vm_compute; reflexivity|reflexivity]. Qed.

Theorem C51_arguments : forall l name conflicts drop coord,
  (~ In conflicts ["drop"; "raise"; "keep_first"] -> combine_attrs l name conflicts drop coord = Err ParameterError)
  /\ (In conflicts ["drop"; "raise"; "keep_first"] -> combine_attrs [] name conflicts drop None = Err IndexError).
Proof.
  intros l name conflicts drop coord. split.
  - intros N. unfold combine_attrs. replace (mem conflicts conflict_values) with false; [reflexivity|].
    symmetry. now apply CmProofs.mem_false.
  - intros I. destruct I as [<-|[<-|[<-|[]]]]; unfold combine_attrs, model_dicts; destruct (String.eqb name ""); reflexivity.
Qed.
Print Assumptions C51_arguments.
Example C51_arguments_applies : ~ In "first" ["drop"; "raise"; "keep_first"].
Proof. cbn. intuition discriminate. Qed.

(** ** Where the merge departs from the claim *)

(** keep_first does not keep the first value when that is the field's default:
    dumping leaves defaults out, so a later set's value is taken
    (utils/attrs.py 117, 164). The first tag is "", the merged one "b". *)
Theorem C51_keep_first_default_refuted : exists l f t r, family l /\ part "time" l = f :: t
  /\ combine_attrs (map MAttrs l) "time" "keep_first" [] None = Ok r
  /\ value_of f "tag" = Some (AStr "") /\ value_of r "tag" = Some (AStr "b").
Proof.
  exists [aset "" 0 4 (ANum 1) (AStr "s") 9; other_tag], (aset "" 0 4 (ANum 1) (AStr "s") 9), [other_tag]. eexists.
  split; [apply familyb_ok; vm_compute; reflexivity|]. split; [reflexivity|]. split; [vm_compute; reflexivity|].
  split; vm_compute; reflexivity.
Qed.
Print Assumptions C51_keep_first_default_refuted.

(** keep_first along a coordinate that no set has returns empty attributes, where
    the other modes raise: the ChainMap of no dicts is an empty dict
    (utils/attrs.py 163-164, 186). *)
Theorem C51_keep_first_nothing_refuted : exists l r, family l /\ l <> []
  /\ combine_attrs (map MAttrs l) "depth" "keep_first" [] None = Ok r
  /\ combine_attrs (map MAttrs l) "depth" "drop" [] None = Err AttributeMergeError
  /\ a_vals r = [] /\ a_dims r = "" /\ a_coords r = [].
Proof.
  exists [early; late]. eexists. split; [apply familyb_ok; vm_compute; reflexivity|]. split; [discriminate|].
  split; [vm_compute; reflexivity|]. repeat split; vm_compute; reflexivity.
Qed.
Print Assumptions C51_keep_first_nothing_refuted.

(** drop with one conflicting coordinate loses all of them, the merged one too:
    coords is compared and dropped as a single value (utils/attrs.py 153-160). *)
Theorem C51_drop_coords_refuted : exists l r, family l
  /\ combine_attrs (map MAttrs l) "time" "drop" [] None = Ok r
  /\ a_dims r = "time,distance" /\ a_coords r = [].
Proof.
  exists [early; shorter]. eexists. split; [apply familyb_ok; vm_compute; reflexivity|].
  split; [vm_compute; reflexivity|]. split; vm_compute; reflexivity.
Qed.
Print Assumptions C51_drop_coords_refuted.

(** drop with conflicting dims makes every coordinate a dimension, the merged one
    last (utils/attrs.py 136-138 with core/attrs.py 44-58). *)
Theorem C51_drop_dims_refuted : exists l r, family l
  /\ map a_dims l = ["time,distance"; "time,depth"]
  /\ combine_attrs (map MAttrs l) "time" "drop" [] None = Ok r /\ a_dims r = "distance,time".
Proof.
  exists [early; mkAttrs [("tag", AStr "a")] "time,depth" (a_coords late)]. eexists.
  split; [apply familyb_ok; vm_compute; reflexivity|]. split; [reflexivity|].
  split; vm_compute; reflexivity.
Qed.
Print Assumptions C51_drop_dims_refuted.

(** A missing value (NaN) that all sets share is kept when everything agrees, and
    dropped when some other attribute conflicts (utils/attrs.py 153-173). *)
Theorem C51_drop_null_refuted : exists a b c r s, family [a; b; c]
  /\ value_of a "x" = Some ANull /\ value_of b "x" = Some ANull /\ value_of c "x" = Some ANull
  /\ combine_attrs (map MAttrs [a; b]) "" "drop" [] None = Ok r /\ value_of r "x" = Some ANull
  /\ combine_attrs (map MAttrs [a; c]) "" "drop" [] None = Ok s /\ value_of s "x" = None.
Proof.
  exists (mkAttrs [("tag", AStr "a"); ("x", ANull)] "" []), (mkAttrs [("tag", AStr "a"); ("x", ANull)] "" []),
    (mkAttrs [("tag", AStr "b"); ("x", ANull)] "" []). eexists _, _.
  split; [apply familyb_ok; vm_compute; reflexivity|]. repeat (split; [vm_compute; reflexivity|]). vm_compute. reflexivity.
Qed.
Print Assumptions C51_drop_null_refuted.

(** raise does not look at sets without the coordinate: their conflicting values
    are dropped silently (utils/attrs.py 128-129). *)
Theorem C51_raise_ignored_refuted : exists a b r, family [a; b] /\ value_of a "tag" <> value_of b "tag"
  /\ combine_attrs (map MAttrs [a; b]) "time" "raise" [] None = Ok r /\ value_of r "tag" = value_of a "tag".
Proof.
  exists early, (mkAttrs [("tag", AStr "z")] "distance" [("distance", mkSumm "int64" (ANum 0) (ANum 9) (ANum 1) (AStr "m"))]). eexists.
  split; [apply familyb_ok; vm_compute; reflexivity|]. split; [discriminate|]. split; vm_compute; reflexivity.
Qed.
Print Assumptions C51_raise_ignored_refuted.

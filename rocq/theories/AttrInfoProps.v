(** C56: coordinate information among attributes.
    Model: AttrsModel.v. Specification vocabulary: AttrsSpec.v. *)
From Verif Require Import Base BaseFacts FrameModel CmModel AttrsModel AttrsSpec AttrsProofs7 AttrsProofs8 AttrsProofs9 AttrsProofs10 AttrsProofs11.
From Coq Require Import Strings.String.
Local Open Scope Z_scope.
Local Open Scope string_scope.

(** Attributes for the witnesses. *)
Definition seen : attrs :=
  mkAttrs [("tag", AStr "a"); ("gauge", ANum 3)] "time,distance"
    [("time", mkSumm "datetime64" (ANum 0) (ANum 4) ANone ANone);
     ("distance", mkSumm "int64" (ANum 0) (ANum 9) (ANum 1) (AStr "m"))].
Definition single : attrs :=
  mkAttrs [("tag", AStr "a")] "time" [("time", mkSumm "int64" (ANum 0) (ANum 4) (ANum 1) ANone)].
Lemma seen_family : family [seen]. Proof. apply familyb_ok. vm_compute. reflexivity. Qed.
Lemma single_family : family [single]. Proof. apply familyb_ok. vm_compute. reflexivity. Qed.
Lemma seen_flat : flat_names (dim_tuple seen). Proof. apply flat_namesb_ok. vm_compute. reflexivity. Qed.

(** Attributes rebuilt from their own dump read the same. *)
Theorem C56_rebuild : forall a, family [a] -> clear_names a -> a_dims a <> "" ->
  exists r, mk_attrs (dump a) = Ok r /\ same_attrs a r.
Proof. exact rebuild_dump. Qed.
Print Assumptions C56_rebuild.
Example C56_rebuild_applies : family [seen] /\ clear_names seen /\ a_dims seen <> "".
Proof. split; [exact seen_family|]. split; [apply clearb_ok; vm_compute; reflexivity|discriminate]. Qed.

(** Updating attributes that are no coordinate information changes these only. *)
Theorem C56_update : forall a kvs, family [a] -> a_dims a <> "" -> NoDup (map fst kvs) ->
  (forall k, In k (map fst kvs) -> quiet k /\ apart (names_of a) k /\ k <> "dims" /\ k <> "coords") ->
  exists r, attrs_update a (mkDict kvs None) = Ok r
    /\ (forall k, k <> "dims" -> value_of r k = match assoc k kvs with Some v => Some v | None => value_of a k end)
    /\ a_dims r = a_dims a /\ a_coords r = a_coords a.
Proof. exact update_plain. Qed.
Print Assumptions C56_update.
Example C56_update_applies : exists r, attrs_update seen (mkDict [("tag", AStr "b"); ("data_units", AStr "m/s")] None) = Ok r
  /\ value_of r "tag" = Some (AStr "b") /\ value_of r "gauge" = Some (ANum 3)
  /\ quiet "tag" /\ apart (names_of seen) "tag".
Proof.
  eexists. split; [vm_compute; reflexivity|]. split; [reflexivity|]. split; [reflexivity|].
  split; [apply quietb_ok; reflexivity|apply apartb_ok; reflexivity].
Qed.

(** Updating a coordinate field under its flat name changes that field only, when
    dims are passed along, or the field is units, or there is no other dimension. *)
Theorem C56_update_field : forall a n s f v pre, family [a] -> a_dims a <> "" -> flat_names (dim_tuple a) -> In n (dim_tuple a) ->
  assoc n (a_coords a) = Some s -> In f ["min"; "max"; "step"; "units"] ->
  pre = [("dims", AStr (a_dims a))] \/ (pre = [] /\ (f = "units" \/ dim_tuple a = [n])) ->
  exists r, attrs_update a (mkDict (pre ++ [((n ++ "_" ++ f)%string, v)])%list None) = Ok r /\ only_coord a n (with_field s f v) r
    /\ (value_of a (n ++ "_" ++ f) = None -> attr_read r (n ++ "_" ++ f) = Ok v).
Proof. exact update_field'. Qed.
Print Assumptions C56_update_field.
Example C56_update_field_applies : flat_names (dim_tuple seen)
  /\ exists r, attrs_update seen (mkDict [("dims", AStr "time,distance"); ("time_max", ANum 30)] None) = Ok r
  /\ assoc "time" (a_coords r) = Some (mkSumm "datetime64" (ANum 0) (ANum 30) ANone ANone)
  /\ attr_read r "time_max" = Ok (ANum 30).
Proof. split; [exact seen_flat|]. eexists. split; [vm_compute; reflexivity|]. split; reflexivity. Qed.

(** Nested information updates the fields given, of that coordinate only. *)
Theorem C56_update_nested : forall a n s m, family [a] -> a_dims a <> "" -> assoc n (a_coords a) = Some s ->
  m <> [] -> (forall f, In f (map fst m) -> In f ["min"; "max"; "step"; "units"]) ->
  exists r, attrs_update a (mkDict [] (Some (CDict [(n, m)]))) = Ok r
    /\ only_coord a n (fold_left (fun t e => with_field t (fst e) (snd e)) m s) r.
Proof. exact update_nested'. Qed.
Print Assumptions C56_update_nested.
Example C56_update_nested_applies : exists r,
  attrs_update seen (mkDict [] (Some (CDict [("time", [("max", ANum 30); ("units", AStr "s")])]))) = Ok r
  /\ assoc "time" (a_coords r) = Some (mkSumm "datetime64" (ANum 0) (ANum 30) ANone (AStr "s")).
Proof. eexists. split; [vm_compute; reflexivity|reflexivity]. Qed.

(** An empty coords clears the coordinates and keeps the rest, dims too. *)
Theorem C56_update_clear : forall a, family [a] -> a_dims a <> "" ->
  exists r, attrs_update a (mkDict [] (Some (CDict []))) = Ok r /\ same_attrs (mkAttrs (a_vals a) (a_dims a) []) r.
Proof. exact update_no_coords. Qed.
Print Assumptions C56_update_clear.
Example C56_update_clear_applies : family [seen] /\ a_dims seen <> "" /\ a_coords seen <> [].
Proof. split; [exact seen_family|]. split; discriminate. Qed.

(** The flat form read back: the same attributes, dims and coordinates, when the
    coordinates are the dimensions. *)
Theorem C56_flat_round : forall a, family [a] -> clear_names a -> a_dims a <> "" -> flat_names (dim_tuple a) ->
  (forall n, In n (map fst (a_coords a)) <-> In n (dim_tuple a)) ->
  exists r, mk_attrs (mkDict (flat_dump a) None) = Ok r
    /\ (forall k, k <> "dims" -> value_of r k = value_of a k) /\ a_dims r = a_dims a
    /\ map fst (a_coords r) = dim_tuple a
    /\ forall n s, assoc n (a_coords a) = Some s -> assoc n (a_coords r) = Some (flat_summ s).
Proof. exact flat_round. Qed.
Print Assumptions C56_flat_round.
Example C56_flat_round_applies : clear_names seen /\ flat_names (dim_tuple seen)
  /\ (forall n, In n (map fst (a_coords seen)) <-> In n (dim_tuple seen))
  /\ exists r, mk_attrs (mkDict (flat_dump seen) None) = Ok r
    /\ assoc "time" (a_coords r) = Some (mkSumm "datetime64" (ANum 0) (ANum 4) ANull ANone).
Proof.
  split; [apply clearb_ok; vm_compute; reflexivity|]. split; [exact seen_flat|]. split; [intros n; cbn; tauto|].
  eexists. split; [vm_compute; reflexivity|reflexivity].
Qed.

(** Reading a flat name gives the field of the coordinate. *)
Theorem C56_read : forall a n s f, ~ contains "_" n -> n <> "d" -> In f ["dtype"; "min"; "max"; "step"; "units"] ->
  value_of a (n ++ "_" ++ f) = None -> assoc n (a_coords a) = Some s -> attr_read a (n ++ "_" ++ f) = Ok (field_of s f).
Proof. exact read_field. Qed.
Print Assumptions C56_read.
Example C56_read_applies : ~ contains "_" "distance" /\ value_of seen "distance_step" = None
  /\ attr_read seen "distance_step" = Ok (ANum 1).
Proof. split; [|split; reflexivity]. intros C. apply AttrsProofs.str_contains_spec in C. discriminate. Qed.

(** Renaming a dimension renames it in dims and in the coordinates, nothing else. *)
Theorem C56_rename : forall a o n, family [a] -> NoDup (dim_tuple a) -> In o (dim_tuple a) -> ~ In n (names_of a) -> n <> "dims" -> n <> "coords" ->
  (forall k, In k (map fst (a_vals a)) -> ~ starts n k /\ k <> "d_" ++ n) ->
  exists r, rename_dims a [(o, n)] = Ok r
    /\ (forall k, k <> "dims" -> value_of r k = value_of a k)
    /\ a_dims r = str_join "," (map (fun x => if String.eqb x o then n else x) (dim_tuple a))
    /\ assoc n (a_coords r) = assoc o (a_coords a) /\ assoc o (a_coords r) = None
    /\ forall m, m <> o -> m <> n -> assoc m (a_coords r) = assoc m (a_coords a).
Proof. exact rename_one. Qed.
Print Assumptions C56_rename.
Example C56_rename_applies : exists r, rename_dims seen [("distance", "depth")] = Ok r /\ a_dims r = "time,depth"
  /\ assoc "depth" (a_coords r) = Some (mkSumm "int64" (ANum 0) (ANum 9) (ANum 1) (AStr "m"))
  /\ (forall k, In k (map fst (a_vals seen)) -> ~ starts "depth" k /\ k <> "d_depth").
Proof.
  eexists. split; [vm_compute; reflexivity|]. split; [reflexivity|]. split; [reflexivity|].
  intros k [<-|[<-|[]]]; (split; [intros S; apply AttrsProofs.str_prefix_starts in S; discriminate|discriminate]).
Qed.

(** update(time_max=...) on attributes with two dimensions makes time the only one:
    the dims found among the keywords replace those of the attributes
    (utils/attrs.py 302-305 with core/attrs.py 244-246). *)
Theorem C56_update_dims_refuted : exists a r, family [a] /\ a_dims a = "time,distance"
  /\ attrs_update a (mkDict [("time_max", ANum 30)] None) = Ok r /\ a_dims r = "time".
Proof. exists seen. eexists. split; [exact seen_family|]. split; [reflexivity|]. split; vm_compute; reflexivity. Qed.
Print Assumptions C56_update_dims_refuted.

(** An extra attribute such as timeout_max is taken for information about the
    dimension whose name it begins with: here it replaces time's maximum. The
    pattern only asks for the name, anything, and _max (utils/misc.py 440-461); the
    attribute itself stays. *)
Theorem C56_prefix_refuted : exists a r, family [a] /\ attr_read a "time_max" = Ok (ANum 4)
  /\ attrs_update a (mkDict [("dims", AStr (a_dims a)); ("timeout_max", ANum 30)] None) = Ok r
  /\ attr_read r "time_max" = Ok (ANum 30).
Proof. exists seen. eexists. split; [exact seen_family|]. split; [reflexivity|]. split; vm_compute; reflexivity. Qed.
Print Assumptions C56_prefix_refuted.

(** update(gauge_length=30, gauge_length_units="m") does not set gauge_length, and
    makes "gauge" the only dimension: gauge_length_units counts as the field "length"
    of a coordinate "gauge" (utils/attrs.py 246-251, 256-266, 285-287). *)
Theorem C56_two_words_refuted : exists a r, family [a] /\ a_dims a = "time"
  /\ attrs_update a (mkDict [("gauge_length", ANum 30); ("gauge_length_units", AStr "m")] None) = Ok r
  /\ value_of r "gauge_length" = None /\ a_dims r = "gauge".
Proof. exists single. eexists. split; [exact single_family|]. split; [reflexivity|]. repeat split; vm_compute; reflexivity. Qed.
Print Assumptions C56_two_words_refuted.

(** The flat form loses coordinates that are no dimensions: read back, their fields
    are plain attributes (core/attrs.py 288-321 with utils/attrs.py 253-266). *)
Theorem C56_flat_others_refuted : exists a r, family [a] /\ clear_names a /\ flat_names (dim_tuple a)
  /\ assoc "distance" (a_coords a) <> None
  /\ mk_attrs (mkDict (flat_dump a) None) = Ok r
  /\ assoc "distance" (a_coords r) = None /\ value_of r "distance_min" = Some (ANum 0).
Proof.
  exists (mkAttrs (a_vals seen) "time" (a_coords seen)). eexists. split; [apply familyb_ok; vm_compute; reflexivity|].
  split; [apply clearb_ok; vm_compute; reflexivity|]. split; [apply flat_namesb_ok; vm_compute; reflexivity|].
  split; [discriminate|]. repeat split; vm_compute; reflexivity.
Qed.
Print Assumptions C56_flat_others_refuted.

(** The flat form loses a dimension whose name has an underscore: no field is found
    under its first word (utils/attrs.py 258-259). *)
Theorem C56_flat_underscore_refuted : exists a, family [a] /\ clear_names a
  /\ a_coords a = [("ft_time", mkSumm "int64" (ANum 0) (ANum 4) (ANum 1) ANone)]
  /\ exists r, mk_attrs (mkDict (flat_dump a) None) = Ok r /\ assoc "ft_time" (a_coords r) = None.
Proof.
  exists (mkAttrs [("tag", AStr "a")] "ft_time" [("ft_time", mkSumm "int64" (ANum 0) (ANum 4) (ANum 1) ANone)]).
  split; [apply familyb_ok; vm_compute; reflexivity|]. split; [apply clearb_ok; vm_compute; reflexivity|]. split; [reflexivity|].
  eexists. split; vm_compute; reflexivity.
Qed.
Print Assumptions C56_flat_underscore_refuted.

(** A coordinate named "data" takes the data_units attribute away when the
    attributes are rebuilt from their dump (utils/attrs.py 285-287). *)
Theorem C56_rebuild_data_refuted : exists a r, tidy a /\ value_of a "data_units" = Some (AStr "m")
  /\ mk_attrs (dump a) = Ok r /\ value_of r "data_units" = Some ANone.
Proof.
  exists (mkAttrs [("data_units", AStr "m")] "time"
            [("time", mkSumm "int64" (ANum 0) (ANum 4) (ANum 1) ANone); ("data", mkSumm "int64" (ANum 0) (ANum 4) (ANum 1) ANone)]).
  eexists. split; [apply tidyb_ok; vm_compute; reflexivity|]. split; [reflexivity|]. split; vm_compute; reflexivity.
Qed.
Print Assumptions C56_rebuild_data_refuted.

(** Swapping the names of two dimensions loses a coordinate and keeps the dims:
    the renames are applied one after the other (core/attrs.py 228-230). *)
Theorem C56_swap_refuted : exists a r, family [a] /\ a_dims a = "time,distance"
  /\ rename_dims a [("time", "distance"); ("distance", "time")] = Ok r
  /\ a_dims r = "time,distance" /\ assoc "time" (a_coords r) = assoc "time" (a_coords a) /\ assoc "distance" (a_coords r) = None.
Proof. exists seen. eexists. split; [exact seen_family|]. split; [reflexivity|]. repeat split; vm_compute; reflexivity. Qed.
Print Assumptions C56_swap_refuted.

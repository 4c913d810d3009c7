(** Property C44: writing DASDAE files and reading them back.
    Model: DasdaeModel.v. Specification vocabulary: DasdaeSpec.v. *)
From Verif Require Import Base BaseFacts CoordModel CoordSpec NdModel NdSpec FrameModel ChunkModel CmModel CmSpec AttrsModel AttrsSpec
  DasdaeModel DasdaeSpec DasdaeProofs2 DasdaeProofs5 DasdaeProofs6 DasdaeProofs7 CmProps.
From Coq Require Import Strings.String Strings.Ascii Sorting.Permutation Sorting.Sorted ZifyBool Lia.
Local Open Scope Z_scope.
Local Open Scope list_scope.
Local Open Scope string_scope.

(** Any number of writes of any patches that can be stored: reading gives one patch
    per name, in the order of the names, and it is the one saved last under it, with
    the same data, dims, units and attributes and with its coordinates inferred anew
    from the same values. It is exactly the patch when its coordinates are of the kind
    get_coord gives for their values. A patch written over an earlier one has to have
    all the attributes and coordinates of that one. *)
Theorem C44_sequence : forall A show times (ws : list (list sdict * list (dpatch A))) l,
  named show times ws l -> all_storable l -> replaced l ->
  exists f ns ps, write_seq show times ws [] = Ok f /\ dasdae_read f = Ok ps /\ names_in_order l ns /\
    Forall2 (fun n p' => exists p, saved_last l n p /\ read_back p p' /\
      ((forall m c, assoc m (cm_coords (dp_cm p)) = Some c -> inferred c) -> same_dpatch p p')) ns ps.
Proof. intros A show times ws l. exact (writes_read show times ws l). Qed.
Print Assumptions C44_sequence.

Definition mk (p : patch Z) us vals : dpatch Z :=
  mkD p us (mkAttrs vals (str_join "," (cm_dims (p_cm p))) (cm_sums (p_cm p) us)).
Definition trange (a s n : Z) : mcoord := M1 (CRange (mkRange KTime a (a + n * s) s n)).
Definition tcm (t : mcoord) : cman :=
  mkCm ["time"; "distance"]
    [("time", t); ("distance", M1 (CMono KInt [0; 1; 5])); ("ch_no", M1 (CArr KInt [7; 3; 7]))]
    [("time", ["time"]); ("distance", ["distance"]); ("ch_no", ["distance"])].
Definition first_p : dpatch Z :=
  mk (mkPatch (tcm (trange 100 10 2)) (grid 2 3 (fun i j => 10 * i + j))) [("time", AStr "s"); ("distance", AStr "m")]
     [("network", AStr "n"); ("rate", ANum 4)].
Definition second_p : dpatch Z :=
  mk (mkPatch (tcm (trange 500 10 1)) (grid 1 3 (fun i j => 7 + j))) [("distance", AStr "ft")]
     [("network", AStr "n"); ("rate", ANum 5); ("history", ASeq ["a"; "b"])].
Lemma first_storable : storable first_p. Proof. apply storableb_ok; [reflexivity|vm_compute; reflexivity]. Qed.
Lemma second_storable : storable second_p. Proof. apply storableb_ok; [reflexivity|vm_compute; reflexivity]. Qed.
(** A stand-in for what pandas prints: the tenths of a second since some time. *)
Definition clock (z : Z) : string :=
  if (z <? 500)%Z then (if (z mod 10 =? 0)%Z then "2020-01-01 00:00:00.000000" else "2020-01-01 00:00:00.500000") else "2020-01-01 00:00:50".
Definition show1 (col : list scal) : list string := map (fun v => match v with ANum z => clock z | AStr s => s | _ => "nan" end) col.
Definition nums (col : list scal) : bool := forallb (fun v => match v with ANum _ => true | _ => false end) col.

Example C44_sequence_applies :
  let ws := [(memory_rows [first_p; second_p], [first_p; second_p]); (memory_rows [first_p], [first_p])] in
  exists l f p q, named show1 nums ws l /\ all_storable l /\ replaced l /\ write_seq show1 nums ws [] = Ok f /\ dasdae_read f = Ok [p; q]
    /\ map fst l = ["DAS___n______2020_01_01T00_00_00__2020_01_01T00_00_00"; "DAS___n______2020_01_01T00_00_50__2020_01_01T00_00_50";
                    "DAS___n______2020_01_01T00_00_00__2020_01_01T00_00_00"]
    /\ nd_flat (p_data (dp_patch p)) = [0; 1; 2; 10; 11; 12] /\ assoc "time" (cm_coords (dp_cm q)) = Some (trange 500 10 1).
Proof.
  cbv zeta. do 4 eexists. split.
  - apply named_cons with (ns := ["DAS___n______2020_01_01T00_00_00__2020_01_01T00_00_00"; "DAS___n______2020_01_01T00_00_50__2020_01_01T00_00_50"]); [vm_compute; reflexivity|].
    apply named_cons with (ns := ["DAS___n______2020_01_01T00_00_00__2020_01_01T00_00_00"]); [vm_compute; reflexivity|]. constructor.
  - cbn [combine app]. split; [|split].
    + intros n p [[= <- <-]|[[= <- <-]|[[= <- <-]|[]]]]; (split; [exact first_storable || exact second_storable|apply node_nameb_ok; reflexivity]).
    + intros n p q (l1 & l2 & E & N) I.
      assert (forall x y, In (x, y) [("DAS___n______2020_01_01T00_00_00__2020_01_01T00_00_00", first_p); ("DAS___n______2020_01_01T00_00_50__2020_01_01T00_00_50", second_p);
        ("DAS___n______2020_01_01T00_00_00__2020_01_01T00_00_00", first_p)] -> y = if String.eqb x "DAS___n______2020_01_01T00_00_00__2020_01_01T00_00_00" then first_p else second_p) as U.
      { intros x y [[= <- <-]|[[= <- <-]|[[= <- <-]|[]]]]; reflexivity. }
      assert (p = q) as ->. { rewrite (U n q I). apply U. rewrite E. apply in_app_iff. right. now left. } split; apply incl_refl.
    + split; [vm_compute; reflexivity|]. split; [vm_compute; reflexivity|]. repeat split.
Qed.

(** Patches in memory that differ in network, station, tag or in their times to the
    second all come back, each once. *)
Theorem C44_keeps : forall A show times (ps : list (dpatch A)) sec,
  (forall p, In p ps -> storable p) -> (forall p, In p ps -> plain_name p) -> (forall p, In p ps -> no_slash p) ->
  shows_times show times ps sec ->
  (forall i j p q, nth_error ps i = Some p -> nth_error ps j = Some q -> same_text p q ->
     sec p "time_min" = sec q "time_min" -> sec p "time_max" = sec q "time_max" -> i = j) ->
  exists f ps' qs, dasdae_write show times (memory_rows ps) ps [] = Ok f /\ dasdae_read f = Ok ps' /\
    Permutation ps qs /\ Forall2 read_back qs ps'.
Proof. intros A show times ps sec. exact (write_keeps show times ps sec). Qed.
Print Assumptions C44_keeps.

(** What was read can be written again, and then comes back unchanged. *)
Theorem C44_again : forall A (p : dpatch A) n, storable p -> node_name n ->
  exists f p' f' p'', save_patch p n [] = Ok f /\ dasdae_read f = Ok [p'] /\ read_back p p' /\ storable p' /\
    save_patch p' n [] = Ok f' /\ dasdae_read f' = Ok [p''] /\ same_dpatch p' p''.
Proof. exact @again. Qed.
Print Assumptions C44_again.
Example C44_again_applies : storable first_p /\ node_name "a b"
  /\ exists f p', save_patch first_p "a b" [] = Ok f /\ dasdae_read f = Ok [p'] /\ p' <> first_p /\ unit_in (dp_units p') "distance" = AStr "m".
Proof. split; [exact first_storable|]. split; [now apply node_nameb_ok|]. do 2 eexists. split; [vm_compute; reflexivity|]. split; [vm_compute; reflexivity|]. split; [discriminate|reflexivity]. Qed.

(** Every list of patches gets a name for each, and patches with the same name have
    the same network, station and tag. *)
Theorem C44_names : forall A show times (ps : list (dpatch A)), (forall p, In p ps -> plain_name p) ->
  exists ns, patch_names show times (memory_rows ps) = Ok ns /\ List.length ns = List.length ps /\
  forall i j p q n, nth_error ps i = Some p -> nth_error ps j = Some q -> nth_error ns i = Some n -> nth_error ns j = Some n ->
    same_text p q.
Proof. intros A show times ps. exact (names_plain show times ps). Qed.
Print Assumptions C44_names.
(** With times, names are the same exactly when those agree and so do the times to
    the second. *)
Theorem C44_names_times : forall A show times (ps : list (dpatch A)) sec, (forall p, In p ps -> plain_name p) ->
  (forall p, In p ps -> NoDup (map fst (a_coords (dp_attrs p)))) -> shows_times show times ps sec ->
  exists ns, patch_names show times (memory_rows ps) = Ok ns /\ List.length ns = List.length ps /\
  forall i j p q n m, nth_error ps i = Some p -> nth_error ps j = Some q -> nth_error ns i = Some n -> nth_error ns j = Some m ->
    (n = m <-> same_text p q /\ sec p "time_min" = sec q "time_min" /\ sec p "time_max" = sec q "time_max").
Proof. intros A show times ps sec. exact (names_times show times ps sec). Qed.
Print Assumptions C44_names_times.

Definition sec1 (p : dpatch Z) (c : string) : string :=
  if String.eqb (match assoc "time" (a_coords (dp_attrs p)) with Some s => match s_min s with ANum z => clock z | _ => "" end | None => "" end) "2020-01-01 00:00:50"
  then "2020-01-01 00:00:50" else "2020-01-01 00:00:00".
Lemma clean_n s : str_contains "__" s = false -> last (list_ascii_of_string s) "x"%char <> "_"%char -> clean s.
Proof. intros H1 H2. split; [intros C; apply AttrsProofs.str_contains_spec in C; congruence|]. intros a E. apply H2. now apply (last_app_us a). Qed.
Lemma first_plain : plain_name first_p /\ no_slash first_p.
Proof.
  split; [split; [cbn; intuition discriminate|]; split; [cbn; intuition discriminate|]; intros k [<-|[<-|[<-|[]]]]; eexists; (split; [reflexivity|apply clean_n; [reflexivity|discriminate]])|].
  intros k s [<-|[<-|[<-|[]]]] [= <-] C; apply AttrsProofs.str_contains_spec in C; discriminate.
Qed.
Lemma second_plain : plain_name second_p /\ no_slash second_p.
Proof.
  split; [split; [cbn; intuition discriminate|]; split; [cbn; intuition discriminate|]; intros k [<-|[<-|[<-|[]]]]; eexists; (split; [reflexivity|apply clean_n; [reflexivity|discriminate]])|].
  intros k s [<-|[<-|[<-|[]]]] [= <-] C; apply AttrsProofs.str_contains_spec in C; discriminate.
Qed.
Lemma both_shown : shows_times show1 nums [first_p; second_p] sec1.
Proof.
  intros c f [[= <- <-]|[[= <- <-]|[]]]; eexists; (split; [constructor; [|constructor; [|constructor]]; (eexists; split; [reflexivity|]; split; [reflexivity|eexists; reflexivity])|]).
  - split; [reflexivity|]. constructor; [|constructor; [|constructor]]; (split; [left; vm_compute; reflexivity|]); [right; exists "000000"|left]; vm_compute; reflexivity.
  - split; [reflexivity|]. constructor; [|constructor; [|constructor]]; (split; [left; vm_compute; reflexivity|]); [right; exists "000000"|left]; vm_compute; reflexivity.
Qed.
Example C44_keeps_applies : (forall p, In p [first_p; second_p] -> storable p /\ plain_name p /\ no_slash p)
  /\ shows_times show1 nums [first_p; second_p] sec1 /\ sec1 first_p "time_min" <> sec1 second_p "time_min"
  /\ exists f p q, dasdae_write show1 nums (memory_rows [second_p; first_p]) [second_p; first_p] [] = Ok f /\ dasdae_read f = Ok [p; q]
     /\ p_data (dp_patch p) = p_data (dp_patch first_p) /\ p_data (dp_patch q) = p_data (dp_patch second_p).
Proof.
  split; [intros p [<-|[<-|[]]]; [split; [exact first_storable|exact first_plain]|split; [exact second_storable|exact second_plain]]|]. split; [exact both_shown|].
  split; [vm_compute; discriminate|]. do 3 eexists. split; [vm_compute; reflexivity|]. split; [vm_compute; reflexivity|]. split; reflexivity.
Qed.

Example C44_names_applies : (forall p, In p [first_p; second_p] -> plain_name p)
  /\ (forall p, In p [first_p; second_p] -> NoDup (map fst (a_coords (dp_attrs p)))) /\ shows_times show1 nums [first_p; second_p] sec1
  /\ patch_names show1 nums (memory_rows [first_p; second_p])
     = Ok ["DAS___n______2020_01_01T00_00_00__2020_01_01T00_00_00"; "DAS___n______2020_01_01T00_00_50__2020_01_01T00_00_50"].
Proof.
  split; [intros p [<-|[<-|[]]]; [apply first_plain|apply second_plain]|].
  split; [intros p [<-|[<-|[]]]; vm_compute; repeat constructor; cbn; intuition discriminate|]. split; [exact both_shown|vm_compute; reflexivity].
Qed.

(** ** What the format does not keep *)

(** A patch saved under a name that is taken does not replace what is there: an
    attribute of the earlier patch that it lacks shows up in it. *)
Theorem C44_stale_attribute_refuted : ~ (forall (l : list (string * dpatch Z)) f ps n p, all_storable l -> save_all l [] = Ok f ->
  dasdae_read f = Ok ps -> map fst l = [n; n] -> saved_last l n p -> exists p', ps = [p'] /\ value_of (dp_attrs p') "rate" = value_of (dp_attrs p) "rate").
Proof.
  intros H. set (q := mk (dp_patch first_p) (dp_units first_p) [("network", AStr "n")]).
  assert (S : storable q) by (apply storableb_ok; [reflexivity|vm_compute; reflexivity]).
  destruct (save_all [("n", first_p); ("n", q)] []) as [f|] eqn:E; [|vm_compute in E; discriminate]. destruct (dasdae_read f) as [ps|] eqn:R.
  - destruct (H [("n", first_p); ("n", q)] f ps "n" q) as (p' & -> & V).
    + intros n p [[= <- <-]|[[= <- <-]|[]]]; (split; [exact first_storable || exact S|now apply node_nameb_ok]).
    + exact E.
    + exact R.
    + reflexivity.
    + exists [("n", first_p)], []. split; [reflexivity|intros []].
    + vm_compute in E. injection E as <-. vm_compute in R. injection R as <-. vm_compute in V. discriminate.
  - vm_compute in E. injection E as <-. vm_compute in R. discriminate.
Qed.
Print Assumptions C44_stale_attribute_refuted.

(** ... and a coordinate of the earlier patch that no longer fits makes the file
    unreadable, although both patches can be stored. *)
Definition short_p : dpatch Z :=
  mk (mkPatch (mkCm ["time"; "distance"] [("time", trange 0 1 2); ("distance", rng 0 1 2)] [("time", ["time"]); ("distance", ["distance"])])
        (grid 2 2 (fun i j => i + j))) [] [].
Theorem C44_stale_coordinate_refuted : ~ (forall (l : list (string * dpatch Z)) f, all_storable l -> save_all l [] = Ok f ->
  exists ps, dasdae_read f = Ok ps).
Proof.
  intros H. assert (S : storable short_p) by (apply storableb_ok; [reflexivity|vm_compute; reflexivity]).
  destruct (save_all [("n", first_p); ("n", short_p)] []) as [f|] eqn:E; [|vm_compute in E; discriminate].
  destruct (H [("n", first_p); ("n", short_p)] f) as (ps & R); [|exact E|].
  - intros n p [[= <- <-]|[[= <- <-]|[]]]; (split; [exact first_storable || exact S|now apply node_nameb_ok]).
  - vm_compute in E. injection E as <-. vm_compute in R. discriminate.
Qed.
Print Assumptions C44_stale_coordinate_refuted.

(** Two patches in one call whose times differ by less than a second get one name;
    only the second is kept. *)
Definition half_p : dpatch Z :=
  mk (mkPatch (tcm (trange 105 10 2)) (grid 2 3 (fun i j => 0))) [] [("network", AStr "n"); ("rate", ANum 4)].
Lemma half_storable : storable half_p. Proof. apply storableb_ok; [reflexivity|vm_compute; reflexivity]. Qed.
Theorem C44_same_second_refuted : ~ (forall show times (ps : list (dpatch Z)) f qs, (forall p, In p ps -> storable p) -> (forall p, In p ps -> plain_name p) ->
  (exists sec, shows_times show times ps sec) -> NoDup (map (fun p => assoc "time" (a_coords (dp_attrs p))) ps) ->
  dasdae_write show times (memory_rows ps) ps [] = Ok f -> dasdae_read f = Ok qs -> List.length qs = List.length ps).
Proof.
  intros H. destruct (dasdae_write show1 nums (memory_rows [first_p; half_p]) [first_p; half_p] []) as [f|] eqn:E; [|vm_compute in E; discriminate].
  destruct (dasdae_read f) as [qs|] eqn:R.
  - specialize (H show1 nums [first_p; half_p] f qs). assert (L : List.length qs = 2%nat).
    { apply H; auto.
      - intros p [<-|[<-|[]]]; [exact first_storable|exact half_storable].
      - intros p [<-|[<-|[]]]; [exact (proj1 first_plain)|]. split; [cbn; intuition discriminate|]. split; [cbn; intuition discriminate|].
        intros k [<-|[<-|[<-|[]]]]; eexists; (split; [reflexivity|apply clean_n; [reflexivity|discriminate]]).
      - exists (fun _ _ => "2020-01-01 00:00:00").
        intros c f0 [[= <- <-]|[[= <- <-]|[]]]; eexists; (split; [constructor; [|constructor; [|constructor]]; (eexists; split; [reflexivity|]; split; [reflexivity|eexists; reflexivity])|]).
        + split; [reflexivity|]. constructor; [|constructor; [|constructor]]; (split; [left; vm_compute; reflexivity|right]); [exists "000000"|exists "500000"]; vm_compute; reflexivity.
        + split; [reflexivity|]. constructor; [|constructor; [|constructor]]; (split; [left; vm_compute; reflexivity|right]); [exists "000000"|exists "500000"]; vm_compute; reflexivity.
      - vm_compute. repeat constructor; cbn; intuition discriminate. }
    clear H. vm_compute in E. injection E as <-. vm_compute in R. injection R as <-. discriminate.
  - vm_compute in E. injection E as <-. vm_compute in R. discriminate.
Qed.
Print Assumptions C44_same_second_refuted.

(** Nor are names told apart when the separator occurs in the texts. *)
Theorem C44_separator_refuted : ~ (forall show times (p q : dpatch Z) n m, storable p -> storable q ->
  patch_names show times (memory_rows [p; q]) = Ok [n; m] -> value_of (dp_attrs p) "network" <> value_of (dp_attrs q) "network" -> n <> m).
Proof.
  intros H. set (p := mk (dp_patch first_p) [] [("network", AStr "a"); ("station", AStr "b__c")]). set (q := mk (dp_patch first_p) [] [("network", AStr "a__b"); ("station", AStr "c")]).
  apply (H show1 nums p q "DAS___a__b__c____2020_01_01T00_00_00__2020_01_01T00_00_00" "DAS___a__b__c____2020_01_01T00_00_00__2020_01_01T00_00_00"); [| |vm_compute; reflexivity|vm_compute; discriminate|reflexivity];
    (apply storableb_ok; [reflexivity|vm_compute; reflexivity]).
Qed.
Print Assumptions C44_separator_refuted.

(** An attribute called name on one patch takes the name from all the others, which
    are all called nan. *)
Theorem C44_name_attribute_refuted : ~ (forall show times (ps : list (dpatch Z)) f qs, (forall p, In p ps -> storable p) ->
  NoDup (map (fun p => value_of (dp_attrs p) "network") ps) -> dasdae_write show times (memory_rows ps) ps [] = Ok f -> dasdae_read f = Ok qs ->
  List.length qs = List.length ps).
Proof.
  intros H. set (w := fun v => mk (dp_patch first_p) [] v). set (ps := [w [("network", AStr "a"); ("name", AStr "x")]; w [("network", AStr "b")]; w [("network", AStr "c")]]).
  destruct (dasdae_write show1 nums (memory_rows ps) ps []) as [f|] eqn:E; [|vm_compute in E; discriminate]. destruct (dasdae_read f) as [qs|] eqn:R.
  - assert (L : List.length qs = 3%nat).
    { apply (H show1 nums ps f qs); auto; [intros p [<-|[<-|[<-|[]]]]; (apply storableb_ok; [reflexivity|vm_compute; reflexivity])|].
      vm_compute. repeat constructor; cbn; intuition discriminate. }
    clear H. vm_compute in E. injection E as <-. vm_compute in R. injection R as <-. discriminate.
  - vm_compute in E. injection E as <-. vm_compute in R. discriminate.
Qed.
Print Assumptions C44_name_attribute_refuted.

(** Rows of a spool over files carry the path: all patches of one file get the name
    of that file, and only the last is kept. *)
Theorem C44_path_refuted : ~ (forall show times rows (ps : list (dpatch Z)) f qs, (forall p, In p ps -> storable p) -> List.length rows = List.length ps ->
  Forall2 (fun row p => forall k v, k <> "path" -> assoc k row = Some v -> assoc k (flat_dump (dp_attrs p)) = Some v) rows ps ->
  dasdae_write show times rows ps [] = Ok f -> dasdae_read f = Ok qs -> List.length qs = List.length ps).
Proof.
  intros H. set (row := fun n => [("network", AStr n); ("path", AStr "dir/file_1.h5")]). set (w := fun n => mk (dp_patch first_p) [] [("network", AStr n)]). set (ps := [w "a"; w "b"]).
  destruct (dasdae_write show1 nums [row "a"; row "b"] ps []) as [f|] eqn:E; [|vm_compute in E; discriminate]. destruct (dasdae_read f) as [qs|] eqn:R.
  - assert (L : List.length qs = 2%nat).
    { apply (H show1 nums [row "a"; row "b"] ps f qs); auto; [intros p [<-|[<-|[]]]; (apply storableb_ok; [reflexivity|vm_compute; reflexivity])|].
      constructor; [|constructor; [|constructor]]; intros k v N K; unfold row in K; cbn [assoc] in K;
        (destruct (String.eqb_spec k "network") as [->|]; [injection K as <-; vm_compute; reflexivity|]); (destruct (String.eqb_spec k "path"); [contradiction|discriminate]). }
    clear H. vm_compute in E. injection E as <-. vm_compute in R. injection R as <-. discriminate.
  - vm_compute in E. injection E as <-. vm_compute in R. discriminate.
Qed.
Print Assumptions C44_path_refuted.

(** A coordinate that belongs to no dimension is written as belonging to one without a
    name: the file cannot be read. *)
Definition lone_p : dpatch Z :=
  mk (mkPatch (mkCm ["time"] [("time", trange 0 1 2); ("lone", rng 0 1 3)] [("time", ["time"]); ("lone", [])]) (mkNd [2] [5; 6])) [] [].
Theorem C44_lone_coordinate_refuted : ~ (forall (p : dpatch Z) f, wf_patch (dp_patch p) -> family [dp_attrs p] -> clear_names (dp_attrs p) ->
  a_coords (dp_attrs p) = cm_sums (dp_cm p) (dp_units p) -> save_patch p "n" [] = Ok f -> exists ps, dasdae_read f = Ok ps).
Proof.
  intros H. destruct (save_patch lone_p "n" []) as [f|] eqn:E; [|vm_compute in E; discriminate].
  destruct (H lone_p f) as (ps & R); [apply CmProofs18.patch_wfb_ok; vm_compute; reflexivity|apply AttrsProofs7.familyb_ok; vm_compute; reflexivity|apply AttrsProofs11.clearb_ok; vm_compute; reflexivity|reflexivity|exact E|].
  vm_compute in E. injection E as <-. vm_compute in R. discriminate.
Qed.
Print Assumptions C44_lone_coordinate_refuted.

(** A coordinate whose name has an underscore loses its units, and its step when it
    has one sample. *)
Theorem C44_underscore_refuted : ~ (forall (p : dpatch Z) f p', wf_patch (dp_patch p) -> family [dp_attrs p] -> clear_names (dp_attrs p) ->
  a_coords (dp_attrs p) = cm_sums (dp_cm p) (dp_units p) -> save_patch p "n" [] = Ok f -> dasdae_read f = Ok [p'] ->
  unit_in (dp_units p') "my_dist" = unit_in (dp_units p) "my_dist" \/ assoc "my_dist" (cm_coords (dp_cm p')) = assoc "my_dist" (cm_coords (dp_cm p))).
Proof.
  intros H. set (p := mk (mkPatch (mkCm ["my_dist"] [("my_dist", rng 4 2 1)] [("my_dist", ["my_dist"])]) (mkNd [1] [5])) [("my_dist", AStr "m")] []).
  destruct (save_patch p "n" []) as [f|] eqn:E; [|vm_compute in E; discriminate]. destruct (dasdae_read f) as [[|p' [|x t]]|] eqn:R; try (vm_compute in E; injection E as <-; vm_compute in R; discriminate).
  destruct (H p f p') as [Q|Q]; [apply CmProofs18.patch_wfb_ok; vm_compute; reflexivity|apply AttrsProofs7.familyb_ok; vm_compute; reflexivity|apply AttrsProofs11.clearb_ok; vm_compute; reflexivity|reflexivity|exact E|exact R| |];
    vm_compute in E; injection E as <-; vm_compute in R; injection R as <-; vm_compute in Q; discriminate.
Qed.
Print Assumptions C44_underscore_refuted.

(** An attribute with the file's own marker in its name comes back under another. *)
Theorem C44_marker_refuted : ~ (forall (p : dpatch Z) f p' k v, wf_patch (dp_patch p) -> family [dp_attrs p] -> clear_names (dp_attrs p) ->
  a_coords (dp_attrs p) = cm_sums (dp_cm p) (dp_units p) -> save_patch p "n" [] = Ok f -> dasdae_read f = Ok [p'] ->
  In (k, v) (a_vals (dp_attrs p)) -> value_of (dp_attrs p') k = Some v).
Proof.
  intros H. set (p := mk (dp_patch short_p) [] [("x_attrs_y", ANum 3)]).
  destruct (save_patch p "n" []) as [f|] eqn:E; [|vm_compute in E; discriminate]. destruct (dasdae_read f) as [[|p' [|x t]]|] eqn:R; try (vm_compute in E; injection E as <-; vm_compute in R; discriminate).
  assert (Q : value_of (dp_attrs p') "x_attrs_y" = Some (ANum 3)).
  { apply (H p f p'); [apply CmProofs18.patch_wfb_ok; vm_compute; reflexivity|apply AttrsProofs7.familyb_ok; vm_compute; reflexivity|apply AttrsProofs11.clearb_ok; vm_compute; reflexivity|reflexivity|exact E|exact R|now left]. }
  vm_compute in E; injection E as <-; vm_compute in R; injection R as <-; vm_compute in Q; discriminate.
Qed.
Print Assumptions C44_marker_refuted.

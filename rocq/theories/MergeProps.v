(** C52: merging coordinate managers; C55: merging patches.
    Model: MergeModel.v. Specification vocabulary: MergeSpec.v. *)
From Verif Require Import Base BaseFacts CoordModel CoordSpec NdModel NdSpec FrameModel ChunkModel CmModel CmSpec CmProofs CmProofs18
  MergeModel MergeSpec MergeProofs MergeProofs5 MergeProofs7 MergeProofs8 ArgSort CmProps.
From Coq Require Import Strings.String Sorting.Permutation Sorting.Sorted.
Local Open Scope Z_scope.
Local Open Scope list_scope.
Local Open Scope string_scope.

(** Managers for the witnesses: [x] is merged; [s] and [t] do not depend on it. *)
Definition mg (a n t : Z) (extra : bool) : cman := mkCm ["x"; "y"]
  (app [("x", rng a 2 n); ("y", rng 10 (-1) 3); ("s", M1 (CArr KInt [5; 1; 5])); ("t", M1 (CArr KInt [t; 1; 5]))]
       (if extra then [("e", rng 0 1 n)] else []))
  (app [("x", ["x"]); ("y", ["y"]); ("s", ["y"]); ("t", ["y"])] (if extra then [("e", ["x"])] else [])).
Lemma cm_okb_wf cm (a : nd Z) : patch_wfb (mkPatch cm a) = true -> wf_cm cm.
Proof. intros H. exact (wp_cm _ (patch_wfb_ok _ H)). Qed.
Definition blank (n m : Z) : nd Z := grid n m (fun _ _ => 0).
(** Two managers, the later one first. *)
Definition two (gap t : Z) : list cman := [mg (10 + gap) 2 t false; mg 0 5 1 true].
Lemma two_joinable gap t : In gap [0; 1; 7] -> In t [1; 9] -> joinable ["x"; "y"] "x" KInt (two gap t).
Proof.
  intros G T. split.
  - discriminate.
  - intros cm [<-|[<-|[]]].
    + apply (cm_okb_wf _ (blank 2 3)). destruct G as [<-|[<-|[<-|[]]]]; destruct T as [<-|[<-|[]]]; vm_compute; reflexivity.
    + apply (cm_okb_wf _ (blank 5 3)). vm_compute. reflexivity.
  - intros cm [<-|[<-|[]]]; reflexivity.
  - left. reflexivity.
  - intros cm [<-|[<-|[]]]; eexists; (split; [reflexivity|]); split; [exact Logic.I|reflexivity|exact Logic.I|reflexivity].
Qed.
Lemma two_names gap t n ds : shared (two gap t) n ds -> In (n, ds) [("x", ["x"]); ("y", ["y"]); ("s", ["y"]); ("t", ["y"])].
Proof. intros S. apply assoc_in. exact (S _ (or_introl eq_refl)). Qed.
Lemma two_alone gap t : alone "x" (two gap t).
Proof.
  intros n ds S I. apply two_names in S. cbn in S.
  repeat (destruct S as [S|S]; [apply pair_equal_spec in S as [<- <-]; destruct I as [I|[]]; try reflexivity; discriminate|]). destruct S.
Qed.
Lemma two_agreeable gap drop : In gap [0; 1; 7] -> agreeable drop ["x"; "y"] "x" (two gap 1).
Proof.
  intros G n ds f S N _ F g a b I Ea Eb. apply two_names in S. cbn in S. apply m_eqb_spec.
  repeat (destruct S as [S|S]; [apply pair_equal_spec in S as [<- <-]; try (exfalso; apply N; left; reflexivity);
    destruct F as [<-|[<-|[]]]; destruct I as [<-|[<-|[]]]; cbn in Ea, Eb; injection Ea as <-; injection Eb as <-; vm_compute; reflexivity|]). destruct S.
Qed.
Definition merged_x (r : result cman) : option mcoord := match r with Ok cm => assoc "x" (cm_coords cm) | Err _ => None end.

(** Any number of managers with the same dimensions, values of one kind along [dim]
    and otherwise agreeing: the merged dimension lists the values of the managers,
    taken in ascending order of their least value (equal ones as given). Coordinates
    that all managers have stay when they agree; nothing else is in the result. *)
Theorem C52_merge : forall drop D dim k cms,
  joinable D dim k cms -> alone dim cms -> agreeable drop D dim cms ->
  exists first rest out, stable_by (start_of dim) cms (first :: rest) /\ merge_cms None drop dim cms = Ok out /\
    merged_as D dim cms first (List.concat (map (values_of dim) (first :: rest))) out.
Proof. exact merge_ok. Qed.
Print Assumptions C52_merge.
Example C52_merge_met : joinable ["x"; "y"] "x" KInt (two 0 1) /\ alone "x" (two 0 1) /\ agreeable false ["x"; "y"] "x" (two 0 1) /\
  merged_x (merge_cms None false "x" (two 0 1)) = Some (rng 0 2 7) /\
  merged_x (merge_cms None false "x" (two 7 1)) = Some (M1 (CMono KInt [0; 2; 4; 6; 8; 17; 19])).
Proof.
  split; [apply two_joinable; cbn; auto|]. split; [apply two_alone|]. split; [apply two_agreeable; cbn; auto|].
  split; vm_compute; reflexivity.
Qed.

(** With a tolerance (num/den of a step) and ranges of a common positive step: each
    range is moved to one step after the end of the ranges before it, so that the
    merged dimension is one even range, provided no move exceeds the tolerance;
    otherwise the merge fails. *)
Theorem C52_snap : forall num den drop D dim k cms s, 0 <= num -> 0 < den -> 0 < s ->
  joinable D dim k cms -> alone dim cms -> agreeable drop D dim cms -> ranges_along dim s cms ->
  exists first rest, stable_by (start_of dim) cms (first :: rest) /\
    let spans := map (span_of dim) (first :: rest) in
    let even := progression (start_of dim first) s (fold_right Z.add 0 (map snd spans)) in
    (close_starts num den s (start_of dim first) spans ->
       exists out c, merge_cms (Some (num, den)) drop dim cms = Ok out /\
         assoc dim (cm_coords out) = Some (M1 c) /\ c_values c = map Some even /\
         merged_as D dim cms first even out) /\
    (~ close_starts num den s (start_of dim first) spans ->
       merge_cms (Some (num, den)) drop dim cms = Err CoordMergeError).
Proof. exact merge_snap. Qed.
Print Assumptions C52_snap.
Example C52_snap_met : joinable ["x"; "y"] "x" KInt (two 1 1) /\ agreeable false ["x"; "y"] "x" (two 1 1) /\
  ranges_along "x" 2 (two 1 1) /\
  close_starts 1 2 2 0 (map (span_of "x") [mg 0 5 1 true; mg 11 2 1 false]) /\
  merged_x (merge_cms (Some (1, 2)) false "x" (two 1 1)) = Some (rng 0 2 7) /\
  ~ close_starts 1 2 2 0 (map (span_of "x") [mg 0 5 1 true; mg 17 2 1 false]) /\
  merge_cms (Some (1, 2)) false "x" (two 7 1) = Err CoordMergeError.
Proof.
  split; [apply two_joinable; cbn; auto|]. split; [apply two_agreeable; cbn; auto|].
  split; [intros cm [<-|[<-|[]]]; eexists; split; reflexivity|].
  split; [vm_compute; repeat split; discriminate|]. split; [vm_compute; reflexivity|].
  split; [|vm_compute; reflexivity]. vm_compute. intros (_ & H & _). apply H. reflexivity.
Qed.

(** A coordinate the managers have but do not agree on stops the merge, unless
    conflicts are dropped and it is no dimension. *)
Theorem C52_conflict : forall tol drop D dim k cms n ds,
  joinable D dim k cms -> shared cms n ds -> ~ In dim ds -> drop = false \/ In n D ->
  (forall f, In f cms -> ~ agrees_with_all cms f n) ->
  merge_cms tol drop dim cms = Err CoordMergeError.
Proof. exact merge_conflict. Qed.
Print Assumptions C52_conflict.
Example C52_conflict_met : joinable ["x"; "y"] "x" KInt (two 0 9) /\ shared (two 0 9) "t" ["y"] /\
  (forall f, In f (two 0 9) -> ~ agrees_with_all (two 0 9) f "t") /\
  merge_cms None false "x" (two 0 9) = Err CoordMergeError /\
  match merge_cms None true "x" (two 0 9) with
  | Ok cm => map fst (cm_coords cm) = ["y"; "s"; "x"] | Err _ => False end.
Proof.
  split; [apply two_joinable; cbn; auto|]. split; [intros cm [<-|[<-|[]]]; reflexivity|]. split.
  - intros f F H. destruct F as [<-|[<-|[]]].
    + specialize (H (mg 0 5 1 true) _ _ (or_intror (or_introl eq_refl)) eq_refl eq_refl). apply m_eqb_spec in H. discriminate H.
    + specialize (H (mg 10 2 9 false) _ _ (or_introl eq_refl) eq_refl eq_refl). apply m_eqb_spec in H. discriminate H.
  - split; vm_compute; reflexivity.
Qed.

(** Managers with different dimensions (or the same in another order) do not merge. *)
Theorem C52_dims_differ : forall tol drop dim cms c c',
  In c cms -> In c' cms -> cm_dims c <> cm_dims c' -> merge_cms tol drop dim cms = Err CoordMergeError.
Proof. exact merge_dims_differ. Qed.
Print Assumptions C52_dims_differ.
Example C52_dims_differ_met : cm_dims (mg 0 2 1 false) <> cm_dims (mkCm ["y"; "x"] [] []).
Proof. discriminate. Qed.

(** Coordinates associated with the merged dimension are not concatenated: they all
    become copies of the dimension's own values ... *)
Theorem C52_associated : forall drop D dim k cms,
  joinable D dim k cms -> leading dim cms -> agreeable drop D dim cms ->
  exists first rest out, stable_by (start_of dim) cms (first :: rest) /\ merge_cms None drop dim cms = Ok out /\
    forall n ds, shared cms n ds -> In dim ds -> assoc n (cm_dmap out) = Some [dim] /\
      exists c, assoc n (cm_coords out) = Some (M1 c) /\
        represents c (List.concat (map (values_of dim) (first :: rest))).
Proof. exact merge_associated. Qed.
Print Assumptions C52_associated.
Definition extras : list cman := [mg 0 5 1 true; mg 10 2 1 true].
Lemma extras_joinable : joinable ["x"; "y"] "x" KInt extras.
Proof.
  split.
  - discriminate.
  - intros cm [<-|[<-|[]]]; [apply (cm_okb_wf _ (blank 5 3))|apply (cm_okb_wf _ (blank 2 3))]; vm_compute; reflexivity.
  - intros cm [<-|[<-|[]]]; reflexivity.
  - left. reflexivity.
  - intros cm [<-|[<-|[]]]; eexists; (split; [reflexivity|]); split; [exact Logic.I|reflexivity|exact Logic.I|reflexivity].
Qed.
Example C52_associated_met : joinable ["x"; "y"] "x" KInt extras /\ leading "x" extras /\ shared extras "e" ["x"].
Proof.
  split; [exact extras_joinable|]. split; [|intros cm [<-|[<-|[]]]; reflexivity].
  intros n ds S I. specialize (S _ (or_introl eq_refl)). apply assoc_in in S. cbn in S.
  repeat (destruct S as [S|S]; [apply pair_equal_spec in S as [<- <-]; destruct I as [I|[]]; try discriminate; exists []; reflexivity|]). destruct S.
Qed.

(** ... so a quality flag along the dimension comes out as a copy of the dimension:
    [e] is 0, 1, 2, 3, 4 in one manager and 0, 1 in the other, and 0, 2, .., 12 after
    merging ... *)
Theorem C52_associated_refuted :
  exists cm, merge_cms None false "x" extras = Ok cm /\ assoc "e" (cm_coords cm) = Some (rng 0 2 7) /\
    map (values_of "e") extras = [[0; 1; 2; 3; 4]; [0; 1]].
Proof. eexists. split; [vm_compute; reflexivity|]. split; vm_compute; reflexivity. Qed.

(** ... and managers with a two-dimensional coordinate that has the merged dimension
    last do not merge at all. *)
Definition grids : list cman := map (fun a => mkCm ["x"; "y"]
  [("x", rng a 2 2); ("y", rng 0 1 2); ("g", MN KInt (grid 2 2 (fun i j => i + j)))]
  [("x", ["x"]); ("y", ["y"]); ("g", ["y"; "x"])]) [0; 4].
Theorem C52_last_axis_refuted : (forall cm, In cm grids -> wf_cm cm) /\ merge_cms None false "x" grids = Err ValueError.
Proof.
  split; [|vm_compute; reflexivity].
  intros cm [<-|[<-|[]]]; apply (cm_okb_wf _ (blank 2 2)); vm_compute; reflexivity.
Qed.

(** * C55: merging patches *)

(** Patches for the witnesses: times [a], [a + s], .. and two channels. *)
Definition jp (a s n base : Z) : patch Z := mkPatch
  (mkCm ["time"; "ch"] [("time", M1 (CRange (mkRange KTime a (a + n * s) s n))); ("ch", rng 0 1 2)]
        [("time", ["time"]); ("ch", ["ch"])])
  (grid n 2 (fun i j => base + 10 * i + j)).
Definition three : list (patch Z) := [jp 0 5 2 0; jp 10 5 1 100; jp 15 5 3 200].
Lemma three_mergeable : mergeable false ["time"; "ch"] "time" KTime three.
Proof.
  assert (NM : forall n ds, shared (map p_cm three) n ds -> In (n, ds) [("time", ["time"]); ("ch", ["ch"])])
    by (intros n ds S; apply assoc_in; exact (S _ (or_introl eq_refl))).
  split.
  - intros p [<-|[<-|[<-|[]]]]; apply patch_wfb_ok; vm_compute; reflexivity.
  - cbn. apply le_S, le_n.
  - split.
    + discriminate.
    + intros cm [<-|[<-|[<-|[]]]]; [apply (cm_okb_wf _ (blank 2 2))|apply (cm_okb_wf _ (blank 1 2))|apply (cm_okb_wf _ (blank 3 2))]; vm_compute; reflexivity.
    + intros cm [<-|[<-|[<-|[]]]]; reflexivity.
    + left. reflexivity.
    + intros cm [<-|[<-|[<-|[]]]]; eexists; (split; [reflexivity|]); (split; [exact Logic.I|reflexivity]).
  - intros n ds S I. apply NM in S. cbn in S.
    repeat (destruct S as [S|S]; [apply pair_equal_spec in S as [<- <-]; destruct I as [I|[]]; try reflexivity; discriminate|]). destruct S.
  - intros n ds f S N _ F g a b I Ea Eb. apply NM in S. cbn in S. apply m_eqb_spec.
    repeat (destruct S as [S|S]; [apply pair_equal_spec in S as [<- <-]; try (exfalso; apply N; left; reflexivity);
      destruct F as [<-|[<-|[<-|[]]]]; destruct I as [<-|[<-|[<-|[]]]]; cbn in Ea, Eb; injection Ea as <-; injection Eb as <-; vm_compute; reflexivity|]). destruct S.
  - intros e p q Ie Ne Ip Iq. destruct Ie as [<-|[<-|[]]]; [congruence|].
    destruct Ip as [<-|[<-|[<-|[]]]]; destruct Iq as [<-|[<-|[<-|[]]]]; reflexivity.
  - repeat constructor.
Qed.

(** Patches in ascending order, not snapped: the data follow each other along the
    dimension, and so do the labels (up to the rebuilding of the coordinate, C10);
    other coordinates are as in C52. *)
Theorem C55_join : forall A drop D d k (ps : list (patch A)), mergeable drop D d k ps -> forall argsort,
  k = KTime \/ (exists p r, In p ps /\ assoc d (cm_coords (p_cm p)) = Some (M1 (CRange r))) ->
  exists p' ax first rest, index_of d D = Some ax /\ map p_cm ps = first :: rest /\
    join_patches argsort false drop ps = Ok p' /\ wf_patch p' /\ stacked ax (map p_data ps) (p_data p') /\
    merged_as D d (map p_cm ps) first (List.concat (map (values_of d) (map p_cm ps))) (p_cm p').
Proof. intros A. exact join_plain. Qed.
Print Assumptions C55_join.

(** Ranges of one step that continue each other: whether snapped or not, every
    sample keeps its data and exactly its label. *)
Theorem C55_join_even : forall A drop D d k (ps : list (patch A)), mergeable drop D d k ps -> forall argsort snap s,
  0 < s -> ranges_along d s (map p_cm ps) -> continues d s (map p_cm ps) ->
  exists p' ax first rest c, index_of d D = Some ax /\ map p_cm ps = first :: rest /\
    join_patches argsort snap drop ps = Ok p' /\ wf_patch p' /\ stacked ax (map p_data ps) (p_data p') /\
    merged_as D d (map p_cm ps) first (List.concat (map (values_of d) (map p_cm ps))) (p_cm p') /\
    assoc d (cm_coords (p_cm p')) = Some (M1 c) /\
    c_values c = map Some (List.concat (map (values_of d) (map p_cm ps))).
Proof. intros A. exact join_even. Qed.
Print Assumptions C55_join_even.
Example C55_join_met : mergeable false ["time"; "ch"] "time" KTime three /\
  ranges_along "time" 5 (map p_cm three) /\ continues "time" 5 (map p_cm three) /\
  flat (join_patches (fun l => l) true false three) = [0; 1; 10; 11; 100; 101; 200; 201; 210; 211; 220; 221] /\
  coords (join_patches (fun l => l) true false three) "time" = Some (M1 (CRange (mkRange KTime 0 30 5 6))).
Proof.
  split; [exact three_mergeable|]. split; [intros cm [<-|[<-|[<-|[]]]]; eexists; split; reflexivity|].
  split; [vm_compute; repeat split; discriminate|]. split; vm_compute; reflexivity.
Qed.

(** Patches that all cover the same labels: the first one is the result. Patches that
    differ along two dimensions, or have other dimensions, are refused. *)
Theorem C55_nothing_varies : forall A argsort snap drop (p : patch A) ps,
  (forall q, In q ps -> cm_dims (p_cm q) = cm_dims (p_cm p)) ->
  (forall d, In d (cm_dims (p_cm p)) -> exists mn mx st, forall q, In q (p :: ps) -> extent d (p_cm q) mn mx st) ->
  join_patches argsort snap drop (p :: ps) = Ok p.
Proof. intros A. exact join_still. Qed.
Print Assumptions C55_nothing_varies.
Theorem C55_ambiguous : forall A argsort snap drop (p : patch A) ps d1 d2 q1 q2,
  (forall q, In q ps -> cm_dims (p_cm q) = cm_dims (p_cm p)) ->
  In d1 (cm_dims (p_cm p)) -> In d2 (cm_dims (p_cm p)) -> d1 <> d2 -> In q1 ps -> In q2 ps ->
  moved d1 (p_cm p) (p_cm q1) -> moved d2 (p_cm p) (p_cm q2) ->
  join_patches argsort snap drop (p :: ps) = Err AssertionError.
Proof. intros A. exact join_ambiguous. Qed.
Print Assumptions C55_ambiguous.
Theorem C55_dims_differ : forall A argsort snap drop (p : patch A) ps q, In q ps -> cm_dims (p_cm q) <> cm_dims (p_cm p) ->
  join_patches argsort snap drop (p :: ps) = Err AssertionError.
Proof. intros A. exact join_dims_differ. Qed.
Print Assumptions C55_dims_differ.
Definition jq (a b : Z) : patch Z := mkPatch
  (mkCm ["time"; "ch"] [("time", M1 (CRange (mkRange KTime a (a + 10) 5 2))); ("ch", rng b 1 2)]
        [("time", ["time"]); ("ch", ["ch"])])
  (grid 2 2 (fun i j => 10 * i + j)).
Example C55_refuses_met : moved "time" (p_cm (jq 0 0)) (p_cm (jq 10 7)) /\ moved "ch" (p_cm (jq 0 0)) (p_cm (jq 10 7)) /\
  (forall d, In d (cm_dims (p_cm (jq 0 0))) -> exists mn mx st, forall q, In q [jq 0 0; jq 0 0] -> extent d (p_cm q) mn mx st) /\
  cm_dims (p_cm (jq 0 0)) = cm_dims (p_cm (jq 10 7)).
Proof.
  split; [|split; [|split; [|reflexivity]]].
  - do 6 eexists. split; [eexists; split; [reflexivity|repeat split]|]. split; [eexists; split; [reflexivity|repeat split]|]. left. discriminate.
  - do 6 eexists. split; [eexists; split; [reflexivity|repeat split]|]. split; [eexists; split; [reflexivity|repeat split]|]. left. discriminate.
  - intros d [<-|[<-|[]]]; do 3 eexists; intros q [<-|[<-|[]]]; (eexists; split; [reflexivity|]; split; [reflexivity|]; split; reflexivity).
Qed.

(** Descending patches: merging labels them in ascending order but leaves the data as
    they are, because the indexer that snapping returns is dropped. The first sample
    (data 0) had label 15 and comes out with label 0. *)
Definition down : list (patch Z) := [jp 15 (-5) 4 0; jp 35 (-5) 4 100].
Theorem C55_descending_refuted :
  (forall p, In p down -> wf_patch p) /\ map (values_of "time") (map p_cm down) = [[15; 10; 5; 0]; [35; 30; 25; 20]] /\
  flat (join_patches stable_argsort true false down) = [0; 1; 10; 11; 20; 21; 30; 31; 100; 101; 110; 111; 120; 121; 130; 131] /\
  coords (join_patches stable_argsort true false down) "time" = Some (M1 (CRange (mkRange KTime 0 40 5 8))).
Proof.
  split; [intros p [<-|[<-|[]]]; apply patch_wfb_ok; vm_compute; reflexivity|].
  repeat split; vm_compute; reflexivity.
Qed.

(** A gap that the chunk tolerance of one and a half steps lets pass is spread over all
    labels by the snapping: 0, 10, 20, 35, 45, 55 come out as 0, 11, .., 55. *)
Theorem C55_gap_refuted : let ps := [jp 0 10 3 0; jp 35 10 3 100] in
  map (values_of "time") (map p_cm ps) = [[0; 10; 20]; [35; 45; 55]] /\
  coords (join_patches stable_argsort true false ps) "time" = Some (M1 (CRange (mkRange KTime 0 66 11 6))).
Proof. split; vm_compute; reflexivity. Qed.

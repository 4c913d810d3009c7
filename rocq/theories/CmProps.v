(** Properties C32 to C37, C50 and C54: the coordinate manager and the patch
    functions that rearrange data together with coordinates.
    Model: CmModel.v, NdModel.v. Specification vocabulary: CmSpec.v, CmSpec2.v, NdSpec.v. *)
From Verif Require Import Base BaseFacts ArgSort CoordModel CoordSpec NdModel NdSpec FrameModel ChunkModel
  CmModel CmSpec CmSpec2 CmProofs5 CmProofs6 CmProofs7 CmProofs9 CmProofs11 CmProofs12 CmProofs13 CmProofs14
  CmProofs15 CmProofs16 CmProofs17 CmProofs18 CmProofs19 CmProofs20 CmProofs21.
From Coq Require Import Strings.String Sorting.Permutation Sorting.Sorted.
Local Open Scope Z_scope.
Local Open Scope list_scope.
Local Open Scope string_scope.

(** Patches for the witnesses: two dimensions, a coordinate along the first, a
    two-dimensional one, and one without dimensions. *)
Definition rng (a s n : Z) : mcoord := M1 (CRange (mkRange KInt a (a + n * s) s n)).
Definition grid (nx ny : Z) (f : Z -> Z -> Z) : nd Z :=
  mkNd [nx; ny] (List.concat (map (fun i => map (fun j => f i j) (zrange ny)) (zrange nx))).
Definition ex_cm (nx ny : Z) : cman := mkCm ["x"; "y"]
  [("x", rng 0 2 nx); ("y", rng 10 (-1) ny);
   ("q", M1 (CArr KInt (map (fun i => (i * 7) mod 5) (zrange nx))));
   ("s", MN KInt (grid nx ny (fun i j => 10 * i + j))); ("lone", M1 (CPart 2))]
  [("x", ["x"]); ("y", ["y"]); ("q", ["x"]); ("s", ["x"; "y"]); ("lone", [])].
Definition ex_p (nx ny : Z) : patch Z := mkPatch (ex_cm nx ny) (grid nx ny (fun i j => 100 * i + j)).
Definition flat (r : result (patch Z)) : list Z := match r with Ok p => nd_flat (p_data p) | Err _ => [] end.
Definition coords (r : result (patch Z)) (n : string) : option mcoord :=
  match r with Ok p => assoc n (cm_coords (p_cm p)) | Err _ => None end.
Definition dims (r : result (patch Z)) : list string :=
  match r with Ok p => cm_dims (p_cm p) | Err _ => [] end.

(** * C32: the manager invariant *)

(** Whatever sequence of calls succeeds, the manager stays consistent and the data
    keeps the manager's shape. *)
Theorem C32_history : forall A argsort ops (p p' : patch A),
  sound p -> (forall o, In o ops -> call_ok o) ->
  fold_left (fun acc o => do q <- acc; do_call argsort q o) ops (Ok p) = Ok p' -> sound p'.
Proof. intros A. exact run_sound. Qed.
Print Assumptions C32_history.

(** Every freshly built patch is sound. *)
Theorem C32_construct : forall A kw ds shape cm (a : nd A) p,
  (forall e, In e kw -> nd_kval (snd e)) ->
  get_cm kw ds shape = Ok cm -> new_patch cm a = Ok p -> sound p.
Proof. intros A. exact construct_sound. Qed.
Print Assumptions C32_construct.

(** What is built from keywords: the dimensions given (or else the names given
    without dimensions), then the names given as dimensions of their own; every
    given coordinate with its dimensions; and for a dimension without a coordinate
    one of the length the data has. *)
Theorem C32_given : forall kw ds shape cm, NoDup (map fst kw) -> get_cm kw ds shape = Ok cm ->
  let base := match ds with Some l => l | None => plain_given kw end in
  cm_dims cm = (base ++ own_given base kw)%list /\
  (forall n v, In (n, KSimple v) kw -> exists m, given v m /\
     assoc n (cm_coords cm) = Some m /\ assoc n (cm_dmap cm) = Some [n]) /\
  (forall n l v, In (n, KTuple l v) kw -> exists m, given v m /\
     assoc n (cm_coords cm) = Some m /\ assoc n (cm_dmap cm) = Some l) /\
  (forall n, ~ In n (map fst kw) -> forall m, assoc n (cm_coords cm) = Some m ->
     exists s i len, shape = Some s /\ nth_error (cm_dims cm) i = Some n /\ nth_error s i = Some len /\
       m = M1 (CPart len) /\ assoc n (cm_dmap cm) = Some [n]).
Proof. exact get_cm_given. Qed.
Print Assumptions C32_given.

Example C32_given_witness :
  get_cm [("x", KSimple (VArr KInt [3; 5; 7])); ("q", KTuple ["x"] (VArr KInt [4; 0; 4]));
          ("z", KTuple ["z"] (VLen 2))] None None =
    Ok (mkCm ["x"; "z"] [("x", rng 3 2 3); ("q", M1 (CArr KInt [4; 0; 4])); ("z", M1 (CPart 2))]
          [("x", ["x"]); ("q", ["x"]); ("z", ["z"])]) /\
  get_cm [("x", KSimple (VArr KInt [3; 5; 7]))] (Some ["x"; "y"]) (Some [3; 4]) =
    Ok (mkCm ["x"; "y"] [("x", rng 3 2 3); ("y", M1 (CPart 4))] [("x", ["x"]); ("y", ["y"])]).
Proof. split; vm_compute; reflexivity. Qed.

(** The validator accepts the consistent managers and no others. *)
Theorem C32_validator : forall ds cmap dmap,
  NoDup (map fst dmap) -> (forall n m, In (n, m) cmap -> nd_coord m) ->
  (build_cm ds cmap dmap = Ok (mkCm ds cmap dmap) <-> consistent (mkCm ds cmap dmap)).
Proof. exact validator_exact. Qed.
Print Assumptions C32_validator.

(** The data of a new patch must have the manager's shape. *)
Theorem C32_new_patch : forall A cm (a : nd A), consistent cm -> cm_dims cm <> [] ->
  (Forall2 (dim_len cm) (cm_dims cm) (nd_shape a) -> new_patch cm a = Ok (mkPatch cm a)) /\
  (~ Forall2 (dim_len cm) (cm_dims cm) (nd_shape a) -> new_patch cm a = Err CoordDataError).
Proof. intros A. exact new_patch_exact. Qed.
Print Assumptions C32_new_patch.

(** update_coords on a dimension: a coordinate of the same length replaces the old
    one, everything else stays; any other length is refused. *)
Theorem C32_update_dimension : forall A (p : patch A) d c c',
  wf_patch p -> plain_names (p_cm p) -> In d (cm_dims (p_cm p)) ->
  assoc d (cm_coords (p_cm p)) = Some (M1 c) -> wf_coord c' ->
  (c_len c' = c_len c -> exists p', pt_update_coords p [(d, KSimple (VCoord (M1 c')))] = Ok p' /\ wf_patch p' /\
     p_data p' = p_data p /\ cm_dims (p_cm p') = cm_dims (p_cm p) /\
     (forall n, assoc n (cm_dmap (p_cm p')) = assoc n (cm_dmap (p_cm p))) /\
     forall n, match (if String.eqb n d then Some (M1 c') else assoc n (cm_coords (p_cm p))), assoc n (cm_coords (p_cm p')) with
               | Some m, Some m' => carried m m' (full (m_shape m))
               | None, None => True | _, _ => False end) /\
  (c_len c' <> c_len c -> pt_update_coords p [(d, KSimple (VCoord (M1 c')))] = Err CoordDataError).
Proof. intros A. exact pt_update_dim. Qed.
Print Assumptions C32_update_dimension.

(** update_coords with a coordinate that is no dimension adds or replaces it. *)
Theorem C32_update_coordinate : forall A (p : patch A) n ds m,
  wf_patch p -> plain_names (p_cm p) ->
  limit_key (cm_dims (p_cm p)) n = false -> ~ In n (cm_dims (p_cm p)) -> NoDup ds ->
  (forall d, In d ds -> In d (cm_dims (p_cm p))) -> wf_mcoord m ->
  (ds = [] \/ Forall2 (dim_len (p_cm p)) ds (m_shape m)) ->
  exists p', pt_update_coords p [(n, KTuple ds (VCoord m))] = Ok p' /\ wf_patch p' /\
     p_data p' = p_data p /\ cm_dims (p_cm p') = cm_dims (p_cm p) /\
     (forall k, assoc k (cm_dmap (p_cm p')) = if String.eqb k n then Some ds else assoc k (cm_dmap (p_cm p))) /\
     forall k, match (if String.eqb k n then Some m else assoc k (cm_coords (p_cm p))), assoc k (cm_coords (p_cm p')) with
               | Some m, Some m' => carried m m' (full (m_shape m))
               | None, None => True | _, _ => False end.
Proof. intros A. exact pt_update_new. Qed.
Print Assumptions C32_update_coordinate.

(** Dimension names need not stay distinct: renaming onto another dimension of the
    same length, or setting a dimension to another one, is accepted. *)
Theorem C32_distinct_dims_refuted : exists p : patch Z, wf_patch p /\
  (exists p', pt_rename p [("x", "y")] = Ok p' /\ cm_dims (p_cm p') = ["y"; "y"]) /\
  (exists p', pt_set_dims p [("x", "y")] = Ok p' /\ cm_dims (p_cm p') = ["y"; "y"]).
Proof.
  exists (ex_p 3 3). split; [apply patch_okb_ok; vm_compute; reflexivity|].
  split; eexists; (split; [vm_compute; reflexivity|reflexivity]).
Qed.
Print Assumptions C32_distinct_dims_refuted.

(** A coordinate whose name looks like a limit keyword makes every select fail. *)
Theorem C32_limit_like_name_refuted : exists p : patch Z, wf_patch p /\
  pt_select p false false [("x", SelPair (Some 0) (Some 2))] = Err Unmodelled.
Proof.
  exists (mkPatch (mkCm ["x"; "y"] [("x", rng 0 2 4); ("y", rng 0 1 3); ("x_minutes", rng 0 1 4)]
    [("x", ["x"]); ("y", ["y"]); ("x_minutes", ["x"])]) (grid 4 3 (fun i j => i + j))).
  split; [apply patch_wfb_ok; vm_compute; reflexivity|]. vm_compute. reflexivity.
Qed.
Print Assumptions C32_limit_like_name_refuted.

Example C32_witness :
  wf_patch (ex_p 4 3) /\ sound (ex_p 4 3) /\
  let ops := [CallSelect false false [("x", SelPair (Some 2) None)]; CallSort ["q"] false;
              CallTranspose [TName "y"; TDots]; CallAppend [("z", VLen 2)]; CallRename [("x", "w")];
              CallFlip ["y"] true; CallDecimate "w" 2; CallDrop ["lone"]] in
  (forall o, In o ops -> call_ok o) /\
  exists p', fold_left (fun acc o => do q <- acc; do_call stable_argsort q o) ops (Ok (ex_p 4 3)) = Ok p' /\
    cm_dims (p_cm p') = ["y"; "w"; "z"] /\ nd_shape (p_data p') = [3; 2; 2] /\
    nd_flat (p_data p') = [302; 302; 202; 202; 301; 301; 201; 201; 300; 300; 200; 200].
Proof.
  destruct (patch_okb_ok (ex_p 4 3)) as [W _]; [vm_compute; reflexivity|].
  split; [exact W|]. split.
  - apply (wf_sound _ W).
  - cbv zeta. split.
    + intros o [<-|[<-|[<-|[<-|[<-|[<-|[<-|[<-|[]]]]]]]]]; cbn; auto. intros e [<-|[]]. exact Logic.I.
    + eexists. split; [vm_compute; reflexivity|]. repeat split.
Qed.

(** * C33: select *)

(** One range, sample range, array or mask per dimension: the result holds exactly
    the elements whose labels meet all requests, each with its own labels. *)
Theorem C33_select : forall A (p : patch A) rel smp psf kw,
  wf_patch p -> plain_names (p_cm p) -> separate (p_cm p) (map fst kw) ->
  (forall n arg, In (n, arg) kw -> exists c, assoc n (cm_coords (p_cm p)) = Some (M1 c) /\
     asks c rel smp arg (psf n)) ->
  (forall n, In n (map fst kw) -> assoc n (cm_dmap (p_cm p)) = Some [] -> private n = false) ->
  exists p' pick own, pt_select p rel smp kw = Ok p' /\ aligned p p' pick own /\
    picks_kw (p_cm p) psf (map fst kw) pick own.
Proof. intros A. exact pt_select_one. Qed.
Print Assumptions C33_select.

(** Whatever the request, data and coordinates are restricted alike and keep their
    order; the only exception is that the original may be returned instead of a
    result with the same data and approximately equal coordinates. *)
Theorem C33_select_never_misaligns : forall A (p p' : patch A) rel smp kw,
  wf_patch p -> plain_names (p_cm p) ->
  (forall e, In e kw -> backwards (snd e) = false) ->
  pt_select p rel smp kw = Ok p' ->
  exists q, restricts p q /\
    (p' = q \/ (p' = p /\ p_data q = p_data p /\ cm_approx (p_cm q) (p_cm p) = true)).
Proof. intros A. exact pt_select_sound. Qed.
Print Assumptions C33_select_never_misaligns.

Theorem C33_unknown_coordinate : forall A (p : patch A) rel smp kw,
  (exists e, In e kw /\ ~ In (fst e) (map fst (cm_coords (p_cm p)))) ->
  pt_select p rel smp kw = Err PatchCoordinateError.
Proof. intros A. exact pt_select_unknown. Qed.
Print Assumptions C33_unknown_coordinate.

Theorem C33_shared_dimension : forall A (p : patch A) rel smp kw,
  wf_patch p -> (rel || smp)%bool = true ->
  (forall e, In e kw -> In (fst e) (map fst (cm_coords (p_cm p)))) ->
  ~ separate (p_cm p) (map fst kw) ->
  pt_select p rel smp kw = Err CoordError.
Proof. intros A. exact pt_select_shared. Qed.
Print Assumptions C33_shared_dimension.

(** Two coordinates of one dimension in one call are two calls, in the order of
    their names, as long as both leave something out. *)
Theorem C33_two : forall A (p p1 p2 : patch A) n1 n2 a1 a2 d kw,
  wf_patch p -> plain_names (p_cm p) -> n1 <> n2 -> String.leb n1 n2 = true ->
  assoc n1 (cm_dmap (p_cm p)) = Some [d] -> assoc n2 (cm_dmap (p_cm p)) = Some [d] ->
  Permutation kw [(n1, a1); (n2, a2)] -> backwards a1 = false ->
  pt_select p false false [(n1, a1)] = Ok p1 -> pt_select p1 false false [(n2, a2)] = Ok p2 ->
  nd_shape (p_data p1) <> nd_shape (p_data p) -> nd_shape (p_data p2) <> nd_shape (p_data p1) ->
  nd_shape (p_data p2) <> nd_shape (p_data p) ->
  pt_select p false false kw = Ok p2.
Proof. intros A. exact pt_select_two. Qed.
Print Assumptions C33_two.

Example C33_two_witness :
  let kw := [("x", SelPair (Some 2) None); ("q", SelPair (Some 1) (Some 2))] in
  let r := pt_select (ex_p 4 3) false false kw in
  flat r = [100; 101; 102; 300; 301; 302] /\
  coords r "q" = Some (rng 2 (-1) 2) /\ coords r "x" = Some (rng 2 4 2).
Proof. repeat split; vm_compute; reflexivity. Qed.

(** A reversed sample slice on a dimension whose reversal looks the same (here a
    partial coordinate) returns the patch as it was. *)
Theorem C33_reversed_slice_refuted : exists p : patch Z, wf_patch p /\
  pt_select p false true [("x", SelSlice (mkSlice None None (Some (-1))))] = Ok p /\
  nd_flat (p_data p) <> rev (nd_flat (p_data p)).
Proof.
  exists (mkPatch (mkCm ["x"] [("x", M1 (CPart 3))] [("x", ["x"])]) (mkNd [3] [1; 2; 3])).
  split; [apply patch_wfb_ok; vm_compute; reflexivity|]. split; [vm_compute; reflexivity|discriminate].
Qed.
Print Assumptions C33_reversed_slice_refuted.

(** A select on a private coordinate without dimensions changes nothing. *)
Theorem C33_private_coordinate_refuted : exists p : patch Z, wf_patch p /\
  pt_select p false false [("_u", SelPair (Some 1) (Some 2))] = Ok p /\
  assoc "_u" (cm_coords (p_cm p)) = Some (rng 0 1 5).
Proof.
  exists (mkPatch (mkCm ["x"] [("x", rng 0 1 3); ("_u", rng 0 1 5)] [("x", ["x"]); ("_u", [])]) (mkNd [3] [1; 2; 3])).
  split; [apply patch_wfb_ok; vm_compute; reflexivity|]. split; vm_compute; reflexivity.
Qed.
Print Assumptions C33_private_coordinate_refuted.

Example C33_witness :
  let kw := [("x", SelPair (Some 2) (Some 5)); ("y", SelPair None (Some 9))] in
  let r := pt_select (ex_p 4 3) false false kw in
  separate (ex_cm 4 3) (map fst kw) /\
  (forall n arg, In (n, arg) kw -> exists c, assoc n (cm_coords (ex_cm 4 3)) = Some (M1 c) /\
     asks c false false arg (if String.eqb n "x" then [1; 2] else [1; 2])) /\
  flat r = [101; 102; 201; 202] /\ coords r "x" = Some (rng 2 2 2) /\ coords r "y" = Some (rng 9 (-1) 2) /\
  coords r "s" = Some (MN KInt (mkNd [2; 2] [11; 12; 21; 22])).
Proof.
  cbv zeta. split.
  { unfold separate. vm_compute. constructor; [intros [Q|[]]; discriminate|]. constructor; [intros []|constructor]. }
  split; [|repeat split; vm_compute; reflexivity].
  intros n arg [[= <- <-]|[[= <- <-]|[]]].
  - exists (CRange (mkRange KInt 0 8 2 4)). split; [reflexivity|]. cbn [asks andb negb]. split; [reflexivity|].
    split; [intros r [= <-]; vm_compute; reflexivity|]. exists 0, 6. split; [split; [left; reflexivity|]|split; [split; [right; right; right; left; reflexivity|]|reflexivity]];
      intros x J; vm_compute in J; intuition; subst; discriminate.
  - exists (CRange (mkRange KInt 10 7 (-1) 3)). split; [reflexivity|]. cbn [asks andb negb]. split; [reflexivity|].
    split; [intros r [= <-]; vm_compute; reflexivity|]. exists 8, 10. split; [split; [right; right; left; reflexivity|]|split; [split; [left; reflexivity|]|reflexivity]];
      intros x J; vm_compute in J; intuition; subst; discriminate.
Qed.

(** * C34: order and sort *)

(** Order: the requested values (or samples) in the requested order, every element
    with its labels. *)
Theorem C34_order : forall A argsort (p : patch A) rel smp kw,
  valid_argsort argsort -> wf_patch p -> plain_names (p_cm p) -> separate (p_cm p) (map fst kw) ->
  (forall n l, In (n, l) kw -> exists c, assoc n (cm_coords (p_cm p)) = Some (M1 c) /\ can_order c smp l) ->
  exists p' pick own psf, pt_order argsort p rel smp kw = Ok p' /\ aligned p p' pick own /\
    picks_kw (p_cm p) psf (map fst kw) pick own /\
    (forall n l, In (n, l) kw -> exists c, assoc n (cm_coords (p_cm p)) = Some (M1 c) /\
       asks_order c rel smp l (psf n)).
Proof. intros A. exact pt_order_one. Qed.
Print Assumptions C34_order.

(** Sort: a permutation of each dimension, applied to data and coordinates alike,
    that puts the named coordinates in order. *)
Theorem C34_sort : forall A argsort (p : patch A) names reverse,
  valid_argsort argsort -> wf_patch p -> names <> [] -> separate (p_cm p) names ->
  (forall n, In n names -> exists c d, assoc n (cm_coords (p_cm p)) = Some (M1 c) /\
     assoc n (cm_dmap (p_cm p)) = Some [d]) ->
  exists p' pick, pt_sort argsort p names reverse = Ok p' /\
    consistent (p_cm p') /\ cm_aligned (p_cm p) (p_cm p') pick (own0 (p_cm p)) /\
    nd_picked (p_data p) (p_data p') (map pick (cm_dims (p_cm p))) /\
    (forall d k, dim_len (p_cm p) d k -> Permutation (pick d) (zrange k)) /\
    (forall n c d, In n names -> assoc n (cm_coords (p_cm p)) = Some (M1 c) ->
       assoc n (cm_dmap (p_cm p)) = Some [d] ->
       (concrete c -> exists vs, gather (c_ints c) (pick d) = Some vs /\ sorted_as reverse vs) /\
       ((if reverse then c_reverse_sorted c else c_sorted c) = true -> pick d = zrange (c_len c))) /\
    (forall d, (forall n, In n names -> assoc n (cm_dmap (p_cm p)) <> Some [d]) -> pick d = pick0 (p_cm p) d) /\
    ((forall n, ~ dragged (p_cm p) names n) -> wf_patch p').
Proof. intros A. exact pt_sort_one. Qed.
Print Assumptions C34_sort.

Theorem C34_sort_refuses : forall A argsort (p : patch A) names reverse,
  wf_patch p -> names <> [] ->
  (forall n, In n names -> In n (map fst (cm_coords (p_cm p)))) ->
  (exists n, In n names /\ 1 < zlen (dims_of (p_cm p) n)) \/
  (1 < zlen names /\ ~ NoDup (List.concat (map (dims_of (p_cm p)) names))) ->
  pt_sort argsort p names reverse = Err CoordSortError.
Proof. intros A. exact pt_sort_refused. Qed.
Print Assumptions C34_sort_refuses.

(** Snapping sorts, then makes the named times evenly sampled, keeping the first
    value, the number of samples and, up to rounding, the last value; data and all
    other coordinates are those of the sorted patch. *)
Theorem C34_snap : forall A argsort (p q : patch A) names reverse,
  let ns := match names with [] => cm_dims (p_cm p) | _ => names end in
  valid_argsort argsort -> wf_patch p -> separate (p_cm p) ns ->
  (forall n, In n ns -> exists c d, assoc n (cm_coords (p_cm p)) = Some (M1 c) /\
     assoc n (cm_dmap (p_cm p)) = Some [d]) ->
  pt_sort argsort p names reverse = Ok q ->
  (forall n, In n ns -> exists c, assoc n (cm_coords (p_cm q)) = Some (M1 c) /\ can_snap c) ->
  exists p', pt_snap argsort p names reverse = Ok p' /\ p_data p' = p_data q /\
    consistent (p_cm p') /\ cm_dims (p_cm p') = cm_dims (p_cm q) /\ cm_dmap (p_cm p') = cm_dmap (p_cm q) /\
    (forall n m, In n ns -> assoc n (cm_coords (p_cm q)) = Some m ->
       exists m', assoc n (cm_coords (p_cm p')) = Some m' /\ snapped m m') /\
    (forall n, ~ In n ns -> assoc n (cm_coords (p_cm p')) = assoc n (cm_coords (p_cm q))).
Proof. intros A. exact pt_snap_ok. Qed.
Print Assumptions C34_snap.

Example C34_snap_witness :
  let p := mkPatch (mkCm ["x"] [("x", M1 (CArr KTime [30; 0; 11]))] [("x", ["x"])]) (mkNd [3] [1; 2; 3]) in
  wf_patch p /\
  flat (pt_snap stable_argsort p [] false) = [2; 3; 1] /\
  coords (pt_sort stable_argsort p [] false) "x" = Some (M1 (CMono KTime [0; 11; 30])) /\
  coords (pt_snap stable_argsort p [] false) "x" = Some (M1 (CRange (mkRange KTime 0 45 15 3))) /\
  flat (pt_snap stable_argsort p [] true) = [1; 3; 2] /\
  coords (pt_snap stable_argsort p [] true) "x" = Some (M1 (CRange (mkRange KTime 30 (-15) (-15) 3))).
Proof. cbv zeta. split; [apply patch_wfb_ok; vm_compute; reflexivity|]. repeat split; vm_compute; reflexivity. Qed.

(** After sorting by a second coordinate a monotone dimension coordinate still
    claims to be sorted, so sorting by it does nothing. *)
Theorem C34_sort_after_sort_refuted : exists p p' : patch Z, wf_patch p /\
  pt_sort stable_argsort p ["q"] false = Ok p' /\
  pt_sort stable_argsort p' ["x"] false = Ok p' /\
  assoc "x" (cm_coords (p_cm p')) = Some (M1 (CMono KInt [7; 0; 1])).
Proof.
  exists (mkPatch (mkCm ["x"] [("x", M1 (CMono KInt [0; 1; 7])); ("q", M1 (CArr KInt [5; 9; 0]))]
    [("x", ["x"]); ("q", ["x"])]) (mkNd [3] [1; 2; 3])).
  eexists. split; [apply patch_wfb_ok; vm_compute; reflexivity|]. split; [vm_compute; reflexivity|].
  split; vm_compute; reflexivity.
Qed.
Print Assumptions C34_sort_after_sort_refuted.

Example C34_witness :
  let r := pt_sort stable_argsort (ex_p 4 3) ["q"] false in
  flat r = [0; 1; 2; 300; 301; 302; 100; 101; 102; 200; 201; 202] /\
  coords r "q" = Some (M1 (CMono KInt [0; 1; 2; 4])) /\ coords r "x" = Some (M1 (CArr KInt [0; 6; 2; 4])) /\
  flat (pt_order stable_argsort (ex_p 4 3) false false [("y", [8; 10])]) = [2; 0; 102; 100; 202; 200; 302; 300].
Proof. repeat split; vm_compute; reflexivity. Qed.

(** * C35: transpose *)
Theorem C35_transpose : forall A (p : patch A) new,
  wf_patch p -> NoDup new ->
  (forall d, In (TName d) new -> In d (cm_dims (p_cm p))) ->
  (new = [] \/ In TDots new \/ forall d, In d (cm_dims (p_cm p)) -> In (TName d) new) ->
  exists p', pt_transpose p new = Ok p' /\ wf_patch p' /\
    cm_dims (p_cm p') = wanted new (cm_dims (p_cm p)) /\ Permutation (cm_dims (p_cm p)) (cm_dims (p_cm p')) /\
    cm_coords (p_cm p') = cm_coords (p_cm p) /\ cm_dmap (p_cm p') = cm_dmap (p_cm p) /\
    forall pos, data_at p' pos = data_at p pos.
Proof. intros A. exact pt_transpose_ok. Qed.
Print Assumptions C35_transpose.

Theorem C35_refused : forall A (p : patch A) new, wf_patch p -> new <> [] ->
  (exists d, In (TName d) new /\ ~ In d (cm_dims (p_cm p))) \/ ~ NoDup new \/
  (~ In TDots new /\ exists d, In d (cm_dims (p_cm p)) /\ ~ In (TName d) new) ->
  pt_transpose p new = Err ParameterError.
Proof. intros A. exact pt_transpose_bad. Qed.
Print Assumptions C35_refused.

(** Transposing back restores the patch itself. *)
Theorem C35_back : forall A (p p' : patch A) new, wf_patch p -> pt_transpose p new = Ok p' ->
  pt_transpose p' (map TName (cm_dims (p_cm p))) = Ok p.
Proof. intros A. exact transpose_undone. Qed.
Print Assumptions C35_back.

Example C35_witness :
  dims (pt_transpose (ex_p 4 3) [TName "y"; TDots]) = ["y"; "x"] /\
  flat (pt_transpose (ex_p 4 3) [TName "y"; TDots]) = [0; 100; 200; 300; 1; 101; 201; 301; 2; 102; 202; 302] /\
  dims (pt_transpose (ex_p 4 3) []) = ["y"; "x"] /\
  pt_transpose (ex_p 4 3) [TDots; TDots] = Err ParameterError.
Proof. repeat split; vm_compute; reflexivity. Qed.

(** * C36: flip *)
Theorem C36_flip : forall A (p : patch A) ds, wf_patch p -> plain_names (p_cm p) -> NoDup ds ->
  (forall d, In d ds -> In d (cm_dims (p_cm p))) ->
  (forall n ds' d1 d2, assoc n (cm_dmap (p_cm p)) = Some ds' -> In d1 ds -> In d2 ds ->
     In d1 ds' -> In d2 ds' -> d1 = d2) ->
  exists p', pt_flip p ds true = Ok p' /\ aligned p p' (flip_pick (p_cm p) ds) (own0 (p_cm p)).
Proof. intros A. exact pt_flip_ok. Qed.
Print Assumptions C36_flip.

Theorem C36_flip_data_only : forall A (p : patch A) ds, wf_patch p -> NoDup ds ->
  (forall d, In d ds -> In d (cm_dims (p_cm p))) ->
  exists p', pt_flip p ds false = Ok p' /\ p_cm p' = p_cm p /\
    nd_picked (p_data p) (p_data p') (map (flip_pick (p_cm p) ds) (cm_dims (p_cm p))).
Proof. intros A. exact pt_flip_data. Qed.
Print Assumptions C36_flip_data_only.

(** Flipping twice restores data, dimensions and coordinates (a 1-D coordinate up
    to the even spacing get_coord reads into nearly even values). *)
Theorem C36_flip_twice : forall A (p : patch A) ds, wf_patch p -> plain_names (p_cm p) -> NoDup ds ->
  (forall d, In d ds -> In d (cm_dims (p_cm p))) ->
  (forall n ds' d1 d2, assoc n (cm_dmap (p_cm p)) = Some ds' -> In d1 ds -> In d2 ds ->
     In d1 ds' -> In d2 ds' -> d1 = d2) ->
  exists p' p'', pt_flip p ds true = Ok p' /\ pt_flip p' ds true = Ok p'' /\ wf_patch p'' /\
    p_data p'' = p_data p /\ cm_dims (p_cm p'') = cm_dims (p_cm p) /\
    (forall n, assoc n (cm_dmap (p_cm p'')) = assoc n (cm_dmap (p_cm p))) /\
    forall n, match assoc n (cm_coords (p_cm p)), assoc n (cm_coords (p_cm p'')) with
              | Some (M1 c), Some (M1 c'') => spread (c_ints c) -> c_values c'' = c_values c
              | Some m, Some m'' => m'' = m
              | None, None => True
              | _, _ => False end.
Proof. intros A. exact flip_twice. Qed.
Print Assumptions C36_flip_twice.

(** Evenly sampled coordinates meet that condition. *)
Theorem C36_range_spread : forall r, wf_range r -> spread (c_ints (CRange r)).
Proof. exact spread_range. Qed.
Print Assumptions C36_range_spread.

(** Two flipped dimensions that share a two-dimensional coordinate: it is reversed
    along the second only, while the data is reversed along both. *)
Theorem C36_shared_coordinate_refuted : exists p p' : patch Z, wf_patch p /\
  pt_flip p ["x"; "y"] true = Ok p' /\
  assoc "s" (cm_coords (p_cm p)) = Some (MN KInt (p_data p)) /\
  nd_flat (p_data p') = rev (nd_flat (p_data p)) /\
  assoc "s" (cm_coords (p_cm p')) <> Some (MN KInt (p_data p')).
Proof.
  exists (mkPatch (ex_cm 4 3) (grid 4 3 (fun i j => 10 * i + j))). eexists.
  split; [apply patch_wfb_ok; vm_compute; reflexivity|]. split; [vm_compute; reflexivity|].
  split; [vm_compute; reflexivity|]. split; [vm_compute; reflexivity|]. vm_compute. discriminate.
Qed.
Print Assumptions C36_shared_coordinate_refuted.

Example C36_witness :
  let r := pt_flip (ex_p 4 3) ["x"] true in
  flat r = [300; 301; 302; 200; 201; 202; 100; 101; 102; 0; 1; 2] /\
  coords r "x" = Some (rng 6 (-2) 4) /\ coords r "q" = Some (M1 (CArr KInt [1; 4; 2; 0])) /\
  coords r "y" = Some (rng 10 (-1) 3).
Proof. repeat split; vm_compute; reflexivity. Qed.

(** * C37: rename, drop, squeeze, append, set_dims *)
Theorem C37_rename : forall A (p : patch A) kw, wf_patch p ->
  fresh_renames kw (map fst (cm_coords (p_cm p))) ->
  exists p', pt_rename p kw = Ok p' /\ wf_patch p' /\ p_data p' = p_data p /\
    cm_dims (p_cm p') = map (renamed kw) (cm_dims (p_cm p)) /\
    (forall x, In x (map fst (cm_coords (p_cm p'))) <-> In x (map (renamed kw) (map fst (cm_coords (p_cm p))))) /\
    (forall n, In n (map fst (cm_coords (p_cm p))) ->
       assoc (renamed kw n) (cm_coords (p_cm p')) = assoc n (cm_coords (p_cm p)) /\
       assoc (renamed kw n) (cm_dmap (p_cm p')) = option_map (map (renamed kw)) (assoc n (cm_dmap (p_cm p)))).
Proof. intros A. exact pt_rename_ok. Qed.
Print Assumptions C37_rename.

Theorem C37_rename_unknown : forall A (p : patch A) old new t,
  wf_patch p -> ~ In old (map fst (cm_coords (p_cm p))) -> old <> new ->
  pt_rename p ((old, new) :: t) = Err KeyError.
Proof. intros A. exact pt_rename_unknown. Qed.
Print Assumptions C37_rename_unknown.

(** The reverse renaming restores the patch. *)
Theorem C37_rename_back : forall A (p : patch A) kw, wf_patch p ->
  fresh_renames kw (map fst (cm_coords (p_cm p))) ->
  exists p' p'', pt_rename p kw = Ok p' /\ pt_rename p' (undo_renames kw) = Ok p'' /\ wf_patch p'' /\
    p_data p'' = p_data p /\ cm_dims (p_cm p'') = cm_dims (p_cm p) /\
    forall n, assoc n (cm_coords (p_cm p'')) = assoc n (cm_coords (p_cm p)) /\
              assoc n (cm_dmap (p_cm p'')) = assoc n (cm_dmap (p_cm p)).
Proof. intros A. exact pt_rename_back. Qed.
Print Assumptions C37_rename_back.

Theorem C37_drop : forall A (p : patch A) names, wf_patch p ->
  (forall d, In d names -> ~ In d (cm_dims (p_cm p))) ->
  exists p', pt_drop_coords p names = Ok p' /\ wf_patch p' /\ p_data p' = p_data p /\
    cm_dims (p_cm p') = cm_dims (p_cm p) /\
    forall n, (In n names -> assoc n (cm_coords (p_cm p')) = None /\ assoc n (cm_dmap (p_cm p')) = None) /\
              (~ In n names -> assoc n (cm_coords (p_cm p')) = assoc n (cm_coords (p_cm p)) /\
                               assoc n (cm_dmap (p_cm p')) = assoc n (cm_dmap (p_cm p))).
Proof. intros A. exact pt_drop_ok. Qed.
Print Assumptions C37_drop.

Theorem C37_drop_dimension : forall A (p : patch A) names,
  (exists d, In d names /\ In d (cm_dims (p_cm p))) -> pt_drop_coords p names = Err ParameterError.
Proof. intros A. exact pt_drop_bad. Qed.
Print Assumptions C37_drop_dimension.

(** Squeeze: exactly the named (or all) length-one dimensions go, with the
    coordinates that depend on them; the data is the same. *)
Theorem C37_squeeze : forall A (p : patch A) dim l, wf_patch p ->
  match dim with
  | Some l' => l = l' /\ NoDup l'
  | None => forall d, In d l <-> In d (cm_dims (p_cm p)) /\ exists n, dim_len (p_cm p) d n /\ n <= 1
  end ->
  (forall d, In d l -> dim_len (p_cm p) d 1 /\ In d (cm_dims (p_cm p))) ->
  (exists d, In d (cm_dims (p_cm p)) /\ ~ In d l) ->
  exists p', pt_squeeze p dim = Ok p' /\ wf_patch p' /\
    cm_dims (p_cm p') = filter (fun d => negb (mem d l)) (cm_dims (p_cm p)) /\
    (forall n, ((In n l \/ exists d, In d l /\ In d (dims_of (p_cm p) n)) ->
                assoc n (cm_coords (p_cm p')) = None /\ assoc n (cm_dmap (p_cm p')) = None) /\
               (~ (In n l \/ exists d, In d l /\ In d (dims_of (p_cm p) n)) ->
                assoc n (cm_coords (p_cm p')) = assoc n (cm_coords (p_cm p)) /\
                assoc n (cm_dmap (p_cm p')) = assoc n (cm_dmap (p_cm p)))) /\
    (forall pos, data_at p' pos = data_at p (fun d => if mem d l then 0 else pos d)) /\
    (l = [] -> p' = p).
Proof. intros A. exact pt_squeeze_plain. Qed.
Print Assumptions C37_squeeze.

Theorem C37_squeeze_refuses : forall A (p : patch A) l, wf_patch p ->
  (exists d, In d l /\ (~ In d (cm_dims (p_cm p)) \/ exists n, dim_len (p_cm p) d n /\ 1 < n)) ->
  pt_squeeze p (Some l) = Err CoordError.
Proof. intros A. exact pt_squeeze_long. Qed.
Print Assumptions C37_squeeze_refuses.

(** append_dims: the new dimensions come last, the data is repeated along them. *)
Theorem C37_append : forall A (p : patch A) new, wf_patch p -> NoDup (map fst new) -> new <> [] ->
  (forall e, In e new -> newdim (p_cm p) e) ->
  exists p', pt_append_dims p new = Ok p' /\ wf_patch p' /\
    cm_dims (p_cm p') = (cm_dims (p_cm p) ++ map fst new)%list /\
    (forall n m, assoc n (cm_coords (p_cm p)) = Some m ->
       assoc n (cm_dmap (p_cm p')) = assoc n (cm_dmap (p_cm p)) /\
       exists m', assoc n (cm_coords (p_cm p')) = Some m' /\ carried m m' (full (m_shape m))) /\
    (forall n, ~ In n (map fst (cm_coords (p_cm p))) -> ~ In n (map fst new) -> assoc n (cm_coords (p_cm p')) = None) /\
    (forall n v, assoc n new = Some v ->
       assoc n (cm_dmap (p_cm p')) = Some [n] /\
       exists c, assoc n (cm_coords (p_cm p')) = Some (M1 c) /\
         match v with VLen k => c = CPart k | VArr _ vs => represents c vs | _ => False end) /\
    (forall pos, (forall n v, assoc n new = Some v -> 0 <= pos n < newlen v) -> data_at p' pos = data_at p pos).
Proof. intros A. exact pt_append_plain. Qed.
Print Assumptions C37_append.

Theorem C37_append_squeeze : forall A (p : patch A) new, wf_patch p -> NoDup (map fst new) -> new <> [] ->
  (forall e, In e new -> newdim (p_cm p) e /\ newlen (snd e) = 1) ->
  exists p' p'', pt_append_dims p new = Ok p' /\ pt_squeeze p' (Some (map fst new)) = Ok p'' /\ wf_patch p'' /\
    p_data p'' = p_data p /\ cm_dims (p_cm p'') = cm_dims (p_cm p) /\
    forall n, assoc n (cm_dmap (p_cm p'')) = assoc n (cm_dmap (p_cm p)) /\
      match assoc n (cm_coords (p_cm p)), assoc n (cm_coords (p_cm p'')) with
      | Some m, Some m' => carried m m' (full (m_shape m))
      | None, None => True
      | _, _ => False end.
Proof. intros A. exact pt_append_squeeze. Qed.
Print Assumptions C37_append_squeeze.

(** set_dims: an associated coordinate takes over a dimension; values, data and
    shapes are untouched. *)
Theorem C37_set_dims : forall A (p : patch A) old new c, wf_patch p ->
  In old (cm_dims (p_cm p)) -> ~ In new (cm_dims (p_cm p)) ->
  assoc new (cm_coords (p_cm p)) = Some (M1 c) -> assoc new (cm_dmap (p_cm p)) = Some [old] ->
  exists p', pt_set_dims p [(old, new)] = Ok p' /\ wf_patch p' /\ p_data p' = p_data p /\
    cm_coords (p_cm p') = cm_coords (p_cm p) /\
    cm_dims (p_cm p') = map (renamed [(old, new)]) (cm_dims (p_cm p)) /\
    (forall n, assoc n (cm_dmap (p_cm p')) = option_map (map (renamed [(old, new)])) (assoc n (cm_dmap (p_cm p)))).
Proof. intros A. exact pt_set_dims_ok. Qed.
Print Assumptions C37_set_dims.

(** Renames are applied one after another: two dimensions cannot be swapped. *)
Theorem C37_swap_refuted : exists p : patch Z, wf_patch p /\
  pt_rename p [("x", "y"); ("y", "x")] = Err CoordError.
Proof. exists (ex_p 3 3). split; [apply patch_okb_ok; vm_compute; reflexivity|]. vm_compute. reflexivity. Qed.
Print Assumptions C37_swap_refuted.

(** Renaming onto an existing coordinate silently drops that coordinate. *)
Theorem C37_rename_onto_existing_refuted : exists p p' : patch Z, wf_patch p /\
  pt_rename p [("x", "q")] = Ok p' /\
  assoc "q" (cm_coords (p_cm p)) = Some (M1 (CArr KInt [0; 2; 4; 1])) /\
  assoc "q" (cm_coords (p_cm p')) = assoc "x" (cm_coords (p_cm p)) /\
  zlen (cm_coords (p_cm p')) = zlen (cm_coords (p_cm p)) - 1.
Proof.
  exists (ex_p 4 3). eexists. split; [apply patch_okb_ok; vm_compute; reflexivity|].
  split; [vm_compute; reflexivity|]. repeat split.
Qed.
Print Assumptions C37_rename_onto_existing_refuted.

(** A patch with nothing but length-one dimensions cannot be squeezed. *)
Theorem C37_squeeze_all_refuted : exists p : patch Z, wf_patch p /\ pt_squeeze p None = Err CoordDataError.
Proof. exists (ex_p 1 1). split; [apply patch_okb_ok; vm_compute; reflexivity|]. vm_compute. reflexivity. Qed.
Print Assumptions C37_squeeze_all_refuted.

Example C37_witness :
  fresh_renames [("x", "w"); ("w", "v"); ("q", "x")] (map fst (cm_coords (ex_cm 4 3))) /\
  dims (pt_rename (ex_p 4 3) [("x", "w"); ("w", "v"); ("q", "x")]) = ["v"; "y"] /\
  coords (pt_rename (ex_p 4 3) [("x", "w"); ("w", "v"); ("q", "x")]) "x" = Some (M1 (CArr KInt [0; 2; 4; 1])) /\
  dims (pt_squeeze (ex_p 1 3) None) = ["y"] /\ flat (pt_squeeze (ex_p 1 3) None) = [0; 1; 2] /\
  dims (pt_append_dims (ex_p 1 2) [("z", VLen 2)]) = ["x"; "y"; "z"] /\
  flat (pt_append_dims (ex_p 1 2) [("z", VLen 2)]) = [0; 0; 1; 1] /\
  dims (pt_set_dims (ex_p 4 3) [("x", "q")]) = ["q"; "y"].
Proof.
  split; [|repeat split; vm_compute; reflexivity]. cbn -[In]. repeat split; try (right; intros J); cbn in *; intuition; discriminate.
Qed.

(** * C50: keeping every k-th sample *)
Theorem C50_decimate : forall A (p : patch A) dim k c,
  wf_patch p -> plain_names (p_cm p) -> 0 < k ->
  In dim (cm_dims (p_cm p)) -> assoc dim (cm_coords (p_cm p)) = Some (M1 c) ->
  let ps := map (fun i => i * k) (zrange ((c_len c + k - 1) / k)) in
  let pick := fun d => if String.eqb d dim then ps else pick0 (p_cm p) d in
  exists p', pt_decimate p dim k = Ok p' /\ wf_patch p' /\ cm_dims (p_cm p') = cm_dims (p_cm p) /\
    nd_picked (p_data p) (p_data p') (map pick (cm_dims (p_cm p))) /\
    (forall n m, assoc n (cm_coords (p_cm p)) = Some m ->
       match assoc n (cm_coords (p_cm p')) with
       | Some m' => carried m m' (picks_of (p_cm p) pick (own0 (p_cm p)) n) /\
                    assoc n (cm_dmap (p_cm p')) = assoc n (cm_dmap (p_cm p))
       | None => n <> dim /\ In dim (dims_of (p_cm p) n)
       end) /\
    (forall n, assoc n (cm_coords (p_cm p)) = None -> assoc n (cm_coords (p_cm p')) = None).
Proof. intros A. exact pt_decimate_ok. Qed.
Print Assumptions C50_decimate.

(** The positions kept are the multiples of k inside the axis. *)
Theorem C50_positions : forall n k i, 0 <= n -> 0 < k ->
  (In i (map (fun i => i * k) (zrange ((n + k - 1) / k))) <-> 0 <= i < n /\ i mod k = 0).
Proof. exact every_kth_multiples. Qed.
Print Assumptions C50_positions.

(** Coordinates that share the dimension are not decimated but dropped, and with
    factor -1 they are neither dropped nor reversed while the data is. *)
Theorem C50_associated_coordinates_refuted : exists p p1 p2 : patch Z, wf_patch p /\
  assoc "q" (cm_coords (p_cm p)) = Some (M1 (CArr KInt [0; 2; 4; 1])) /\
  pt_decimate p "x" 2 = Ok p1 /\ assoc "q" (cm_coords (p_cm p1)) = None /\
  pt_decimate p "x" (-1) = Ok p2 /\ assoc "q" (cm_coords (p_cm p2)) = Some (M1 (CArr KInt [0; 2; 4; 1])) /\
  assoc "x" (cm_coords (p_cm p2)) = Some (rng 6 (-2) 4).
Proof.
  exists (ex_p 4 3). do 2 eexists. split; [apply patch_okb_ok; vm_compute; reflexivity|]. split; [vm_compute; reflexivity|].
  split; [vm_compute; reflexivity|]. split; [reflexivity|]. split; [vm_compute; reflexivity|]. split; reflexivity.
Qed.
Print Assumptions C50_associated_coordinates_refuted.

Example C50_witness :
  flat (pt_decimate (ex_p 5 2) "x" 2) = [0; 1; 200; 201; 400; 401] /\
  coords (pt_decimate (ex_p 5 2) "x" 2) "x" = Some (rng 0 4 3).
Proof. repeat split; vm_compute; reflexivity. Qed.

(** * C54: roll *)
Theorem C54_roll : forall A (p : patch A) dim k r upd, wf_patch p -> plain_names (p_cm p) ->
  In dim (cm_dims (p_cm p)) -> assoc dim (cm_coords (p_cm p)) = Some (M1 (CRange r)) ->
  exists p' ps, pt_roll p dim k upd = Ok p' /\ wf_patch p' /\ cm_dims (p_cm p') = cm_dims (p_cm p) /\
    (* sample i of the result is sample (i - k) mod n of the original *)
    ps = map (fun i => (i - k) mod r_len r) (zrange (r_len r)) /\
    nd_picked (p_data p) (p_data p')
      (map (fun d => if String.eqb d dim then ps else pick0 (p_cm p) d) (cm_dims (p_cm p))) /\
    (if upd then
      (exists c', assoc dim (cm_coords (p_cm p')) = Some (M1 c') /\ carried1 (CRange r) c' ps) /\
      (forall n m, n <> dim -> assoc n (cm_coords (p_cm p)) = Some m ->
         exists m', assoc n (cm_coords (p_cm p')) = Some m' /\ carried m m' (full (m_shape m))) /\
      (forall n, n <> dim -> assoc n (cm_coords (p_cm p)) = None -> assoc n (cm_coords (p_cm p')) = None) /\
      (forall n, assoc n (cm_dmap (p_cm p')) = assoc n (cm_dmap (p_cm p)))
     else p_cm p' = p_cm p).
Proof. intros A. exact pt_roll_plain. Qed.
Print Assumptions C54_roll.

(** Rolling with the coordinate leaves other coordinates of the dimension behind. *)
Theorem C54_associated_coordinates_refuted : exists p p' : patch Z, wf_patch p /\
  pt_roll p "x" 1 true = Ok p' /\ assoc "x" (cm_coords (p_cm p')) = Some (M1 (CArr KInt [6; 0; 2; 4])) /\
  assoc "q" (cm_coords (p_cm p)) = Some (M1 (CArr KInt [0; 2; 4; 1])) /\
  assoc "q" (cm_coords (p_cm p')) = Some (M1 (CArr KInt [0; 2; 4; 1])).
Proof.
  exists (ex_p 4 3). eexists. split; [apply patch_okb_ok; vm_compute; reflexivity|].
  split; [vm_compute; reflexivity|]. repeat split.
Qed.
Print Assumptions C54_associated_coordinates_refuted.

Example C54_witness :
  flat (pt_roll (ex_p 4 2) "x" 1 true) = [300; 301; 0; 1; 100; 101; 200; 201] /\
  flat (pt_roll (ex_p 4 2) "x" (-1) false) = [100; 101; 200; 201; 300; 301; 0; 1].
Proof. repeat split; vm_compute; reflexivity. Qed.

(** Properties C57 and C58: concatenating and stacking patches.
    Model: ConcatModel.v. Specification vocabulary: ConcatSpec.v. *)
From Verif Require Import Base BaseFacts CoordModel CoordSpec NdModel NdSpec FrameModel ChunkModel CmModel CmSpec MergeSpec MergeModel
  CmProofs18 BinOpModel ConcatModel ConcatSpec ConcatProofs ConcatProofs2 ConcatProofs3 ConcatProofs4 ConcatProofs5 CmProps.
From Coq Require Import Strings.String Strings.Ascii ZifyBool Lia.
Local Open Scope Z_scope.
Local Open Scope list_scope.
Local Open Scope string_scope.

(** * C57: concatenating *)

(** Any number of patches with the same dimensions and labels along [d]: those that
    fit the first one (hidden coordinates and [d] aside) are cut into groups of the
    length asked for, in their order, none left out, and each group gives one patch
    with the data of the group end to end along [d] and the labels one after the
    other. Coordinates not along [d] are those of the first patch of the group, those
    along [d] are gone. *)
Theorem C57_along : forall A D d k (first : patch A) t val, alike D (first :: t) -> In d D -> valued d k (first :: t) ->
  match val with Some n => 0 < n | None => True end ->
  exists kept gs outs, selects (fits_first d first) (first :: t) kept /\ in_pieces val kept gs /\
    concatenate d val LWarn (first :: t) = Ok outs /\
    Forall2 (fun g out => exists f r, g = f :: r /\
      joined D d (fun c => represents c (List.concat (map (fun p => values_of d (p_cm p)) g))) f r out) gs outs.
Proof. intros A. exact concat_valued. Qed.
Print Assumptions C57_along.

(** A patch with a coordinate along x only if [own], and a hidden one. *)
Definition cpat (own : bool) (a n yo : Z) : patch Z := mkPatch
  (mkCm ["x"; "y"]
    ([("x", rng a 2 n); ("y", rng yo (-1) 2); ("q", M1 (CArr KInt [4; 4])); ("_h", M1 (CArr KInt (map (fun i => i * i) (zrange n))))]
       ++ if own then [("own", M1 (CMono KInt (zrange n)))] else [])
    ([("x", ["x"]); ("y", ["y"]); ("q", ["y"]); ("_h", ["x"])] ++ if own then [("own", ["x"])] else []))
  (grid n 2 (fun i j => 100 * a + 10 * i + j)).
Lemma cpats_alike ps : forallb patch_okb ps = true -> ps <> [] -> forallb (fun p => strs_eqb (cm_dims (p_cm p)) ["x"; "y"]) ps = true ->
  alike (A := Z) ["x"; "y"] ps.
Proof.
  intros H N G. rewrite forallb_forall in H, G. split; [exact N| | | |].
  - intros p I. apply (patch_okb_ok p (H p I)).
  - intros p I. apply CmProofs.strs_eqb_eq. apply (G p I).
  - intros p I. apply (patch_okb_ok p (H p I)).
  - intros e [<-|[<-|[]]] [t T]; discriminate.
Qed.
Definition four : list (patch Z) := [cpat true 0 2 10; cpat false 50 1 10; cpat false 7 3 99; cpat false 20 2 10].
Example C57_along_applies :
  alike ["x"; "y"] four /\ valued "x" KInt four /\ ~ fits_first "x" (cpat true 0 2 10) (cpat false 7 3 99) /\
  exists a b, concatenate "x" (Some 2) LWarn four = Ok [a; b] /\
    nd_flat (p_data a) = [0; 1; 10; 11; 5000; 5001] /\ nd_flat (p_data b) = [2000; 2001; 2010; 2011] /\
    values_of "x" (p_cm a) = [0; 2; 50] /\ values_of "x" (p_cm b) = [20; 22] /\
    map fst (cm_coords (p_cm a)) = ["y"; "q"; "x"].
Proof.
  split; [apply cpats_alike; [vm_compute; reflexivity|discriminate|vm_compute; reflexivity]|]. split.
  - intros p I. cbn [four In] in I. destruct I as [<-|[<-|[<-|[<-|[]]]]]; eexists; (split; [reflexivity|split; [exact I|reflexivity]]).
  - split.
    + intros F. specialize (F "y" (rng 10 (-1) 2) (rng 99 (-1) 2)). assert (same_coord (rng 10 (-1) 2) (rng 99 (-1) 2)) as S.
      { apply F; [intros [t T]; discriminate|discriminate|reflexivity|reflexivity]. }
      apply MergeProofs.m_eqb_spec in S. vm_compute in S. discriminate.
    + do 2 eexists. split; [vm_compute; reflexivity|]. vm_compute. repeat split.
Qed.

(** Without labels along [d] the result has the added length and no labels. *)
Theorem C57_lengths : forall A D d (first : patch A) t, alike D (first :: t) -> In d D ->
  unvalued d (first :: t) ->
  (forall kept, selects (fits_first d first) (first :: t) kept -> total (map (length_of d) kept) <> 1) ->
  exists kept out, selects (fits_first d first) (first :: t) kept /\
    concatenate d None LWarn (first :: t) = Ok [out] /\ exists f r, kept = f :: r /\
    joined D d (fun c => c = CPart (total (map (length_of d) kept))) f r out.
Proof. intros A. exact concat_parts. Qed.
Print Assumptions C57_lengths.
Definition lpat (n o : Z) : patch Z := mkPatch
  (mkCm ["x"; "y"] [("x", M1 (CPart n)); ("y", rng 10 (-1) 2)] [("x", ["x"]); ("y", ["y"])]) (grid n 2 (fun i j => o + 10 * i + j)).
Example C57_lengths_applies :
  let ps := [lpat 2 100; lpat 1 200] in
  alike ["x"; "y"] ps /\ unvalued "x" ps /\
  (forall kept, selects (fits_first "x" (lpat 2 100)) ps kept -> total (map (length_of "x") kept) <> 1) /\
  exists out, concatenate "x" None LWarn ps = Ok [out] /\ nd_flat (p_data out) = [100; 101; 110; 111; 200; 201] /\
    assoc "x" (cm_coords (p_cm out)) = Some (M1 (CPart 3)).
Proof.
  cbv zeta. split; [apply cpats_alike; [vm_compute; reflexivity|discriminate|vm_compute; reflexivity]|]. split.
  - intros p I. destruct I as [<-|[<-|[]]]; eexists; reflexivity.
  - split.
    + intros kept S. assert (F : fits_first "x" (lpat 2 100) (lpat 2 100)).
      { intros n a b _ _ E1 E2. rewrite E1 in E2. injection E2 as <-. apply same_coord_refl. }
      inversion S as [|x l kk F1 S1|x l kk F1 S1]; subst; [|contradiction].
      inversion S1 as [|x l k1 F2 S2|x l k1 F2 S2]; subst; inversion S2; subst; vm_compute; discriminate.
    + eexists. split; [vm_compute; reflexivity|]. vm_compute. split; reflexivity.
Qed.

(** Along a new dimension: the patches of a group side by side, in order. *)
Theorem C57_new : forall A D d (first : patch A) t val, alike D (first :: t) -> ~ In d D -> limit_key D d = false ->
  (forall p, In p (first :: t) -> assoc d (cm_coords (p_cm p)) = None) ->
  match val with Some n => 0 < n | None => True end ->
  exists kept gs outs, selects (fits_first d first) (first :: t) kept /\ in_pieces val kept gs /\
    concatenate d val LWarn (first :: t) = Ok outs /\ Forall2 (layered D d) gs outs.
Proof. intros A. exact concat_new. Qed.
Print Assumptions C57_new.
Definition trio : list (patch Z) := [cpat true 0 2 10; cpat false 0 2 10; cpat false 50 2 10].
Example C57_new_applies :
  alike ["x"; "y"] trio /\ limit_key ["x"; "y"] "rank" = false /\
  (forall p, In p trio -> assoc "rank" (cm_coords (p_cm p)) = None) /\
  exists out, concatenate "rank" None LWarn trio = Ok [out] /\ cm_dims (p_cm out) = ["x"; "y"; "rank"] /\
    nd_shape (p_data out) = [2; 2; 2] /\ nd_flat (p_data out) = [0; 0; 1; 1; 10; 10; 11; 11].
Proof.
  split; [apply cpats_alike; [vm_compute; reflexivity|discriminate|vm_compute; reflexivity]|]. split; [reflexivity|]. split.
  - intros p [<-|[<-|[<-|[]]]]; reflexivity.
  - eexists. split; [vm_compute; reflexivity|]. vm_compute. repeat split.
Qed.

(** With "raise" nothing changes if every patch fits the first ... *)
Theorem C57_raise_same : forall A D d val (first : patch A) t, alike D (first :: t) -> (forall p, In p t -> fits_first d first p) ->
  concatenate d val LRaise (first :: t) = concatenate d val LWarn (first :: t).
Proof. intros A. exact concat_raise_ok. Qed.
Print Assumptions C57_raise_same.
(** ... and otherwise the call is refused. *)
Theorem C57_raise_refused : forall A D d val (first : patch A) t p, alike D (first :: t) -> In p t -> ~ fits_first d first p ->
  concatenate d val LRaise (first :: t) = Err IncompatiblePatchError.
Proof. intros A. exact concat_raise_err. Qed.
Print Assumptions C57_raise_refused.
Example C57_raise_applies :
  concatenate "x" None LRaise [cpat true 0 2 10; cpat false 50 1 10] = concatenate "x" None LWarn [cpat true 0 2 10; cpat false 50 1 10] /\
  concatenate "x" None LRaise four = Err IncompatiblePatchError.
Proof. vm_compute. split; reflexivity. Qed.
(** Different dimensions are refused in either mode. *)
Theorem C57_dims_refused : forall A d val lv (first : patch A) t p,
  (forall q, In q (first :: t) -> wf_patch q /\ forall e, In e (cm_dims (p_cm q)) -> ~ hidden e) ->
  In p t -> cm_dims (p_cm p) <> cm_dims (p_cm first) ->
  concatenate d val lv (first :: t) = Err PatchCoordinateError.
Proof. intros A. exact concat_dims_err. Qed.
Print Assumptions C57_dims_refused.
Definition tpat : patch Z := mkPatch
  (mkCm ["y"; "x"] [("x", rng 0 2 2); ("y", rng 10 (-1) 2)] [("x", ["x"]); ("y", ["y"])]) (grid 2 2 (fun j i => 10 * i + j)).
Example C57_dims_refused_applies :
  (forall q, In q [cpat false 0 2 10; tpat] -> wf_patch q /\ forall e, In e (cm_dims (p_cm q)) -> ~ hidden e) /\
  concatenate "x" None LWarn [cpat false 0 2 10; tpat] = Err PatchCoordinateError.
Proof.
  split; [|vm_compute; reflexivity]. intros q [<-|[<-|[]]]; (split; [apply (patch_okb_ok _); vm_compute; reflexivity|]);
  intros e [<-|[<-|[]]] [t T]; discriminate.
Qed.

(** A length of zero is refused. *)
Theorem C57_zero_refused : forall A D d (first : patch A) t, alike D (first :: t) ->
  concatenate d (Some 0) LWarn (first :: t) = Err ValueError.
Proof. intros A. exact concat_zero_err. Qed.
Print Assumptions C57_zero_refused.
Example C57_zero_applies : alike ["x"; "y"] four /\ concatenate "x" (Some 0) LWarn four = Err ValueError.
Proof. split; [|vm_compute; reflexivity]. apply cpats_alike; [vm_compute; reflexivity|discriminate|vm_compute; reflexivity]. Qed.

(** REFUTED: every patch that fits is in the outcome, or the call is refused. With a
    negative length, concatenate(time=-1), range is empty and an empty list comes
    back: all patches are lost without a warning. *)
Theorem C57_negative_refuted : exists D d (ps : list (patch Z)) n, alike D ps /\ valued d KInt ps /\ In d D /\
  concatenate d (Some n) LRaise ps = Ok [].
Proof.
  exists ["x"; "y"], "x", [cpat true 0 2 10; cpat false 50 1 10], (-1). split; [apply cpats_alike; [vm_compute; reflexivity|discriminate|vm_compute; reflexivity]|].
  split; [|split; [left; reflexivity|vm_compute; reflexivity]].
  intros p I. destruct I as [<-|[<-|[]]]; eexists; (split; [reflexivity|split; [exact I|reflexivity]]).
Qed.
Print Assumptions C57_negative_refuted.

(** * C58: stacking *)

(** Any number of patches with the same dimensions: the outcome has the coordinates
    of the first patch and at each position the sum, in order, of exactly those
    patches whose shared coordinates equal those of the first. *)
Theorem C58_fixed : forall A (zero : A) add D (first : patch A) t, uniform D (first :: t) ->
  exists kept out, selects (stackable None first) (first :: t) kept /\ stack zero add None LWarn (first :: t) = Ok out /\
    wf_patch out /\ p_cm out = p_cm first /\ summed zero add kept (nd_shape (p_data first)) (p_data out).
Proof. intros A. exact stack_fixed. Qed.
Print Assumptions C58_fixed.
Lemma uniformb (D : list string) (ps : list (patch Z)) :
  forallb patch_okb ps = true -> forallb (fun p => strs_eqb (cm_dims (p_cm p)) D) ps = true -> uniform D ps.
Proof. intros H G. rewrite forallb_forall in H, G. split; intros p I; [apply (patch_okb_ok p (H p I))|apply CmProofs.strs_eqb_eq, (G p I)]. Qed.
Example C58_fixed_applies :
  uniform ["x"; "y"] trio /\
  exists out, stack 0 Z.add None LWarn trio = Ok out /\ nd_flat (p_data out) = [0; 2; 20; 22].
Proof. split; [apply uniformb; vm_compute; reflexivity|]. eexists. split; [vm_compute; reflexivity|]. reflexivity. Qed.

(** With a dimension whose labels may vary: along it only the length has to agree,
    and the labels of the first patch are moved to start at zero. *)
Theorem C58_vary : forall A (zero : A) add D d c (first : patch A) t, uniform D (first :: t) -> plain_names (p_cm first) -> In d D ->
  assoc d (cm_coords (p_cm first)) = Some (M1 c) -> concrete c -> c_ints c <> [] ->
  exists kept out, selects (stackable (Some d) first) (first :: t) kept /\ stack zero add (Some d) LWarn (first :: t) = Ok out /\
    wf_patch out /\ cm_dims (p_cm out) = D /\ summed zero add kept (nd_shape (p_data first)) (p_data out) /\
    (exists c', assoc d (cm_coords (p_cm out)) = Some (M1 c') /\ rebased c c') /\
    (forall n m, n <> d -> assoc n (cm_coords (p_cm first)) = Some m -> keeps first out n) /\
    (forall n, assoc n (cm_coords (p_cm first)) = None -> lacks_coord out n).
Proof. intros A. exact stack_free. Qed.
Print Assumptions C58_vary.
Definition shifted : list (patch Z) := [cpat true 30 2 10; cpat false 50 2 10; cpat false 7 3 10; cpat false 9 2 99].
Example C58_vary_applies :
  uniform ["x"; "y"] shifted /\ plain_names (p_cm (cpat true 30 2 10)) /\
  exists out, stack 0 Z.add (Some "x") LWarn shifted = Ok out /\ nd_flat (p_data out) = [8000; 8002; 8020; 8022] /\
    assoc "x" (cm_coords (p_cm out)) = Some (rng 0 2 2) /\ map fst (cm_coords (p_cm out)) = ["x"; "y"; "q"; "_h"; "own"].
Proof.
  split; [apply uniformb; vm_compute; reflexivity|]. split; [apply (patch_okb_ok (cpat true 30 2 10)); vm_compute; reflexivity|].
  eexists. split; [vm_compute; reflexivity|]. vm_compute. repeat split.
Qed.

(** With "raise" nothing changes if every patch goes with the first ... *)
Theorem C58_raise_same : forall A (zero : A) add D free (first : patch A) t, (forall p, In p (first :: t) -> cm_dims (p_cm p) = D) ->
  (forall p, In p t -> stackable free first p) ->
  stack zero add free LRaise (first :: t) = stack zero add free LWarn (first :: t).
Proof. intros A. exact stack_raise_same. Qed.
Print Assumptions C58_raise_same.
(** ... and a patch with other dimensions or coordinates is refused. *)
Theorem C58_raise_refused : forall A (zero : A) add free (first : patch A) t p, In p t ->
  match free with Some d => In d (cm_dims (p_cm first)) | None => True end ->
  ~ (cm_dims (p_cm p) = cm_dims (p_cm first) /\ stackable free first p) ->
  stack zero add free LRaise (first :: t) = Err IncompatiblePatchError.
Proof. intros A. exact stack_raise_err. Qed.
Print Assumptions C58_raise_refused.
(** A varying dimension the first patch does not have is refused. *)
Theorem C58_no_dim : forall A (zero : A) add d lv (first : patch A) t, ~ In d (cm_dims (p_cm first)) ->
  stack zero add (Some d) lv (first :: t) = Err PatchCoordinateError.
Proof. intros A. exact stack_no_dim. Qed.
Print Assumptions C58_no_dim.
Example C58_raise_applies :
  stack 0 Z.add (Some "x") LRaise [cpat true 30 2 10; cpat false 50 2 10] = stack 0 Z.add (Some "x") LWarn [cpat true 30 2 10; cpat false 50 2 10] /\
  stack 0 Z.add (Some "x") LRaise shifted = Err IncompatiblePatchError /\
  stack 0 Z.add None LRaise [cpat false 0 2 10; tpat] = Err IncompatiblePatchError /\
  stack 0 Z.add (Some "z") LWarn shifted = Err PatchCoordinateError.
Proof. vm_compute. repeat split. Qed.

(** REFUTED: samples are added only to samples with the same labels. check_dims
    warns about different dimensions but returns True all the same, so with the
    default check_behavior="warn" a patch with its axes in another order is added
    position by position: here the sample at x=2, y=10 of the sum is not the sum of
    the samples with these labels. *)
Theorem C58_transposed_refuted : exists (p q out : patch Z), wf_patch p /\ wf_patch q /\
  cm_dims (p_cm p) = ["x"; "y"] /\ cm_dims (p_cm q) = ["y"; "x"] /\ stackable None p q /\
  stack 0 Z.add None LWarn [p; q] = Ok out /\
  values_of "x" (p_cm out) = [0; 2] /\ values_of "y" (p_cm out) = [10; 9] /\
  nd_get (p_data p) [1; 0] = Some 10 /\ nd_get (p_data q) [0; 1] = Some 10 /\
  nd_get (p_data out) [1; 0] = Some 11.
Proof.
  exists (cpat false 0 2 10), tpat. eexists. split; [apply (patch_okb_ok _); vm_compute; reflexivity|].
  split; [apply (patch_okb_ok _); vm_compute; reflexivity|]. split; [reflexivity|]. split; [reflexivity|]. split.
  - apply stackb_spec. vm_compute. reflexivity.
  - split; [vm_compute; reflexivity|]. vm_compute. repeat split.
Qed.
Print Assumptions C58_transposed_refuted.

(** REFUTED: a patch with fewer dimensions is left out. For the same reason it is
    added to every row of the first patch. *)
Theorem C58_fewer_dims_refuted : exists (p q out : patch Z), wf_patch p /\ wf_patch q /\
  cm_dims (p_cm p) = ["x"; "y"] /\ cm_dims (p_cm q) = ["y"] /\
  stack 0 Z.add None LWarn [p; q] = Ok out /\
  nd_flat (p_data p) = [0; 1; 10; 11] /\ nd_flat (p_data q) = [500; 600] /\ nd_flat (p_data out) = [500; 601; 510; 611].
Proof.
  exists (cpat false 0 2 10), (mkPatch (mkCm ["y"] [("y", rng 10 (-1) 2)] [("y", ["y"])]) (mkNd [2] [500; 600])). eexists.
  split; [apply (patch_okb_ok _); vm_compute; reflexivity|]. split; [apply (patch_okb_ok _); vm_compute; reflexivity|].
  split; [reflexivity|]. split; [reflexivity|]. split; [vm_compute; reflexivity|]. vm_compute. repeat split.
Qed.
Print Assumptions C58_fewer_dims_refuted.

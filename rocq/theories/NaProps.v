(** Property C69: dropping, filling and replacing samples.
    Model: NaModel.v. Specification vocabulary: NaSpec.v; [combined] from BinOpSpec.v. *)
From Verif Require Import Base BaseFacts CoordModel CoordSpec NdModel NdSpec FrameModel ChunkModel CmModel CmSpec
  CmProofs13 CmProofs18 CmProps BinOpModel BinOpSpec NaModel NaSpec NaProofs NaProofs2.
From Coq Require Import Strings.String ZifyBool Lia.
Local Open Scope Z_scope.
Local Open Scope list_scope.
Local Open Scope string_scope.

(** dropna keeps, in order, exactly the labels none of whose samples (how = "any") is
    missing or of which one sample is not missing (otherwise), with their samples. *)
Theorem C69_dropna : forall A (nonfinite isnull : A -> bool) (p : patch A) dim ax c how (inf : bool),
  wf_patch p -> plain_names (p_cm p) ->
  nth_error (cm_dims (p_cm p)) ax = Some dim -> assoc dim (cm_coords (p_cm p)) = Some (M1 c) ->
  let f := if inf then nonfinite else isnull in
  exists p' ps, pt_dropna nonfinite isnull p dim how inf = Ok p' /\
    remaining (c_len c)
      (fun i => if String.eqb how "any" then some_at f (p_data p) ax i else every_at f (p_data p) ax i) ps /\
    restricted p p' dim ps.
Proof. intros A. exact dropna_ok. Qed.
Print Assumptions C69_dropna.

(** Nothing missing is left: no missing sample (how = "any"), no label with only
    missing samples (otherwise). *)
Theorem C69_none_left : forall A (nonfinite isnull : A -> bool) (p p' : patch A) dim ax c c' how (inf : bool) i,
  wf_patch p -> plain_names (p_cm p) ->
  nth_error (cm_dims (p_cm p)) ax = Some dim -> assoc dim (cm_coords (p_cm p)) = Some (M1 c) ->
  pt_dropna nonfinite isnull p dim how inf = Ok p' ->
  assoc dim (cm_coords (p_cm p')) = Some (M1 c') -> 0 <= i < c_len c' ->
  let f := if inf then nonfinite else isnull in
  ~ (if String.eqb how "any" then some_at f (p_data p') ax i else every_at f (p_data p') ax i).
Proof. intros A. exact dropna_left. Qed.
Print Assumptions C69_none_left.

(** Dropping again changes nothing. *)
Theorem C69_again : forall A (nonfinite isnull : A -> bool) (p p1 : patch A) dim ax c how (inf : bool),
  wf_patch p -> plain_names (p_cm p) ->
  nth_error (cm_dims (p_cm p)) ax = Some dim -> assoc dim (cm_coords (p_cm p)) = Some (M1 c) ->
  pt_dropna nonfinite isnull p dim how inf = Ok p1 ->
  exists p2, pt_dropna nonfinite isnull p1 dim how inf = Ok p2 /\ p_data p2 = p_data p1 /\ cm_dims (p_cm p2) = cm_dims (p_cm p1).
Proof. intros A. exact dropna_again. Qed.
Print Assumptions C69_again.

Theorem C69_unknown : forall A (nonfinite isnull : A -> bool) (p : patch A) dim how inf,
  ~ In dim (cm_dims (p_cm p)) -> pt_dropna nonfinite isnull p dim how inf = Err CoordError.
Proof. intros A. exact dropna_unknown. Qed.
Print Assumptions C69_unknown.

(** fillna replaces the missing samples by the value and touches nothing else. *)
Theorem C69_fillna : forall A (nonfinite isnull : A -> bool) (p : patch A) v (inf : bool), wf_patch p ->
  exists p', pt_fillna nonfinite isnull p v inf = Ok p' /\
    changed p p' (fun x => if (if inf then nonfinite x else isnull x) then v else x).
Proof. intros A. exact fillna_ok. Qed.
Print Assumptions C69_fillna.

Theorem C69_full : forall A (p : patch A) v, wf_patch p ->
  exists p', pt_full p v = Ok p' /\ changed p p' (fun _ => v).
Proof. intros A. exact full_ok. Qed.
Print Assumptions C69_full.

(** where with a condition array of the shape of the data and a scalar. *)
Theorem C69_where_array : forall A argsort (p : patch A) (c : nd bool) v,
  wf_patch p -> wf_nd c -> nd_shape c = nd_shape (p_data p) ->
  exists r, pt_where argsort p (OpArray c) (OpArray (mkNd [] [v])) = Ok r /\ wf_patch r /\ p_cm r = p_cm p /\
    nd_shape (p_data r) = nd_shape (p_data p) /\
    forall ix, inb (nd_shape (p_data p)) ix -> exists b x, nd_get c ix = Some b /\ nd_get (p_data p) ix = Some x /\
      nd_get (p_data r) ix = Some (if b : bool then x else v).
Proof. intros A. exact where_array_ok. Qed.
Print Assumptions C69_where_array.

(** where with a condition patch: samples and conditions meet label by label; labels
    only one of the two has are gone. *)
Theorem C69_where_patch : forall A argsort (p : patch A) (q : patch bool) v,
  valid_argsort argsort -> wf_patch p -> wf_patch q -> operands (p_cm p) (p_cm q) ->
  (forall d, In d (cm_dims (p_cm q)) -> In d (cm_dims (p_cm p))) ->
  (forall d c, dim_coord (p_cm p) d = Some c -> stretches c = false) ->
  exists r vs, pt_where argsort p (OpPatch q) (OpArray (mkNd [] [v])) = Ok r /\
    combined (fun x (b : bool) => if b then x else v) p q r vs.
Proof. intros A. exact where_patch_ok. Qed.
Print Assumptions C69_where_patch.

(** ** Witnesses and counterexamples *)
Definition neg (x : Z) : bool := (x <? 0)%Z.
Definition low (x : Z) : bool := (x <? -5)%Z.
Definition na_p : patch Z := mkPatch (ex_cm 4 2) (mkNd [4; 2] [-1; -9; 2; -1; 4; 5; -7; 7]).
Example C69_witness :
  wf_patch na_p /\ plain_names (p_cm na_p) /\
  flat (pt_dropna neg low na_p "x" "any" true) = [4; 5] /\
  flat (pt_dropna neg low na_p "x" "all" true) = [2; -1; 4; 5; -7; 7] /\
  flat (pt_dropna neg low na_p "x" "any" false) = [2; -1; 4; 5] /\
  coords (pt_dropna neg low na_p "x" "all" true) "x" = Some (rng 2 2 3) /\
  flat (pt_dropna neg low na_p "y" "any" true) = [] /\
  coords (pt_dropna neg low na_p "y" "any" true) "y" = Some (M1 (CPart 0)) /\
  flat (pt_fillna neg low na_p 3 true) = [3; 3; 2; 3; 4; 5; 3; 7] /\
  flat (pt_full na_p 3) = [3; 3; 3; 3; 3; 3; 3; 3].
Proof.
  split; [apply patch_okb_ok; vm_compute; reflexivity|]. split; [apply (patch_okb_ok na_p); vm_compute; reflexivity|].
  repeat split; vm_compute; reflexivity.
Qed.

(** A patch of conditions about two of the four labels. *)
Definition na_sort (l : list Z) : list Z := zrange (zlen l).
Definition na_q : patch bool := mkPatch
  (mkCm ["x"] [("x", rng 2 2 2)] [("x", ["x"])]) (mkNd [2] [true; false]).
Example C69_where_witness :
  flat (pt_where na_sort na_p (OpArray (mkNd [4; 2] [true; false; true; true; false; true; true; true])) (OpArray (mkNd [] [0])))
    = [-1; 0; 2; -1; 0; 5; -7; 7] /\
  flat (pt_where na_sort na_p (OpPatch na_q) (OpArray (mkNd [] [0]))) = [2; -1; 0; 0] /\
  coords (pt_where na_sort na_p (OpPatch na_q) (OpArray (mkNd [] [0]))) "x" = Some (rng 2 2 2) /\
  flat (pt_where na_sort na_p (OpPatch na_q) (OpPatch na_p)) = [2; -1; 4; 5].
Proof. repeat split; vm_compute; reflexivity. Qed.

(** Other coordinates of the dimension are lost, although their values at the labels
    that are left are known. *)
Theorem C69_coordinates_refuted : exists p p' : patch Z, wf_patch p /\
  pt_dropna neg low p "x" "all" true = Ok p' /\
  assoc "q" (cm_coords (p_cm p)) = Some (M1 (CArr KInt [0; 2; 4; 1])) /\ assoc "q" (cm_coords (p_cm p')) = None.
Proof.
  exists na_p. eexists. split; [apply patch_okb_ok; vm_compute; reflexivity|]. split; [vm_compute; reflexivity|]. split; reflexivity.
Qed.
Print Assumptions C69_coordinates_refuted.

(** A misspelled how is not refused but means "all". *)
Theorem C69_how_refuted : forall A (nonfinite isnull : A -> bool) (p : patch A) dim how inf, how <> "any" ->
  pt_dropna nonfinite isnull p dim how inf = pt_dropna nonfinite isnull p dim "all" inf.
Proof. intros A. exact dropna_how. Qed.
Print Assumptions C69_how_refuted.

(** A condition array of the shape of the data is not cut to the labels a patch of
    replacements has. *)
Theorem C69_where_refuted : exists (p o : patch Z) (c : nd bool), wf_patch p /\ wf_patch o /\
  nd_shape c = nd_shape (p_data p) /\
  pt_where na_sort p (OpArray c) (OpPatch o) = Err ValueError /\
  exists r, pt_where na_sort p (OpPatch (mkPatch (p_cm p) c)) (OpPatch o) = Ok r.
Proof.
  exists na_p, (mkPatch (mkCm ["x"] [("x", rng 2 2 2)] [("x", ["x"])]) (mkNd [2] [50; 60])), (mkNd [4; 2] (repeat false 8)).
  split; [apply patch_okb_ok; vm_compute; reflexivity|]. split; [apply patch_okb_ok; vm_compute; reflexivity|].
  split; [reflexivity|]. split; [vm_compute; reflexivity|]. eexists. vm_compute. reflexivity.
Qed.
Print Assumptions C69_where_refuted.

(** Property C96: patches as dataframes. Model: TableModel.v. *)
From Verif Require Import Base BaseFacts CoordModel CoordSpec NdModel NdSpec FrameModel CmModel CmSpec CmProofs18 CmProps InterpModel TableModel TableSpec TableProofs.
From Coq Require Import Strings.String Lia.
Local Open Scope Z_scope.
Local Open Scope list_scope.
Local Open Scope string_scope.

Theorem C96_to_table : forall A (p : patch A) a b rows cols, wf_patch p -> cm_dims (p_cm p) = [a; b] -> has_labels (p_cm p) a rows -> has_labels (p_cm p) b cols ->
  to_table p = Ok (mkTable (Some a) rows (Some b) cols (p_data p)) /\ (a <> "" -> b <> "" -> proper (mkTable (Some a) rows (Some b) cols (p_data p)) a b).
Proof. exact @to_table_ok. Qed.
Print Assumptions C96_to_table.
Theorem C96_of_table : forall A (t : table A) a b, proper t a b -> exists q, of_table t None = Ok q /\ wf_patch q /\
  cm_dims (p_cm q) = [a; b] /\ map fst (cm_coords (p_cm q)) = [a; b] /\ p_data q = tb_data t /\ has_labels_about (p_cm q) a (tb_rows t) /\ has_labels_about (p_cm q) b (tb_cols t).
Proof. exact @of_table_ok. Qed.
Print Assumptions C96_of_table.
(** A patch made of its own dataframe has the same data, dimensions and labels, and no other
    coordinates. *)
Theorem C96_round_trip : forall A (p : patch A) a b rows cols, wf_patch p -> cm_dims (p_cm p) = [a; b] -> has_labels (p_cm p) a rows -> has_labels (p_cm p) b cols -> a <> "" -> b <> "" ->
  exists t q, to_table p = Ok t /\ of_table t None = Ok q /\ wf_patch q /\ cm_dims (p_cm q) = cm_dims (p_cm p) /\ map fst (cm_coords (p_cm q)) = cm_dims (p_cm p) /\ p_data q = p_data p /\
    has_labels_about (p_cm q) a rows /\ has_labels_about (p_cm q) b cols.
Proof. exact @round_trip. Qed.
Print Assumptions C96_round_trip.
(** A dataframe comes back as it was unless its labels are slightly uneven. *)
Theorem C96_table_trip : forall A (t : table A) a b, proper t a b -> spread (snd (tb_rows t)) -> spread (snd (tb_cols t)) -> snd (tb_rows t) <> [] -> snd (tb_cols t) <> [] ->
  exists q, of_table t None = Ok q /\ to_table q = Ok t.
Proof. exact @table_trip. Qed.
Print Assumptions C96_table_trip.
(** Names that are missing are taken from the attributes, both of them. *)
Theorem C96_named_by_attrs : forall A (t : table A) a b, unnamed t -> a <> b -> a <> "" -> b <> "" ->
  of_table t (Some (Some (a, b))) = of_table (mkTable (Some a) (tb_rows t) (Some b) (tb_cols t) (tb_data t)) None.
Proof. exact @named_by_attrs. Qed.
Print Assumptions C96_named_by_attrs.
Theorem C96_refused : forall A, (forall p : patch A, zlen (cm_dims (p_cm p)) <> 2 -> to_table p = Err AssertionError) /\
  (forall (t : table A) attrs, unnamed t -> attrs = None \/ attrs = Some None -> of_table t attrs = Err ValueError).
Proof. intros A. split; [exact not_two|exact nameless]. Qed.
Print Assumptions C96_refused.

Definition tp : patch Z := mkPatch (mkCm ["time"; "distance"] [("time", M1 (CMono KTime [0; 10; 30])); ("distance", rng 0 1 2); ("quality", M1 (CMono KInt [1; 2; 9]))] [("time", ["time"]); ("distance", ["distance"]); ("quality", ["time"])]) (mkNd [3; 2] [1; 2; 3; 4; 5; 6]).
(** The other coordinates are lost. *)
Theorem C96_coords_refuted : exists p t q, @wf_patch Z p /\ to_table p = Ok t /\ of_table t None = Ok q /\ assoc "quality" (cm_coords (p_cm p)) <> None /\ assoc "quality" (cm_coords (p_cm q)) = None.
Proof. exists tp. eexists _, _. split; [apply patch_okb_ok; reflexivity|]. split; [reflexivity|]. split; [vm_compute; reflexivity|]. split; [discriminate|reflexivity]. Qed.
Print Assumptions C96_coords_refuted.
Example C96_witness : wf_patch tp /\ has_labels (p_cm tp) "time" (KTime, [0; 10; 30]) /\ has_labels (p_cm tp) "distance" (KInt, [0; 1]) /\
  (exists t q, to_table tp = Ok t /\ proper t "time" "distance" /\ of_table t None = Ok q /\ assoc "distance" (cm_coords (p_cm q)) = Some (rng 0 1 2)) /\
  of_table (mkTable None (KInt, [1]) (Some "x") (KInt, [1]) (mkNd [1; 1] [5])) None = Err ValueError.
Proof.
  split; [apply patch_okb_ok; reflexivity|]. split; [eexists; repeat split; reflexivity|]. split; [eexists; repeat split; reflexivity|]. split; [|reflexivity].
  eexists _, _. split; [reflexivity|]. split; [|split; [vm_compute; reflexivity|reflexivity]]. 
  destruct (C96_to_table Z tp "time" "distance" (KTime, [0; 10; 30]) (KInt, [0; 1])) as [_ H]; [apply patch_okb_ok; reflexivity|reflexivity|eexists; repeat split; reflexivity|eexists; repeat split; reflexivity|]. apply H; discriminate.
Qed.

(** C100: the ratio of short-term to long-term averages. *)
From Verif Require Import Base BaseFacts CoordModel CoordSpec NdModel FrameModel ChunkModel CmModel CmSpec CmProps CmProofs18 ProcModel ProcSpec BinOpModel StaModel StaSpec StaProofs.
From Coq Require Import Strings.String QArith Lia Lqa.
Local Open Scope string_scope.
Local Open Scope Z_scope.
Local Open Scope list_scope.

(** Each value is the mean of the last samples of the short window divided by that of the long
    window, both ending at that sample. It is NaN until the long window is full. Coordinates are
    kept. *)
Theorem C100_stalta : forall p dim r samples sta lta ws wl, rollable p dim r samples sta lta ws wl ->
  exists q, pt_stalta p [(dim, [Some sta; Some lta])] samples = Ok q /\ p_cm q = p_cm p /\ wf_patch q /\
  forall pos, in_patch p pos ->
  (wl - 1 <= pos dim -> exists short long, last_samples p dim pos ws short /\ last_samples p dim pos wl long /\ data_at q pos = Some (divide (mean_of short) (mean_of long))) /\
  (pos dim < wl - 1 -> data_at q pos = Some None).
Proof. exact stalta_ok. Qed.
Print Assumptions C100_stalta.
(** The mean of numbers is the number that all of them could be replaced by, and a ratio is the
    number which gives back the numerator. *)
Theorem C100_numbers : (forall vs : list Q, vs <> [] -> exists m, mean_of (map Some vs) = Some m /\ (m * inject_Z (zlen vs) == fold_right Qplus 0 vs)%Q) /\
  (forall vs, In None vs -> mean_of vs = None) /\
  (forall x y, ~ (y == 0)%Q -> exists z, divide (Some x) (Some y) = Some z /\ (z * y == x)%Q) /\
  (forall x y, (y == 0)%Q -> divide x (Some y) = None) /\ (forall x, divide x None = None /\ divide None x = None).
Proof. exact numbers. Qed.
Print Assumptions C100_numbers.
(** Constant data have the ratio one. *)
Theorem C100_constant : forall p dim r samples sta lta ws wl c q pos, rollable p dim r samples sta lta ws wl -> pt_stalta p [(dim, [Some sta; Some lta])] samples = Ok q ->
  (forall pos x, data_at p pos = Some x -> exists v, x = Some v /\ v == c)%Q -> ~ (c == 0)%Q -> in_patch p pos -> wl - 1 <= pos dim -> exists y, data_at q pos = Some (Some y) /\ (y == 1)%Q.
Proof. exact stalta_const. Qed.
Print Assumptions C100_constant.
(** The ratio of data without negative values is at most the ratio of the window lengths. *)
Theorem C100_bound : forall p dim r samples sta lta ws wl q pos y, rollable p dim r samples sta lta ws wl -> pt_stalta p [(dim, [Some sta; Some lta])] samples = Ok q ->
  (forall pos x, data_at p pos = Some x -> exists v, x = Some v /\ 0 <= v)%Q -> in_patch p pos -> data_at q pos = Some (Some y) -> (0 <= y <= inject_Z wl / inject_Z ws)%Q.
Proof. exact stalta_bound. Qed.
Print Assumptions C100_bound.
(** It does not depend on the units of the data. *)
Theorem C100_scaled : forall p p' dim r samples sta lta ws wl c q q' pos, rollable p dim r samples sta lta ws wl -> rollable p' dim r samples sta lta ws wl -> multiplied c p p' -> ~ (c == 0)%Q ->
  pt_stalta p [(dim, [Some sta; Some lta])] samples = Ok q -> pt_stalta p' [(dim, [Some sta; Some lta])] samples = Ok q' -> in_patch p pos ->
  exists a b, data_at q pos = Some a /\ data_at q' pos = Some b /\ same_value a b.
Proof. exact stalta_scaled. Qed.
Print Assumptions C100_scaled.
Theorem C100_refused : forall p samples kw,
  (match kw with [(_, [_; _])] => False | _ => True end -> pt_stalta p kw samples = Err FilterValueError) /\
  (forall d, kw = [(d, [None; None])] -> pt_stalta p kw samples = Err FilterValueError) /\
  (forall d x, kw = [(d, [Some x; None])] \/ kw = [(d, [None; Some x])] -> pt_stalta p kw samples = Err TypeError) /\
  (forall d a b, kw = [(d, [Some a; Some b])] -> b <= a -> pt_stalta p kw samples = Err ParameterError) /\
  (forall d a b, kw = [(d, [Some a; Some b])] -> ~ In d (cm_dims (p_cm p)) -> pt_stalta p kw samples = Err ParameterError).
Proof. exact stalta_refused. Qed.
Print Assumptions C100_refused.

Definition sta_p (vs : list Z) : patch (option Q) := mkPatch (mkCm ["time"] [("time", M1 (CRange (mkRange KTime 0 (10 * zlen vs) 10 (zlen vs))))] [("time", ["time"])])
  (mkNd [zlen vs] (map (fun v => Some (inject_Z v)) vs)).
Definition values_of (x : result (patch (option Q))) : list (option Q) := match x with Ok q => map (option_map Qred) (nd_flat (p_data q)) | Err _ => [] end.
Lemma sta_p_rollable samples sta lta ws wl : counts (mkRange KTime 0 60 10 6) samples sta ws -> counts (mkRange KTime 0 60 10 6) samples lta wl -> 1 <= ws -> sta < lta ->
  rollable (sta_p [1; 2; 3; 10; 2; 0]) "time" (mkRange KTime 0 60 10 6) samples sta lta ws wl.
Proof.
  intros A B W L. destruct (patch_okb_ok (sta_p [1; 2; 3; 10; 2; 0])) as [W0 P]; [vm_compute; reflexivity|]. constructor; try assumption; try (right; reflexivity).
  - left. reflexivity.
  - reflexivity.
  - vm_compute. first [exact I | right; split; [reflexivity|discriminate]].
Qed.
(** A longer long-term window does not have to have more samples: lengths of 15 and 18 with a
    step of 10 are both two samples, so all ratios are one. *)
Theorem C100_order_refuted : exists p r, rollable p "time" r false 15 18 2 2 /\
  values_of (pt_stalta p [("time", [Some 15; Some 18])] false) = [None; Some 1; Some 1; Some 1; Some 1; Some 1]%Q.
Proof.
  exists (sta_p [1; 2; 3; 10; 2; 0]), (mkRange KTime 0 60 10 6). split; [|vm_compute; reflexivity]. apply sta_p_rollable; try lia; unfold counts, rounds_up; cbn; lia.
Qed.
Print Assumptions C100_order_refuted.
Example C100_witness : rollable (sta_p [1; 2; 3; 10; 2; 0]) "time" (mkRange KTime 0 60 10 6) false 10 25 1 3 /\
  rollable (sta_p [1; 2; 3; 10; 2; 0]) "time" (mkRange KTime 0 60 10 6) true 1 3 1 3 /\
  values_of (pt_stalta (sta_p [1; 2; 3; 10; 2; 0]) [("time", [Some 10; Some 25])] false) = [None; None; Some (3 # 2); Some 2; Some (2 # 5); Some 0]%Q /\
  values_of (pt_stalta (sta_p [10; 20; 30; 100; 20; 0]) [("time", [Some 1; Some 3])] true) = [None; None; Some (3 # 2); Some 2; Some (2 # 5); Some 0]%Q /\
  pt_stalta (sta_p [1; 2]) [("time", [Some 2; Some 1])] true = Err ParameterError.
Proof. split; [|split]; [| |repeat split; vm_compute; reflexivity]; apply sta_p_rollable; try lia; unfold counts, rounds_up; cbn; lia. Qed.

(** Specification vocabulary for patches and dataframes (C96). *)
From Verif Require Import Base CoordModel CoordSpec NdModel NdSpec FrameModel CmModel CmSpec InterpModel TableModel.
From Coq Require Import Strings.String.
Local Open Scope Z_scope.
Local Open Scope list_scope.

(** The dimension [d] has the labels [l] of the kind [k]. *)
Definition has_labels (cm : cman) (d : string) (l : kind * list Z) : Prop :=
  exists c, assoc d (cm_coords cm) = Some (M1 c) /\ concrete c /\ kind_of c = Some (fst l) /\ c_values c = map Some (snd l).
(** A coordinate as get_coord makes it of these labels: the same labels unless they are
    slightly uneven. *)
Definition has_labels_about (cm : cman) (d : string) (l : kind * list Z) : Prop :=
  exists c, assoc d (cm_coords cm) = Some (M1 c) /\ represents c (snd l) /\ (snd l <> [] -> concrete c /\ kind_of c = Some (fst l)).
(** A table with names and with one label for each row and column. *)
Definition proper {A} (t : table A) (a b : string) : Prop :=
  tb_index t = Some a /\ tb_columns t = Some b /\ a <> b /\ a <> EmptyString /\ b <> EmptyString /\
  wf_nd (tb_data t) /\ nd_shape (tb_data t) = [zlen (snd (tb_rows t)); zlen (snd (tb_cols t))].
Definition unnamed {A} (t : table A) : Prop :=
  (tb_index t = None \/ tb_index t = Some EmptyString) \/ (tb_columns t = None \/ tb_columns t = Some EmptyString).

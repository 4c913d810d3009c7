(** Specification vocabulary for chunking: intervals, runs of segments, samples
    on a grid. *)
From Verif Require Import Base CoordModel CoordSpec ChunkModel.
From Coq Require Import Sorting.Permutation Sorting.Sorted.

(** The sample values of a segment with spacing [s]. *)
Definition seg_samples (s : Z) (r : seg) : list Z :=
  progression (g_min r) s ((g_max r - g_min r) / s + 1).

(** [x] is a point of the grid base, base+s, ... *)
Definition on_grid (base s x : Z) : Prop := (s | x - base).

(** Evenly sampled segments of one common grid. *)
Definition grid_seg (base s : Z) (r : seg) : Prop :=
  g_step r = Some s /\ on_grid base s (g_min r) /\ on_grid base s (g_max r) /\ g_min r <= g_max r.

(** Row [k] of the sorted rows starts more than [num/den] of its own steps after
    the end of every earlier row. *)
Definition gap_before (num den : Z) (rows : list seg) (k : Z) : Prop :=
  exists r s, znth rows k = Some r /\ g_step r = Some s /\ 0 < k /\
    forall m r', 0 <= m < k -> znth rows m = Some r' -> num * s < den * (g_min r - g_max r').

(** Sampling changes by more than 5 % between sorted neighbours. *)
Definition step_jump (steps : list (option Z)) (k : Z) : Prop :=
  exists p s, 0 < k /\ znth steps (k - 1) = Some (Some p) /\ znth steps k = Some (Some s) /\
    s < 20 * (s - p).

(** Rows whose starts and ends both increase: nothing is nested or repeated. *)
Fixpoint staggered (rows : list seg) : Prop :=
  match rows with
  | [] => True
  | r :: t => match t with [] => True | r' :: _ => g_min r < g_min r' /\ g_max r < g_max r' end
              /\ staggered t
  end.
(** Ends may repeat. *)
Fixpoint weakly_staggered (rows : list seg) : Prop :=
  match rows with
  | [] => True
  | r :: t => match t with [] => True | r' :: _ => g_min r <= g_min r' /\ g_max r <= g_max r' end
              /\ weakly_staggered t
  end.
(** Each row starts at most one step after the previous row ends. *)
Fixpoint contiguous (s : Z) (rows : list seg) : Prop :=
  match rows with
  | [] => True
  | r :: t => match t with [] => True | r' :: _ => g_min r' <= g_max r + s end /\ contiguous s t
  end.
(** Disjoint, ordered rows. *)
Fixpoint disjoint_rows (rows : list seg) : Prop :=
  match rows with
  | [] => True
  | r :: t => g_min r <= g_max r /\
              match t with [] => True | r' :: _ => g_max r < g_min r' end /\ disjoint_rows t
  end.

(** The part of source [s] inside chunk [ch], as an instruction. *)
Definition cut (ch : chunkrow) (s : seg) : instr :=
  let mn := Z.max (g_min s) (k_min ch) in
  let mx := Z.min (g_max s) (k_max ch) in
  mkInstr mn mx (g_idx s) (k_idx ch)
          (g_mod s || negb ((mn =? g_min s) && (mx =? g_max s))).
(** The closed intervals of source and chunk meet. *)
Definition meets (ch : chunkrow) (s : seg) : bool :=
  (g_min s <=? k_max ch) && (k_min ch <=? g_max s).
Definition inside (x : Z) (s : seg) : Prop := g_min s <= x <= g_max s.

(** A group that can be merged: evenly sampled segments of one grid, none nested
    or repeated, each starting at most one step after the previous one ends. *)
Definition good_group (s : Z) (rows : list seg) : Prop :=
  0 < s /\ exists base ordered, Permutation ordered rows /\ Forall (grid_seg base s) ordered /\
    staggered ordered /\ contiguous s ordered.

(** The samples x of [lo], [lo]+[s], ..., [hi], each with the data of signal [f]. *)
Definition signal {D} (f : Z -> D) (lo s hi : Z) : list (Z * D) :=
  map (fun x => (x, f x)) (progression lo s ((hi - lo) / s + 1)).

(** The rows of a group agree on everything merging compares. *)
Definition mergeable (raise : bool) (rows : list seg) : Prop :=
  (forall a b, In a rows -> In b rows -> g_dims a = g_dims b) /\
  (raise = true -> forall a b, In a rows -> In b rows -> g_rest a = g_rest b).

(** A missing value counts as zero. *)
Definition or0 (o : option Z) : Z := match o with Some x => x | None => 0 end.

Definition positive_steps (steps : list (option Z)) : Prop :=
  forall s, In (Some s) steps -> 0 < s.

(** The intervals of one group. *)
Definition group_intervals (c : chunker) (sub : list seg) : result (list (Z * Z)) :=
  get_intervals (min_of (map g_min sub)) (max_of (map g_max sub))
                (c_value c) (c_overlap c) (first_step sub) (c_keep c).
Definition group_rows (argsort : list Z -> list Z) (c : chunker) (labels : list label) (rows : list seg)
  (lab : label) : list chunkrow :=
  let sub := rows_with lab labels rows in
  match group_intervals c sub with
  | Ok ivs => map (fun iv => mkChunk 0 (fst iv) (snd iv) (group_step argsort (c_snap c) sub) lab) ivs
  | Err _ => []
  end.
Definition group_fine (c : chunker) (sub : list seg) : Prop :=
  match group_intervals c sub with Ok _ => mergeable (c_raise c) sub | Err e => e = ChunkError end.


(** Chunk length and overlap are whole numbers of steps. *)
Definition whole_steps (s : Z) (c : chunker) : Prop :=
  match c_value c with None => True | Some v => (s | v) /\ 0 < v /\ (s | or0 (c_overlap c)) end.


(** Specification vocabulary for the file readers: what is recorded in a file,
    and what a patch that shows part of a recording looks like. *)
From Verif Require Import Base CoordModel CoordSpec ReadModel.

(** A label is asked for. *)
Definition wanted (b : option bounds) (x : Z) : bool :=
  match b with None => true | Some (lo, hi) => between lo hi x end.

(** The entries of [xs] whose label (the entry of [labels] at the same place) is
    kept. *)
Definition kept {A} (keep : Z -> bool) (labels : list Z) (xs : list A) : list A :=
  map snd (filter (fun p => keep (fst p)) (combine labels xs)).

(** The patch has these labels and these samples. *)
Definition shows (rd : reading) (times dists : list Z) (rows : list (list Z)) : Prop :=
  c_values (rd_time rd) = map Some times /\ c_values (rd_dist rd) = map Some dists /\
  g_rows (rd_data rd) = rows /\ g_cols (rd_data rd) = zlen dists.

(** [out] is the part of a recording with these labels and samples that lies in
    the requested times and distances; there is no patch if the part is empty. *)
Definition part_of (times dists : list Z) (rows : list (list Z)) (time dist : option bounds)
    (out : option reading) : Prop :=
  let ts := filter (wanted time) times in
  let ds := filter (wanted dist) dists in
  match out with
  | Some rd => ts <> [] /\ ds <> [] /\
      shows rd ts ds (map (kept (wanted dist) dists) (kept (wanted time) times rows))
  | None => ts = [] \/ ds = []
  end.

(** A step for which selecting by value is exact. *)
Definition fair_step (s : Z) : Prop := s <> 0 /\ Z.abs s < 20000000000.

(** An evenly sampled coordinate whose values are [vs]. *)
Definition even_coord (c : coord) (vs : list Z) : Prop :=
  exists r, c = CRange r /\ wf_range r /\ fair_step (r_step r) /\ r_values r = vs.

(** An array has [m] columns. *)
Definition width (m : Z) (rows : list (list Z)) : Prop := forall row, In row rows -> zlen row = m.

(** ** Febus
    A block of [z_shape1] rows holds [n] rows of its own between two overlaps;
    the fields of the file say so, either by the time between blocks or by the
    overlap in percent. *)
Record zone_ok (z : zone) (n : Z) : Prop :=
  { zo_step : 0 < z_step z /\ fair_step (z_step z);
    zo_dist : fair_step (z_dist_step z);
    zo_extent : z_versioned z = true -> z_ext3 z = z_ext2 z + z_shape1 z - 1;
    zo_rows : 1 < z_shape1 z;
    zo_n : 1 <= n <= z_shape1 z;
    zo_overlap : (z_ext2 z <> 0 /\ z_block_time z = n * z_step z) \/
                 (z_ext2 z = 0 /\ 0 <= z_overlap z /\
                  n * (100 + z_overlap z) = 100 * z_shape1 z);
    zo_cols : 1 <= z_shape2 z;
    zo_blocks : z_cube z <> [];
    zo_cube : forall block, In block (z_cube z) ->
                zlen block = z_shape1 z /\ width (z_shape2 z) block }.

(** Rows of overlap at the start of a block: half of them, the odd one being at
    the end. *)
Definition lead (z : zone) (n : Z) : Z := (z_shape1 z - n) / 2.

(** The recording in a zone: each block's own rows, one block after the other. *)
Definition zone_rows (z : zone) (n : Z) : list (list Z) :=
  flat_map (fun block => firstn (Z.to_nat n) (skipn (Z.to_nat (lead z n)) block)) (z_cube z).
Definition zone_times (z : zone) (n : Z) : list Z :=
  progression (z_origin z + lead z n * z_step z) (z_step z) (zlen (z_cube z) * n).
Definition zone_dists (z : zone) : list Z :=
  progression (z_dist0 z) (z_dist_step z) (z_shape2 z).

(** Bounds given in ascending order. *)
Definition ordered (b : bounds) : Prop :=
  match b with (Some lo, Some hi) => lo <= hi | _ => True end.

(** ** TDMS
    The raw values of interleaved samples: row after row. *)
Definition interleaved (rows : list (list Z)) : list Z := concat rows.

(** The raw values of samples stored channel by channel in chunks of [chunk]
    rows, the last one possibly shorter. *)
Definition column (c : Z) (rows : list (list Z)) : list Z := map (fun row => match znth row c with Some x => x | None => 0 end) rows.
Definition one_chunk (nch : Z) (rows : list (list Z)) : list Z :=
  flat_map (fun c => column c rows) (zrange nch).
Fixpoint chunked (fuel : nat) (nch chunk : Z) (rows : list (list Z)) : list Z :=
  match fuel with
  | O => []
  | S f =>
      match rows with
      | [] => []
      | _ => one_chunk nch (firstn (Z.to_nat chunk) rows) ++
             chunked f nch chunk (skipn (Z.to_nat chunk) rows)
      end
  end.
Definition in_chunks (nch chunk : Z) (rows : list (list Z)) : list Z :=
  chunked (length rows) nch chunk rows.

(** ** Terra15
    The stored times: those that were recorded, then zeros for the rows of an
    incomplete block. *)
Record recorded (times good : list Z) (first last : Z) : Prop :=
  { rc_times : exists k, times = good ++ repeat 0 k;
    rc_pos : forall t, In t good -> 0 < t;
    rc_first : znth good 0 = Some first;
    rc_last : znth good (zlen good - 1) = Some last;
    rc_order : first <= last }.

(** ** SEGY
    A file with traces of one length. *)
Record segy_ok (f : segy) : Prop :=
  { so_interval : 0 < sg_interval f < 20000000;
    so_count : 2 <= sg_count f;
    so_some : sg_traces f <> [];
    so_traces : forall t, In t (sg_traces f) -> zlen t = sg_count f }.

(** The array whose columns are these lists, all of length [n]. *)
Definition of_columns (n : Z) (cols : list (list Z)) : list (list Z) :=
  map (fun i => map (fun t => match znth t i with Some x => x | None => 0 end) cols) (zrange n).

(** ** Sintela binary
    A packet: its header and its rows. *)
Definition packet_words (p : list Z * list (list Z)) : list Z := fst p ++ concat (snd p).

(** The values that are there. *)
Definition somes {A} (l : list (option A)) : list A :=
  flat_map (fun o => match o with Some x => [x] | None => [] end) l.

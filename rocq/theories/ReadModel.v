(** Model of how the Febus A1, TDMS, Terra15, SEGY and Sintela readers lay out
    samples and labels: dascore/io/febus/a1utils.py, io/tdms/utils.py,
    io/terra15/utils.py, io/segy/utils.py, io/sintela_binary/utils.py.

    Samples are integers; a 2-D array is its number of columns and its rows.
    Times and distances are integers (nanoseconds, a distance unit of one's
    choice): the float seconds the readers compute with before converting to
    datetime64 are exact here.  Attributes, units, file opening, HDF5 and byte
    decoding are not modelled: a file is its decoded numbers. *)
From Verif Require Import Base CoordModel NdModel.

(** A numpy array of shape (rows, columns). *)
Record grid := mkGrid { g_cols : Z; g_rows : list (list Z) }.

(** [array.size]. *)
Definition g_size (g : grid) : Z := zlen (g_rows g) * g_cols g.

(** [g[rix, cix]]. *)
Definition g_index (g : grid) (rix cix : indexer) : result grid :=
  match np_index (g_rows g) rix, indexer_positions (g_cols g) cix with
  | Some rows, Some ps =>
      match traverse (fun row => gather row ps) rows with
      | Some out => Ok (mkGrid (zlen ps) out)
      | None => Err IndexError
      end
  | _, _ => Err IndexError
  end.

(** [flat.reshape(-1, cols)] for a C-ordered array. *)
Definition reshape_rows (cols : Z) (flat : list Z) : result grid :=
  if cols <=? 0 then Err ValueError
  else if negb (zlen flat mod cols =? 0) then Err ValueError
  else Ok (mkGrid cols
             (map (fun i => firstn (Z.to_nat cols) (skipn (Z.to_nat (i * cols)) flat))
                  (zrange (zlen flat / cols)))).

(** What a reader hands out: the two coordinates and the data of a patch with
    dimensions (time, distance) (for SEGY: (time, channel)). *)
Record reading := mkReading { rd_time : coord; rd_dist : coord; rd_data : grid }.

(** core/patch.py 94-176 [dc.Patch(data, coords)]: the data must have the shape
    of the coordinates (coordmanager.py 838-848). *)
Definition new_reading (t d : coord) (g : grid) : result reading :=
  if (c_len t =? zlen (g_rows g)) && (c_len d =? g_cols g)
  then Ok (mkReading t d g) else Err CoordDataError.

(** A [time=(a, b)] / [distance=(a, b)] argument; each bound may be open
    (None or Ellipsis). *)
Definition bounds := (option Z * option Z)%type.

(** [coord.select(None)] keeps everything; [coord.select((a, b))]. *)
Definition select_opt (c : coord) (b : option bounds) : result (coord * indexer) :=
  match b with
  | None => Ok (c, simple_slice None None)
  | Some (lo, hi) => c_select c false lo hi
  end.

(** ** Febus A1 *)

(** What the reader uses of one zone of a file (a1utils.py 22-32): the time of
    the first block plus the zone's time origin, the sample spacing, the time
    between blocks, whether the zone has a "Version" attribute, Extent[2] and
    Extent[3], the overlap in percent, Extent[0] * Spacing[0] + Origin[0],
    Spacing[0], and the data cube with its second and third extent. *)
Record zone := mkZone
  { z_origin : Z; z_step : Z; z_block_time : Z; z_versioned : bool;
    z_ext2 : Z; z_ext3 : Z; z_overlap : Z;
    z_dist0 : Z; z_dist_step : Z;
    z_shape1 : Z; z_shape2 : Z; z_cube : list (list (list Z)) }.

(** a1utils.py 45-59: get_data_index. *)
Definition data_index (block_pad block_no_pad : Z) : result (Z * Z) :=
  let to_remove := block_pad - block_no_pad in
  if to_remove <? 0 then Err AssertionError
  else
    let quotient := to_remove / 2 in
    let remainder := to_remove mod 2 in
    Ok (Z.max 0 quotient, block_pad - 1 - (remainder + quotient)).

(** a1utils.py 75-92: rows of a block with its overlap. *)
Definition block_pad (z : zone) : Z :=
  if z_versioned z then 1 + z_ext3 z - z_ext2 z else z_shape1 z.

(** a1utils.py 98-104: rows of a block without its overlap. *)
Definition block_no_pad (z : zone) : Z :=
  if negb (z_ext2 z =? 0) then round_half_even (z_block_time z) (z_step z)
  else round_half_even (100 * block_pad z) (100 + z_overlap z).

(** a1utils.py 35-116: the first and the last row of each block to use. The
    checks for a missing gauge length and flat data are left out. *)
Definition zone_index (z : zone) : result (Z * Z) :=
  if block_pad z <=? 1 then Err AssertionError
  else data_index (block_pad z) (block_no_pad z).

(** a1utils.py 223-254 *)
Definition zone_time (z : zone) : result coord :=
  do ij <- zone_index z;
  let rows := snd ij - fst ij + 1 in
  let nb := zlen (z_cube z) in
  let start := z_origin z + fst ij * z_step z in
  do r <- mk_range KTime start (start + rows * z_step z * nb) (z_step z);
  change_length r (rows * nb).

(** a1utils.py 257-278 *)
Definition zone_dist (z : zone) : result coord :=
  do r <- mk_range KInt (z_dist0 z) (z_dist0 z + z_shape2 z * z_dist_step z) (z_dist_step z);
  change_length r (z_shape2 z).

(** [data[bix, rix, cix]] on the cube. *)
Definition cube_index (z : zone) (bix rix cix : indexer) : result (list (list (list Z))) :=
  match np_index (z_cube z) bix, indexer_positions (z_shape1 z) rix,
        indexer_positions (z_shape2 z) cix with
  | Some blocks, Some rs, Some cs =>
      match traverse (fun block =>
              match gather block rs with
              | Some rows => traverse (fun row => gather row cs) rows
              | None => None
              end) blocks with
      | Some out => Ok out
      | None => Err IndexError
      end
  | _, _, _ => Err IndexError
  end.

(** a1utils.py 308-316: _get_start_end_time_array. *)
Definition block_times (r : crange) (rows nb : Z) : list (Z * Z) :=
  let duration := rows * r_step r in
  map (fun b => let start := (b * duration + r_step r) + r_min r in
                (start, start + duration)) (zrange nb).

(** a1utils.py 322-327: which blocks have data in the requested time. *)
Definition in_time (b : bounds) (t : Z * Z) : bool :=
  negb (match fst b with Some t1 => snd t <? t1 | None => false end)
  && negb (match snd b with Some t2 => t2 <? fst t | None => false end).

(** numpy [argmax]: the first position of the greatest value; an empty array is
    a ValueError. *)
Fixpoint first_at (m : Z) (k : Z) (l : list Z) : Z :=
  match l with
  | [] => k
  | x :: t => if x =? m then k else first_at m (k + 1) t
  end.
Definition np_argmax (l : list Z) : result Z :=
  match list_max l with Some m => Ok (first_at m 0 l) | None => Err ValueError end.

(** numpy [cumsum]. *)
Fixpoint cumsum (acc : Z) (l : list Z) : list Z :=
  match l with
  | [] => []
  | x :: t => (acc + x) :: cumsum (acc + x) t
  end.

(** a1utils.py 318-348: _get_time_filtered_data. [rix] and [cix] are the row and
    column slices of every block. *)
Definition time_filtered (z : zone) (r : crange) (rows : Z) (rix cix : indexer) (b : bounds)
  : result (grid * coord) :=
  let t_start_end := block_times r rows (zlen (z_cube z)) in
  let mask := map (in_time b) t_start_end in
  let times := filter (in_time b) t_start_end in
  do start <- np_argmax (map (fun m : bool => if m then 1 else 0) mask);
  do last <- np_argmax (cumsum 0 (map (fun m : bool => if m then 1 else 0) mask));
  let stop := last + (if zlen times =? 0 then 0 else 1) in
  do blocks <- cube_index z (simple_slice (Some start) (Some stop)) rix cix;
  do g <- reshape_rows (z_shape2 z) (concat (concat blocks));
  if g_size g =? 0 then Ok (g, c_empty)
  else
    match list_min (map fst times), list_max (map snd times) with
    | Some tmin, Some tmax =>
        do r1 <- mk_range KTime tmin tmax (r_step r);
        do c <- change_length r1 (zlen (g_rows g));
        do out <- c_select c false (fst b) (snd b);
        match np_index (g_rows g) (snd out) with
        | Some rs => Ok (mkGrid (g_cols g) rs, fst out)
        | None => Err IndexError
        end
    | _, _ => Err ValueError
    end.

(** a1utils.py 300-372: _get_data_new_cm. *)
Definition zone_data (z : zone) (time dist : option bounds) : result (grid * coord * coord) :=
  do time_coord <- zone_time z;
  do dist_coord <- zone_dist z;
  do ij <- zone_index z;
  let rix := simple_slice (Some (fst ij)) (Some (snd ij + 1)) in
  let rows := snd ij - fst ij + 1 in
  do ds <- select_opt dist_coord dist;
  match time with
  | Some b =>
      match time_coord with
      | CRange r =>
          do gt <- time_filtered z r rows rix (snd ds) b;
          Ok (fst gt, snd gt, fst ds)
      | _ => Err Unmodelled
      end
  | None =>
      do blocks <- cube_index z (simple_slice None None) rix (snd ds);
      if c_len (fst ds) =? 0
      then Ok (mkGrid 0 (repeat [] (Z.to_nat (c_len time_coord))), time_coord, fst ds)
      else
        match indexer_positions (z_shape2 z) (snd ds) with
        | Some cs => do g <- reshape_rows (zlen cs) (concat (concat blocks));
                     Ok (g, time_coord, fst ds)
        | None => Err IndexError
        end
  end.

(** a1utils.py 375-383: one zone's patch; none if there is no data. *)
Definition read_zone (z : zone) (time dist : option bounds) : result (option reading) :=
  do out <- zone_data z time dist;
  let '(g, t, d) := out in
  if g_size g =? 0 then Ok None
  else do rd <- new_reading t d g; Ok (Some rd).

(** a1utils.py 375-383: every zone of the file in turn. *)
Fixpoint read_febus (zs : list zone) (time dist : option bounds) : result (list reading) :=
  match zs with
  | [] => Ok []
  | z :: rest =>
      do here <- read_zone z time dist;
      do others <- read_febus rest time dist;
      Ok (match here with Some rd => rd :: others | None => others end)
  end.

(** ** TDMS *)

(** The value at position [i] of the mapped raw data. *)
Definition item (raw : list Z) (i : Z) : Z := match znth raw i with Some x => x | None => 0 end.

(** tdms/utils.py 248-293: get_segment_data on the raw values of one segment.
    [decimated] is true for data stored channel after channel in chunks and
    false for interleaved data.  The array (blocks, channels, chunk) is rolled to
    (chunk, blocks, channels) and flattened over its first two axes.  [None] is
    what the function returns when the length is a multiple of the chunk size. *)
Definition segment_data (decimated : bool) (nch chunk : Z) (raw : list Z)
  : result (option (list (list Z) * Z)) :=
  if (nch <=? 0) || (chunk <=? 0) then Err Unmodelled
  else
    let seg_length := zlen raw / nch in
    let nblk := if decimated then seg_length / chunk else 0 in
    let rows := flat_map (fun s => map (fun b =>
                  map (fun c => item raw ((b * nch + c) * chunk + s)) (zrange nch))
                  (zrange nblk)) (zrange chunk) in
    if nblk * chunk =? seg_length then Ok None
    else
      let extra := seg_length - nblk * chunk in
      let offset := nblk * nch * chunk in
      let more := map (fun s => map (fun c =>
                    item raw (offset + (if decimated then c * extra + s else s * nch + c)))
                    (zrange nch)) (zrange extra) in
      Ok (Some (rows ++ more, seg_length)).

(** numpy [append(a, b, axis=1)]. *)
Definition append_columns (a b : list (list Z)) : result (list (list Z)) :=
  if zlen a =? zlen b
  then Ok (map (fun p : list Z * list Z => fst p ++ snd p) (combine a b))
  else Err ValueError.

(** tdms/utils.py 309-325: one segment after the other. Unpacking the [None] of
    [get_segment_data] is a TypeError. *)
Fixpoint tdms_loop (decimated : bool) (nch chunk : Z) (acc : option (list (list Z) * Z))
    (segs : list (list Z)) : result (option (list (list Z) * Z)) :=
  match segs with
  | [] => Ok acc
  | raw :: rest =>
      do out <- segment_data decimated nch chunk raw;
      match out with
      | None => Err TypeError
      | Some (rows, n) =>
          match acc with
          | None => tdms_loop decimated nch chunk (Some (rows, n)) rest
          | Some (rows0, n0) =>
              do rows1 <- append_columns rows0 rows;
              tdms_loop decimated nch chunk (Some (rows1, n0 + n)) rest
          end
      end
  end.

(** tdms/utils.py 245-326: _get_data, for a file with at least one segment. *)
Definition tdms_data (decimated : bool) (nch chunk : Z) (segs : list (list Z))
  : result (list (list Z) * Z) :=
  do out <- tdms_loop decimated nch chunk None segs;
  match out with Some x => Ok x | None => Err Unmodelled end.

(** tdms/utils.py 116-124 and 221-229: the time coordinate counts the values
    from the first raw data to the end of the file ([total] of them). *)
Definition tdms_time (t0 dt nch total : Z) : result coord :=
  if (nch <=? 0) || negb (total mod nch =? 0) then Err Unmodelled
  else
    let n := total / nch in
    do r <- mk_range KTime t0 (t0 + dt * (n - 1) + dt) dt; Ok (CRange r).

(** tdms/core.py 47-64: read. The distance coordinate comes from the header. *)
Definition tdms_read (decimated : bool) (t0 dt nch chunk total : Z) (d : coord)
    (segs : list (list Z)) (time dist : option bounds) : result (option reading) :=
  do data <- tdms_data decimated nch chunk segs;
  do t <- tdms_time t0 dt nch total;
  let cols := match fst data with row :: _ => zlen row | [] => nch end in
  let g := mkGrid cols (fst data) in
  do ts <- select_opt t time;
  do ds <- select_opt d dist;
  do g1 <- match time, dist with
           | None, None => Ok g
           | _, _ => g_index g (snd ts) (snd ds)
           end;
  if g_size g1 =? 0 then Ok None
  else do rd <- new_reading (fst ts) (fst ds) g1; Ok (Some rd).

(** ** Terra15 *)

(** terra15/utils.py 47-66: first time, last time, number of samples and step.
    One sample (a division by zero) is not modelled. *)
Definition terra_info (times : list Z) : result (Z * Z * Z) :=
  let first l := match l with [] => Err IndexError | x :: _ => Ok x end in
  do a <- first times;
  do b <- first (rev times);
  let used := if b <? a then filter (fun t => 0 <? t) times else times in
  do tmin <- first used;
  do tmax <- first (rev used);
  let n := zlen used in
  if n <=? 1 then Err Unmodelled
  else Ok (tmin, n, round_half_even (tmax - tmin) (n - 1)).

(** terra15/utils.py 167-175 *)
Definition terra_time (times : list Z) (snap_dims : bool) : result coord :=
  do info <- terra_info times;
  let '(start, n, step) := info in
  if snap_dims
  then do r <- mk_range KTime start (start + step * (n - 1) + step) step; Ok (CRange r)
  else get_coord_data KTime times.

(** The [.start] / [.stop] of an index that has to be a slice. *)
Definition as_slice (ix : indexer) : result pyslice :=
  match ix with IxSlice s => Ok s | _ => Err AttributeError end.

(** terra15/utils.py 130-135: an index into fewer rows than there are in the
    file gets an explicit end. *)
Definition terra_rows (shape0 time_len : Z) (ix : indexer) : result indexer :=
  if time_len <? shape0 then
    do s <- as_slice ix;
    let start := match sl_start s with Some a => a | None => 0 end in
    let stop := match sl_stop s with Some b => b | None => start + time_len end in
    Ok (simple_slice (Some start) (Some stop))
  else Ok ix.

(** terra15/utils.py 103-144 and core.py 72-75. [d] is the distance coordinate
    of the header. *)
Definition terra_read (times : list Z) (d : coord) (data : grid) (snap_dims : bool)
    (time dist : option bounds) : result (option reading) :=
  do t <- terra_time times snap_dims;
  do ts <- select_opt t time;
  do ds <- select_opt d dist;
  do rix <- terra_rows (zlen (g_rows data)) (c_len (fst ts)) (snd ts);
  do g <- g_index data rix (snd ds);
  do rd <- new_reading (fst ts) (fst ds) g;
  if g_size g =? 0 then Ok None else Ok (Some rd).

(** ** SEGY *)

(** What is used of a SEGY file: the first trace's date (whole seconds, here in
    nanoseconds), the sample interval in microseconds and the traces. *)
Record segy := mkSegy
  { sg_start : Z; sg_interval : Z; sg_count : Z; sg_traces : list (list Z) }.

Definition ns_per_us : Z := 1000.
Definition ns_per_s : Z := 1000000000.

(** segy/utils.py 101-129: the coordinates. *)
Definition segy_coords (f : segy) : result (coord * coord) :=
  do t <- get_coord_data KTime
            (map (fun i => sg_start f + sg_interval f * ns_per_us * i) (zrange (sg_count f)));
  do c <- get_coord_data KInt (zrange (zlen (sg_traces f)));
  Ok (t, c).

(** numpy [stack(l, axis=-1)] of traces of one length; an empty list is a
    ValueError. *)
Definition stack_columns (l : list (list Z)) : result grid :=
  match l with
  | [] => Err ValueError
  | t0 :: _ =>
      if forallb (fun t => zlen t =? zlen t0) l
      then Ok (mkGrid (zlen l) (map (fun i => map (fun t => item t i) l) (zrange (zlen t0))))
      else Err ValueError
  end.

(** segy/utils.py 73-98 and core.py 34-55. *)
Definition segy_read (f : segy) (time channel : option bounds) : result (option reading) :=
  do tc <- segy_coords f;
  do ts <- select_opt (fst tc) time;
  do cs <- select_opt (snd tc) channel;
  match np_index (sg_traces f) (snd cs) with
  | None => Err IndexError
  | Some traces =>
      match traverse (fun t => np_index t (snd ts)) traces with
      | None => Err IndexError
      | Some cut =>
          do g <- stack_columns cut;
          if g_size g =? 0 then Ok None
          else do rd <- new_reading (fst ts) (fst cs) g; Ok (Some rd)
      end
  end.

(** segy/utils.py 177-275: writing a patch with dimensions time and channel: the
    start is cut to whole seconds, the step rounded to microseconds; a rounding
    error above 3 ns is refused; one trace per channel. *)
Definition segy_write (r : crange) (nch : Z) (rows : list (list Z)) : result segy :=
  let us := round_half_even (r_step r) ns_per_us in
  if 3 <? Z.abs (us * ns_per_us - r_step r) then Err PatchError
  else Ok (mkSegy (r_min r / ns_per_s * ns_per_s) us (r_len r)
             (map (fun c => map (fun row => item row c) rows) (zrange nch))).

(** ** Sintela binary *)

(** sintela_binary/utils.py 109-120 and 188-203, on a file of 4-byte words: every
    packet is a header and [num_samples * num_channels] values. *)
Definition sintela_data (header num_samples nch : Z) (words : list Z) : result grid :=
  let packet := header + num_samples * nch in
  if (header <? 0) || (num_samples <=? 0) || (nch <=? 0) then Err Unmodelled
  else if negb (zlen words mod packet =? 0) then Err ValueError
  else
    let blocks := map (fun b => skipn (Z.to_nat header)
                         (firstn (Z.to_nat packet) (skipn (Z.to_nat (b * packet)) words)))
                      (zrange (zlen words / packet)) in
    reshape_rows nch (concat blocks).

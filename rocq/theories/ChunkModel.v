(** Model of chunking and merging: dascore/utils/chunk.py, the overlap removal of
    dascore/utils/pd.py and the streaming merge of dascore/core/spool.py.

    Limits, lengths and steps are integers (integer or nanosecond coordinates).
    A missing (NaN / NaT) step is [None].  A table is a list of rows. *)
From Verif Require Import Base CoordModel.

(** One row of a spool's source dataframe, restricted to what chunking reads
    along the chunked dimension. [g_idx] is the pandas index label (unique).
    [g_key] stands for the group columns (network, station, dims, data_type, tag;
    spool.py 421), [g_dims] for the public columns whose prefix is a dimension
    and [g_rest] for all other public columns; only their equality matters. *)
Record seg := mkSeg
  { g_idx : Z; g_min : Z; g_max : Z; g_step : option Z;
    g_key : Z; g_dims : Z; g_rest : Z; g_mod : bool }.

(** chunk.py 36-117: get_intervals. [length = None] is the null length. A zero
    [new_step] is numpy's zero-step error. *)
Definition get_intervals (start stop : Z) (length overlap step : option Z) (keep_partials : bool)
  : result (list (Z * Z)) :=
  match length with
  | None => Ok [(start, stop)]
  | Some length =>
      let overlap := match overlap with None => 0 | Some o => o end in
      let step := match step with None => 0 | Some s => s end in
      if length <? overlap then Err ParameterError
      else
        let duration := stop - start + step in
        if (duration <? length) && negb keep_partials then Err ChunkError
        else
          let new_step := length - overlap in
          if new_step =? 0 then Err ZeroDivision
          else
            let reference := np_arange start (stop + new_step) new_step in
            let reference := filter (fun r => r + step <=? stop) reference in
            let pairs := map (fun r => (r, r + length - step)) reference in
            if keep_partials
            then Ok (map (fun p => (fst p, if stop <? snd p then stop else snd p)) pairs)
            else Ok (filter (fun p => snd p <=? stop) pairs)
  end.

(** Settings of a ChunkManager (chunk.py 161-178). The tolerance is the rational
    [c_tol_num / c_tol_den]. [c_raise]: conflict == "raise". *)
Record chunker := mkChunker
  { c_value : option Z; c_overlap : option Z; c_keep : bool; c_snap : bool;
    c_tol_num : Z; c_tol_den : Z; c_raise : bool }.

(** chunk.py 192-207: _validate_chunker. *)
Definition validate_chunker (c : chunker) : result unit :=
  match c_value c with
  | None =>
      if c_keep c || match c_overlap c with None => false | Some o => negb (o =? 0) end
      then Err ParameterError else Ok tt
  | Some v => if v <=? 0 then Err ParameterError else Ok tt
  end.

(** chunk.py 223-226: a gap larger than [tolerance] samples. A null step compares
    false. The float product of the code is the exact rational here. *)
Definition too_far (num den : Z) (d : Z) (step : option Z) : bool :=
  match step with None => false | Some s => num * s <? den * d end.
Fixpoint gap_flags (num den : Z) (cummax : option Z) (rows : list seg) : list bool :=
  match rows with
  | [] => []
  | r :: t =>
      match cummax with
      | None => false :: gap_flags num den (Some (g_max r)) t
      | Some m =>
          too_far num den (g_min r - m) (g_step r)
          :: gap_flags num den (Some (Z.max m (g_max r))) t
      end
  end.

Fixpoint cumsum (k : Z) (l : list bool) : list Z :=
  match l with
  | [] => []
  | b :: t => let k' := if b then k + 1 else k in k' :: cumsum k' t
  end.

(** Put values listed in the order [args] back in original order. *)
Fixpoint lookup (i : Z) (l : list (Z * Z)) : Z :=
  match l with [] => 0 | (k, v) :: t => if i =? k then v else lookup i t end.
Definition unsort (args vals : list Z) : list Z :=
  map (fun i => lookup i (combine args vals)) (zrange (zlen args)).

(** Rows in the order of an argsort of a column. *)
Definition take_rows (rows : list seg) (args : list Z) : list seg :=
  match gather rows args with Some r => r | None => [] end.

(** chunk.py 209-227: _get_continuity_group_number. [argsort] is np.argsort, ties
    in any order. *)
Definition continuity_groups (argsort : list Z -> list Z) (num den : Z) (rows : list seg) : list Z :=
  let args := argsort (map g_min rows) in
  unsort args (cumsum 0 (gap_flags num den None (take_rows rows args))).

(** chunk.py 229-246: _get_sampling_group_num. [(s - p) / s > 0.05]. *)
Definition sampling_split (prev cur : option Z) : bool :=
  match prev, cur with
  | Some p, Some s =>
      if 0 <? s then s <? 20 * (s - p)
      else if s <? 0 then 20 * (s - p) <? s
      else p <? s
  | _, _ => false
  end.
Fixpoint split_flags (prev : option Z) (l : list (option Z)) : list bool :=
  match l with [] => [] | s :: t => sampling_split prev s :: split_flags s t end.
(** Null steps sort last: replace them by something larger than every step. *)
Definition null_last (l : list (option Z)) : list Z :=
  let top := fold_right (fun s m => match s with Some x => Z.max x m | None => m end) 0 l in
  map (fun s => match s with Some x => x | None => top + 1 end) l.
Definition sampling_groups (argsort : list Z -> list Z) (steps : list (option Z)) : list Z :=
  let args := argsort (null_last steps) in
  let sorted := match gather steps args with Some r => r | None => [] end in
  unsort args (cumsum 0 (split_flags (last sorted None) sorted)).

(** chunk.py 428-438: the group label joins the three numbers. [df.groupby(cols)
    .ngroup()] numbers the distinct keys; the key itself is used here. *)
Definition label := (Z * Z * Z)%type.
Definition label_eqb (a b : label) : bool :=
  let '(a1, a2, a3) := a in let '(b1, b2, b3) := b in
  (a1 =? b1) && (a2 =? b2) && (a3 =? b3).
Definition group_labels (argsort : list Z -> list Z) (c : chunker) (rows : list seg) : list label :=
  let cont := continuity_groups argsort (c_tol_num c) (c_tol_den c) rows in
  let samp := sampling_groups argsort (map g_step rows) in
  map (fun x => (fst (fst x), g_key (snd (fst x)), snd x))
      (combine (combine samp rows) cont).

(** [group.unique()]: first appearances. *)
Fixpoint unique_labels (seen : list label) (l : list label) : list label :=
  match l with
  | [] => []
  | x :: t => if existsb (label_eqb x) seen then unique_labels seen t
              else x :: unique_labels (x :: seen) t
  end.
Definition rows_with {A} (lab : label) (labels : list label) (rows : list A) : list A :=
  map snd (filter (fun p => label_eqb lab (fst p)) (combine labels rows)).

(** misc.py 314-319 over possibly null steps (nulls sort last). *)
Definition some_steps (l : list (option Z)) : list Z :=
  flat_map (fun s => match s with Some x => [x] | None => [] end) l.
Definition middle_step (l : list (option Z)) : option Z :=
  znth (np_sort (some_steps l)) ((zlen l - 1) / 2).

(** chunk.py 260-283: _get_group_step. *)
Definition group_step (argsort : list Z -> list Z) (snap : bool) (rows : list seg) : option Z :=
  let steps := map g_step rows in
  let step := middle_step steps in
  if snap || (zlen rows <? 2) then step
  else
    let ordered := take_rows rows (argsort (map g_min rows)) in
    let boundary := map (fun p => fst p - snd p)
                        (combine (map g_min (tl ordered)) (map g_max ordered)) in
    if (zlen (some_steps steps) =? zlen steps)
       && close_to_median (np_sort (some_steps steps ++ boundary))
    then step else None.

(** A row of the chunked dataframe (chunk.py 285-317). *)
Record chunkrow := mkChunk
  { k_idx : Z; k_min : Z; k_max : Z; k_step : option Z; k_group : label }.

Definition all_equal (l : list Z) : bool :=
  match l with [] => true | x :: t => forallb (Z.eqb x) t end.

(** chunk.py 285-317: _create_df for the rows of one group. *)
Definition create_rows (argsort : list Z -> list Z) (c : chunker) (lab : label) (rows : list seg)
  (ivs : list (Z * Z)) : result (list chunkrow) :=
  if all_equal (map g_dims rows) && (negb (c_raise c) || all_equal (map g_rest rows))
  then let step := group_step argsort (c_snap c) rows in
       Ok (map (fun iv => mkChunk 0 (fst iv) (snd iv) step lab) ivs)
  else Err CoordMergeError.

Definition min_of (l : list Z) : Z := match list_min l with Some m => m | None => 0 end.
Definition max_of (l : list Z) : Z := match list_max l with Some m => m | None => 0 end.
Definition first_step (rows : list seg) : option Z :=
  match rows with r :: _ => g_step r | [] => None end.

(** chunk.py 480-501: _get_group_dfs. A group that is too short is skipped. *)
Fixpoint group_chunks (argsort : list Z -> list Z) (c : chunker) (labels : list label)
  (rows : list seg) (todo : list label) : result (list (list chunkrow)) :=
  match todo with
  | [] => Ok []
  | lab :: t =>
      let sub := rows_with lab labels rows in
      match get_intervals (min_of (map g_min sub)) (max_of (map g_max sub))
                          (c_value c) (c_overlap c) (first_step sub) (c_keep c) with
      | Err ChunkError => group_chunks argsort c labels rows t
      | Err e => Err e
      | Ok ivs =>
          do out <- create_rows argsort c lab sub ivs;
          do rest <- group_chunks argsort c labels rows t;
          Ok (out :: rest)
      end
  end.

Definition number_chunks (l : list chunkrow) : list chunkrow :=
  map (fun p => mkChunk (fst p) (k_min (snd p)) (k_max (snd p)) (k_step (snd p)) (k_group (snd p)))
      (combine (zrange (zlen l)) l).

(** chunk.py 506-548: chunk, for the rows with non-null limits (null rows are
    removed first, lines 532-535). Returns the labels of the source rows and the
    chunked rows. The warning of lines 463-478 is
    [merge_warning] below. *)
Definition chunk (argsort : list Z -> list Z) (c : chunker) (rows : list seg)
  : result (list label * list chunkrow) :=
  do _ <- validate_chunker c;
  match rows with
  | [] => Ok ([], [])
  | _ =>
      let labels := group_labels argsort c rows in
      do dfs <- group_chunks argsort c labels rows (unique_labels [] labels);
      match dfs with
      | [] => Err ChunkError
      | _ => Ok (labels, number_chunks (concat dfs))
      end
  end.

(** chunk.py 440-451 and 463-478: warn when a tolerance above the default 1.5
    merged rows the default would keep apart. *)
Definition merge_warning (argsort : list Z -> list Z) (c : chunker) (rows : list seg) : bool :=
  let labels := group_labels argsort c rows in
  let default := continuity_groups argsort 3 2 rows in
  (3 * c_tol_den c <? 2 * c_tol_num c)
  && existsb (fun lab => let ds := rows_with lab labels default in
                         negb (min_of ds =? max_of ds)) (unique_labels [] labels).

(** pd.py 475-506: _remove_overlaps on rows sorted by minimum. Each start that is
    not after the previous stop moves one step (of the previous row) past it. *)
Definition step_or_zero (s : option Z) : Z := match s with Some x => x | None => 0 end.
Fixpoint trim_from (prev : seg) (rows : list seg) : list seg :=
  match rows with
  | [] => []
  | r :: t =>
      let start := if g_min r <=? g_max prev
                   then g_max prev + step_or_zero (g_step prev) else g_min r in
      mkSeg (g_idx r) start (g_max r) (g_step r) (g_key r) (g_dims r) (g_rest r)
            (g_mod r || negb (start =? g_min r))
      :: trim_from r t
  end.
Definition remove_overlaps (rows : list seg) : list seg :=
  match rows with [] => [] | r :: t => r :: trim_from r t end.

(** A row of the instruction dataframe (chunk.py 351-395). *)
Record instr := mkInstr
  { i_min : Z; i_max : Z; i_src : Z; i_cur : Z; i_mod : bool }.

(** chunk.py 319-326: _get_chunk_overlap_inds for one chunk; end exclusive.
    numpy's searchsorted is a binary search per key. *)
Definition chunk_inds (src1 src2 : list Z) (ch : chunkrow) : Z * Z :=
  (searchsorted false src1 (k_min ch) - 1, searchsorted true src2 (k_max ch) + 1).

(** chunk.py 328-395: rows of one chunk, given the trimmed sorted sources. *)
Definition chunk_rows (srcs : list seg) (ch : chunkrow) : result (list instr) :=
  let n := zlen srcs in
  let '(lo, hi) := chunk_inds (map g_min srcs) (map g_max srcs) ch in
  if hi <? lo then Err ValueError
  else
    match gather srcs (map (fun i => wrap_index n (lo + i)) (zrange (hi - lo))) with
    | None => Err IndexError
    | Some ss =>
        Ok (map (fun s =>
              let mn := Z.max (g_min s) (k_min ch) in
              let mx := Z.min (g_max s) (k_max ch) in
              mkInstr mn mx (g_idx s) (k_idx ch)
                      (g_mod s || negb (mn =? g_min s) || negb (mx =? g_max s))) ss)
    end.

Fixpoint map_result {A B} (f : A -> result B) (l : list A) : result (list B) :=
  match l with
  | [] => Ok []
  | x :: t => do y <- f x; do ys <- map_result f t; Ok (y :: ys)
  end.

(** chunk.py 351-395: _get_instructions for one group. *)
Definition instructions (argsort : list Z -> list Z) (srcs : list seg) (chs : list chunkrow)
  : result (list instr) :=
  let srcs := remove_overlaps (take_rows srcs (argsort (map g_min srcs))) in
  let chs := match gather chs (argsort (map k_min chs)) with Some c => c | None => [] end in
  if forallb (fun ch => snd (chunk_inds (map g_min srcs) (map g_max srcs) ch) - 1 <? zlen srcs) chs
  then do rows <- map_result (chunk_rows srcs) chs; Ok (concat rows)
  else Err AssertionError.

(** chunk.py 397-426: get_instruction_df. The group order is python set order;
    here first appearance in the chunk table. *)
Definition instruction_df (argsort : list Z -> list Z) (labels : list label) (rows : list seg)
  (chs : list chunkrow) : result (list instr) :=
  do parts <- map_result (fun lab =>
      instructions argsort (rows_with lab labels rows)
                   (filter (fun ch => label_eqb lab (k_group ch)) chs))
    (unique_labels [] (map k_group chs));
  Ok (concat parts).

(** spool.py 683-713: chunk of a dataframe spool, table part. *)
Definition spool_chunk (argsort : list Z -> list Z) (c : chunker) (rows : list seg)
  : result (list chunkrow * list instr) :=
  do x <- chunk argsort c rows;
  do ins <- instruction_df argsort (fst x) rows (snd x);
  Ok (snd x, ins).

(** ** Loading and merging *)

(** spool.py 553-571: _load_trimmed_patch. Along the chunked dimension a patch is
    a list of (coordinate value, data column); a modified row selects the range
    between its limits, which [select] takes in either order (misc.py 595-600;
    CoordRange.select keeps exactly the values in range, theorem C03). *)
Definition load_trimmed {D} (patch : list (Z * D)) (i : instr) : list (Z * D) :=
  if i_mod i
  then let lo := Z.min (i_min i) (i_max i) in
       let hi := Z.max (i_min i) (i_max i) in
       filter (fun p => (lo <=? fst p) && (fst p <=? hi)) patch
  else patch.

(** spool.py 86-108: _estimate_merge_samples over (min, max, step) triples.
    [None]: streaming impossible. *)
Definition estimate_samples (rows : list (Z * Z * option Z)) : option Z :=
  let counts := map (fun r => let '(mn, mx, st) := r in
                     match st with
                     | Some s => if s =? 0 then None else Some (round_half_even (mx - mn) s + 1)
                     | None => None
                     end) rows in
  fold_right (fun c acc => match c, acc with
                           | Some k, Some a => if k <? 0 then None else Some (k + a)
                           | _, _ => None end) (Some 0) counts.

(** Buffer with a fill level; slots not written yet hold [None] (np.empty). *)
Definition write_at {D} (buf : list (option D)) (offset : Z) (data : list D) : list (option D) :=
  firstn (Z.to_nat offset) buf ++ map Some data
  ++ skipn (Z.to_nat (offset + zlen data)) buf.

(** spool.py 573-646: the streaming loop along the merge axis. The buffer grows
    when the estimate was too small; only the head up to [offset] is copied. *)
Fixpoint stream_into {D} (buf : list (option D)) (offset : Z) (parts : list (list D))
  : list (option D) * Z :=
  match parts with
  | [] => (buf, offset)
  | p :: t =>
      let fin := offset + zlen p in
      let buf := if zlen buf <? fin
                 then firstn (Z.to_nat offset) buf ++ repeat None (Z.to_nat (fin - offset))
                 else buf in
      stream_into (write_at buf offset p) fin t
  end.
Definition stream_merge {D} (samples : Z) (parts : list (list D)) : list (option D) :=
  let '(buf, offset) := stream_into (repeat None (Z.to_nat samples)) 0 parts in
  if offset =? zlen buf then buf else firstn (Z.to_nat offset) buf.

(** The rows of one output patch, in table order, each loaded from its source. *)
Definition patch_parts {D} (load : Z -> list (Z * D)) (ins : list instr) (cur : Z)
  : list (list (Z * D)) :=
  map (fun i => load_trimmed (load (i_src i)) i) (filter (fun i => i_cur i =? cur) ins).

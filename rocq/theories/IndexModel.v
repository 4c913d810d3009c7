(** Model of the directory index: dascore/io/indexer.py, dascore/utils/hdf5.py.

    The index table is a list of rows (FrameModel.frow) with integer columns
    "time_min" and "time_max" (nanoseconds). Part one is querying with the query
    cache; part two is updating, as a transition system over a file system, the
    index file and any number of update() calls in progress. *)
From Verif Require Import Base FrameModel.
From Coq Require Import Strings.String Strings.Ascii.
Local Open Scope Z_scope.

(** constants.py: ONE_SECOND_IN_NS, SMALLDT64, LARGEDT64. *)
Definition second : Z := 1000000000.
Definition small_time : Z := - 9223372036854775808 + 5 * second.
Definition large_time : Z := 9223372036854775807 - 5 * second.

(** hdf5.py 132-147: _get_kernel_query. *)
Definition kernel_query (lo hi : Z) (a b : Z) : bool :=
  let t1 := lo - second in
  let t2 := hi + second in
  ((t1 <? a) && (a <? t2)) || (((t1 <? b) && (b <? t2)) || ((a <? t1) && (t2 <? b))).

(** time.py 442-460: get_max_min_times. [time_min or SMALLDT64] also replaces zero. *)
Definition default_time (d : Z) (t : option Z) : Z :=
  match t with None => d | Some t => if t =? 0 then d else t end.
Definition max_min_times (t : option Z * option Z) : result (Z * Z) :=
  let lo := default_time small_time (fst t) in
  let hi := default_time large_time (snd t) in
  if hi <? lo then Err ValueError else Ok (lo, hi).

Definition int_cell (r : frow) (k : string) : Z :=
  match get_cell r k with VInt n => n | _ => 0 end.
Definition row_min (r : frow) : Z := int_cell r "time_min"%string.
Definition row_max (r : frow) : Z := int_cell r "time_max"%string.

(** The options passed on to pandas.read_hdf; of these start and stop are
    modelled: only rows at positions start..stop-1 are considered. *)
Definition hdf_kwargs := kwargs.
Definition hdf_bound (k : string) (h : hdf_kwargs) : option Z :=
  match assoc k h with Some (QVal (VInt n)) => Some n | _ => None end.
Definition in_rows (h : hdf_kwargs) (i : Z) : bool :=
  match hdf_bound "start"%string h with None => true | Some s => s <=? i end
  && match hdf_bound "stop"%string h with None => true | Some s => i <? s end.

(** hdf5.py 239-275: get_index (retries not modelled: reads are assumed to work). *)
Definition get_index (tbl : list frow) (lo hi : Z) (h : hdf_kwargs) : list frow :=
  map snd (filter (fun p => in_rows h (fst p) && kernel_query lo hi (row_min (snd p)) (row_max (snd p)))
                  (combine (zrange (zlen tbl)) tbl)).

(** indexer.py 256-260: _kwargs_to_str, compared as strings; here the sorted
    keyword list itself is compared. *)
Definition cell_same (a b : cell) : bool :=
  match a, b with
  | VInt x, VInt y => x =? y
  | VStr x, VStr y => String.eqb x y
  | VNull, VNull => true
  | _, _ => false
  end.
Definition item_same (a b : item) : bool :=
  match a, b with
  | INone, INone | IDots, IDots => true
  | ICell c, ICell d => cell_same c d
  | _, _ => false
  end.
Fixpoint list_same {A} (eqb : A -> A -> bool) (a b : list A) : bool :=
  match a, b with
  | [], [] => true
  | x :: a', y :: b' => eqb x y && list_same eqb a' b'
  | _, _ => false
  end.
Definition qval_same (a b : qval) : bool :=
  match a, b with
  | QNone, QNone | QDots, QDots => true
  | QVal c, QVal d => cell_same c d
  | QColl l, QColl m => list_same item_same l m
  | _, _ => false
  end.
Definition kwargs_same (a b : kwargs) : bool :=
  list_same (fun p q => String.eqb (fst p) (fst q) && qval_same (snd p) (snd q)) a b.

Record entry := mkEntry { e_t1 : Z; e_t2 : Z; e_kw : kwargs; e_rows : list frow }.
(** indexer.py 124-137: the cache is a fixed number of slots and a position. *)
Record cache := mkCache { c_slots : list (option entry); c_pos : Z }.
Definition empty_cache (size : Z) : cache := mkCache (map (fun _ => None) (zrange size)) 0.

Definition set_slot {A} (l : list A) (i : Z) (x : A) : list A :=
  map (fun p => if fst p =? i then x else snd p) (combine (zrange (zlen l)) l).

(** indexer.py 246-254: _get_next_index. *)
Definition next_pos (c : cache) : Z :=
  if c_pos c =? zlen (c_slots c) - 1 then 0 else c_pos c + 1.
(** indexer.py 228-238: _set_cache. *)
Definition set_cache (c : cache) (e : entry) : cache :=
  let i := next_pos c in mkCache (set_slot (c_slots c) i (Some e)) i.
(** indexer.py 240-244: clear_cache; the position is kept. *)
Definition clear_cache (c : cache) : cache :=
  mkCache (map (fun _ => None) (c_slots c)) (c_pos c).

(** indexer.py 174-178: the first slot covering the query. *)
Definition slot_hit (lo hi : Z) (kw : kwargs) (s : option entry) : bool :=
  match s with
  | None => false
  | Some e => (e_t1 e <=? lo) && (hi <=? e_t2 e) && kwargs_same (e_kw e) kw
  end.
Definition cache_lookup (c : cache) (lo hi : Z) (kw : kwargs) : option (list frow) :=
  match find (slot_hit lo hi kw) (c_slots c) with
  | Some (Some e) => Some (e_rows e)
  | _ => None
  end.

Record query := mkQuery { q_time : option Z * option Z; q_hdf : hdf_kwargs; q_kw : kwargs }.

(** indexer.py 188-201: trimming the index rows to the query. *)
Definition trim_index (cols : list string) (rows : list frow) (lo hi : Z) (kw : kwargs)
  : result (list frow) :=
  let pre := filter (fun r => negb ((hi + second <=? row_min r) || (row_max r <=? lo - second))) rows in
  do m <- filter_df cols pre true (("time"%string, QColl [ICell (VInt lo); ICell (VInt hi)]) :: kw);
  Ok (keep_rows m pre).

(** indexer.py 150-205: get_contents for an existing index. *)
Definition get_contents (cols : list string) (tbl : list frow) (c : cache) (q : query)
  : result (list frow) * cache :=
  match max_min_times (q_time q) with
  | Err e => (Err e, c)
  | Ok (lo, hi) =>
      match cache_lookup c lo hi (q_kw q) with
      | Some rows => (trim_index cols rows lo hi (q_kw q), c)
      | None =>
          let rows := get_index tbl lo hi (q_hdf q) in
          (trim_index cols rows lo hi (q_kw q), set_cache c (mkEntry lo hi (q_hdf q) rows))
      end
  end.

(** ** Histories of one indexer *)
Inductive ixop :=
| OpQuery (q : query)                 (* get_contents *)
| OpUpdate (rows : list frow)         (* update() of this indexer found these rows *)
| OpForeign (rows : list frow).       (* another process appended rows to the file *)
Record ixstate := mkIx { x_tbl : list frow; x_cache : cache }.
Definition ixstep (cols : list string) (s : ixstate) (o : ixop) : ixstate :=
  match o with
  | OpQuery q => mkIx (x_tbl s) (snd (get_contents cols (x_tbl s) (x_cache s) q))
  | OpUpdate [] => s
  | OpUpdate rows => mkIx (x_tbl s ++ rows) (clear_cache (x_cache s))
  | OpForeign rows => mkIx (x_tbl s ++ rows) (x_cache s)
  end.
Definition ixrun (cols : list string) (s : ixstate) (l : list ixop) : ixstate :=
  fold_left (ixstep cols) l s.

(** ** Updating *)
(** A file: the time of its last completed write, the modification time the file
    system reports for it, and whether a FiberIO can scan it. *)
Record file := mkFile { f_path : string; f_write : Z; f_mtime : Z; f_readable : bool }.
(** An index row of the update model: path and the write it describes. *)
Definition irow := (string * Z)%type.

Inductive phase := Scanning | Appended.
(** An update() call in progress (indexer.py 290-346). [u_start] is update_time,
    [u_since] the timestamp handed to the scan, [u_todo] the paths still to be
    visited by the file-system iterator, [u_found] the rows scanned so far. *)
Record upd := mkUpd { u_start : Z; u_since : option Z; u_todo : list string;
                      u_found : list irow; u_phase : phase }.

Record world := mkWorld { w_clock : Z; w_files : list file; w_rows : list irow;
                          w_stamp : option Z; w_upds : list upd;
                          w_ever : list irow (* every completed write, for the statements *) }.

(** indexer.py 262-272: _get_mtime: last_updated - 0.001 s; times in microseconds. *)
Definition slack : Z := 1000.
Definition since_of (stamp : option Z) : option Z :=
  match stamp with None => None | Some l => Some (l - slack) end.

(** misc.py 164-221: a file is a scan candidate when its mtime is not older. *)
Definition eligible (since : option Z) (f : file) : bool :=
  match since with None => true | Some t => t <=? f_mtime f end.

Definition lookup_file (p : string) (fs : list file) : option file :=
  find (fun f => String.eqb (f_path f) p) fs.
Definition put_file (f : file) (fs : list file) : list file :=
  f :: filter (fun g => negb (String.eqb (f_path g) (f_path f))) fs.
Definition drop_file (p : string) (fs : list file) : list file :=
  filter (fun g => negb (String.eqb (f_path g) p)) fs.

(** io/core.py 845-910: scanning one path; unreadable files are skipped. *)
Definition scan_path (fs : list file) (since : option Z) (p : string) : list irow :=
  match lookup_file p fs with
  | Some f => if eligible since f && f_readable f then [(p, f_write f)] else []
  | None => []
  end.
Definition scan_one (fs : list file) (u : upd) : upd :=
  match u_todo u with
  | [] => u
  | p :: t => mkUpd (u_start u) (u_since u) t (u_found u ++ scan_path fs (u_since u) p) (u_phase u)
  end.

Definition replace_upd (l1 : list upd) (u : upd) (l2 : list upd) : list upd := l1 ++ u :: l2.

(** [gran]: how much older than the write the reported mtime may be. *)
Inductive wstep (gran : Z) : world -> world -> Prop :=
| W_tick w d : 0 <= d ->
    wstep gran w (mkWorld (w_clock w + d) (w_files w) (w_rows w) (w_stamp w) (w_upds w) (w_ever w))
| W_write w p m ok : w_clock w - gran <= m <= w_clock w ->
    wstep gran w (mkWorld (w_clock w) (put_file (mkFile p (w_clock w) m ok) (w_files w)) (w_rows w)
                    (w_stamp w) (w_upds w) ((p, w_clock w) :: w_ever w))
| W_remove w p :
    wstep gran w (mkWorld (w_clock w) (drop_file p (w_files w)) (w_rows w) (w_stamp w) (w_upds w) (w_ever w))
(* indexer.py 309-316: update(paths=None) starts; the iterator will visit every
   path present now, and possibly others. *)
| W_begin w todo : (forall f, In f (w_files w) -> In (f_path f) todo) ->
    wstep gran w (mkWorld (w_clock w) (w_files w) (w_rows w) (w_stamp w)
                    (mkUpd (w_clock w) (since_of (w_stamp w)) todo [] Scanning :: w_upds w) (w_ever w))
| W_scan w l1 u l2 : w_upds w = l1 ++ u :: l2 -> u_todo u <> [] ->
    wstep gran w (mkWorld (w_clock w) (w_files w) (w_rows w) (w_stamp w)
                    (replace_upd l1 (scan_one (w_files w) u) l2) (w_ever w))
(* hdf5.py 286-300: the rows are appended ... *)
| W_append w l1 u l2 : w_upds w = l1 ++ u :: l2 -> u_todo u = [] -> u_phase u = Scanning -> u_found u <> [] ->
    wstep gran w (mkWorld (w_clock w) (w_files w) (w_rows w ++ u_found u) (w_stamp w)
                    (replace_upd l1 (mkUpd (u_start u) (u_since u) [] (u_found u) Appended) l2) (w_ever w))
(* hdf5.py 302-306: ... and then the time stamp is stored. *)
| W_stamp w l1 u l2 : w_upds w = l1 ++ u :: l2 -> u_phase u = Appended ->
    wstep gran w (mkWorld (w_clock w) (w_files w) (w_rows w) (Some (u_start u)) (l1 ++ l2) (w_ever w))
(* indexer.py 325: nothing found, nothing written. *)
| W_finish w l1 u l2 : w_upds w = l1 ++ u :: l2 -> u_todo u = [] -> u_phase u = Scanning -> u_found u = [] ->
    wstep gran w (mkWorld (w_clock w) (w_files w) (w_rows w) (w_stamp w) (l1 ++ l2) (w_ever w))
| W_crash w l1 u l2 : w_upds w = l1 ++ u :: l2 ->
    wstep gran w (mkWorld (w_clock w) (w_files w) (w_rows w) (w_stamp w) (l1 ++ l2) (w_ever w)).

(** update(paths=...) (indexer.py 274-282, 313): only the given paths are visited. *)
Inductive wstep_paths (gran : Z) : world -> world -> Prop :=
| WP_step w w' : wstep gran w w' -> wstep_paths gran w w'
| WP_begin w todo :
    wstep_paths gran w (mkWorld (w_clock w) (w_files w) (w_rows w) (w_stamp w)
                    (mkUpd (w_clock w) (since_of (w_stamp w)) todo [] Scanning :: w_upds w) (w_ever w)).

Inductive star (R : world -> world -> Prop) : world -> world -> Prop :=
| star_refl w : star R w w
| star_step w1 w2 w3 : star R w1 w2 -> R w2 w3 -> star R w1 w3.

Definition start_world : world := mkWorld 0 [] [] None [] [].

(** Specification vocabulary for the directory index. *)
From Verif Require Import Base FrameModel FrameSpec IndexModel.
From Coq Require Import Strings.String.
Local Open Scope Z_scope.
Local Open Scope string_scope.

(** A row covers the closed interval [s, e]. *)
Definition covers (r : frow) (s e : Z) : Prop := val r "time_min" = VInt s /\ val r "time_max" = VInt e.
(** A row answers a query for [lo, hi] with further keywords [kw]. *)
Definition answers (cols : list string) (lo hi : Z) (kw : kwargs) (r : frow) : Prop :=
  (exists s e, covers r s e /\ s <= hi /\ lo <= e) /\
  forall k v, In (k, v) kw -> meets cols r k v.
(** Rows the kernel query drops although they contain the whole range. *)
Definition on_edge (lo hi : Z) (r : frow) : Prop :=
  exists s e, covers r s e /\ s <= lo - second /\ hi + second <= e /\
    (s = lo - second \/ e = hi + second).
(** Rows reaching at least one second beyond both ends of the range. *)
Definition sticks_out (lo hi : Z) (r : frow) : Prop :=
  exists s e, covers r s e /\ s <= lo - second /\ hi + second <= e.
(** An index table: interval columns holding integers, no column "time". *)
Definition index_table (cols : list string) (tbl : list frow) : Prop :=
  has_col cols "time_min" /\ has_col cols "time_max" /\ ~ has_col cols "time" /\
  forall r, In r tbl -> exists s e, covers r s e.
(** Keywords handled by the filter: not the time range, not options of read_hdf. *)
Definition hdf_option (k : string) : Prop :=
  In k ["columns"; "where"; "mode"; "errors"; "start"; "stop"; "key"; "chunksize"].
Definition filter_keywords (cols : list string) (kw : kwargs) : Prop :=
  forall k v, In (k, v) kw -> ~ hdf_option k /\ (~ has_col cols k -> plain_key k).
Definition proper_query (cols : list string) (q : query) : Prop :=
  filter_keywords cols (q_kw q) /\ (forall k v, In (k, v) (q_hdf q) -> hdf_option k).
(** A history of one indexer in which nobody else writes the index. *)
Definition own_history (cols : list string) (l : list ixop) : Prop :=
  forall o, In o l -> match o with
                      | OpQuery q => proper_query cols q
                      | OpUpdate _ => True
                      | OpForeign _ => False
                      end.

(** ** Updating *)
Definition indexed (w : world) (f : file) : Prop := In (f_path f, f_write f) (w_rows w).
Definition reachable (gran : Z) (w : world) : Prop := star (wstep gran) start_world w.

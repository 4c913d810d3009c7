(** Specification vocabulary for coordinate properties. Nothing here mentions
    how dascore computes anything: values are plain lists, a selection is a
    filter, an indexer is judged by the positions it picks. *)
From Verif Require Import Base CoordModel.
From Coq Require Import Sorting.Permutation Sorting.Sorted.

(** start, start+step, ... (n values). *)
Definition progression (start step n : Z) : list Z :=
  map (fun i => start + i * step) (zrange n).

(** A coordinate range as dascore hands it out: at least one sample, non-zero
    step, [stop] one step past the last sample. *)
Definition wf_range (r : crange) : Prop :=
  r_step r <> 0 /\ 1 <= r_len r /\ r_stop r = r_start r + r_len r * r_step r.

(** Coordinates in the state the constructors put them in. *)
Definition wf_coord (c : coord) : Prop :=
  match c with
  | CRange r => wf_range r
  | CMono _ v => v <> [] /\ (ascending v \/ descending v)
  | CArr _ v => v <> []
  | CPart n => 0 <= n
  end.

(** The positions of a list whose element satisfies [p]. *)
Definition positions_where {A} (p : A -> bool) (l : list A) : list Z :=
  filter (fun i => match znth l i with Some x => p x | None => false end)
         (zrange (zlen l)).

(** [x] lies between two optional bounds, given in either order. *)
Definition between (lo hi : option Z) (x : Z) : bool :=
  match lo, hi with
  | Some a, Some b => (Z.min a b <=? x) && (x <=? Z.max a b)
  | Some a, None => a <=? x
  | None, Some b => x <=? b
  | None, None => true
  end.

(** The same with a tolerance of |step| / 2e10 on each side. *)
Definition between_tol (step : Z) (lo hi : option Z) (x : Z) : bool :=
  let ge a := 20000000000 * (a - x) <=? Z.abs step in
  let le b := 20000000000 * (x - b) <=? Z.abs step in
  match lo, hi with
  | Some a, Some b => ge (Z.min a b) && le (Z.max a b)
  | Some a, None => ge a
  | None, Some b => le b
  | None, None => true
  end.

(** The outcome [(c', ix)] keeps exactly the entries of [vs] satisfying [keep],
    in order, and the indexer picks exactly their positions. *)
Definition keeps_exactly (vs : list Z) (keep : Z -> bool) (out : coord * indexer) : Prop :=
  c_values (fst out) = map Some (filter keep vs) /\
  indexer_positions (zlen vs) (snd out) = Some (positions_where keep vs).

(** A bound given relative to the ends: non-negative from the minimum, negative
    from the maximum. *)
Definition resolve (relative : bool) (mn mx : Z) (x : option Z) : option Z :=
  match x with
  | None => None
  | Some v => Some (if relative then (if 0 <=? v then mn + v else mx + v) else v)
  end.

(** [m] is the least / greatest element. *)
Definition is_least (m : Z) (l : list Z) : Prop := In m l /\ forall x, In x l -> m <= x.
Definition is_greatest (m : Z) (l : list Z) : Prop := In m l /\ forall x, In x l -> x <= m.

(** [f] is a correct argsort: its result lists every position once and puts the
    values in weakly ascending order. Ties may come in any order. *)
Definition valid_argsort (f : list Z -> list Z) : Prop :=
  forall l, Permutation (f l) (zrange (zlen l)) /\
            exists s, gather l (f l) = Some s /\ StronglySorted Z.le s.

(** Every position of [x] in [l]. *)
Definition occurrences (x : Z) (l : list Z) : list Z :=
  positions_where (Z.eqb x) l.

(** ** Nearly even spacing
    [get_coord] treats an array whose differences all lie within 0.1 % of a
    common value as evenly sampled. [spread vs] excludes the lossy part of that
    rule: differences that close to a common value are in fact all equal. *)
Definition near_half (m2 d : Z) : Prop :=
  100000000 * Z.abs (2 * d - m2) <= 2 + 100000 * Z.abs m2.
(** [d] is the difference of two neighbouring values. *)
Definition gap (vs : list Z) (d : Z) : Prop :=
  exists i x y, znth vs i = Some x /\ znth vs (i + 1) = Some y /\ d = y - x.
Definition spread (vs : list Z) : Prop :=
  forall m2, (forall d, gap vs d -> near_half m2 d) ->
             forall d d', gap vs d -> gap vs d' -> d = d'.

(** [c] stands for the values [vs]: same number of samples, same first value,
    and, unless [vs] is nearly but not exactly even, exactly these values. *)
Definition represents (c : coord) (vs : list Z) : Prop :=
  zlen (c_values c) = zlen vs /\
  znth (c_values c) 0 = option_map Some (znth vs 0) /\
  (spread vs -> c_values c = map Some vs).

(** As [keeps_exactly], with the result coordinate rebuilt by [get_coord]. *)
Definition keeps_as_coord (vs : list Z) (keep : Z -> bool) (out : coord * indexer) : Prop :=
  represents (fst out) (filter keep vs) /\
  indexer_positions (zlen vs) (snd out) = Some (positions_where keep vs).

(** Coordinates that hold actual values. *)
Definition concrete (c : coord) : Prop :=
  match c with CPart _ => False | _ => True end.

(** Values [np.isclose] does not tell apart (times: equal ones), and coordinates
    that [==] therefore takes for the same. *)
Definition close_values (k : kind) (x y : Z) : Prop :=
  match k with
  | KTime => x = y
  | KInt => 100000000 * Z.abs (x - y) <= 1 + 1000 * Z.abs y
  end.
Definition confusable (a b : coord) : Prop :=
  a = b \/ exists k v w, (a = CMono k v \/ a = CArr k v) /\ (b = CMono k w \/ b = CArr k w) /\
                       Forall2 (close_values k) v w.

(** ** Flags
    What a coordinate claims about itself is true of its values. *)
Definition truthful (c : coord) : Prop :=
  (c_sorted c = true -> ascending (c_ints c)) /\
  (c_reverse_sorted c = true -> descending (c_ints c)) /\
  (c_evenly c = true -> exists a s, c_ints c = progression a s (c_len c)) /\
  (concrete c -> zlen (c_values c) = c_len c /\ c_values c = map Some (c_ints c)).

(** Weak orders, for sorting. *)
Definition weakly_ascending := StronglySorted Z.le.
Definition weakly_descending := StronglySorted Z.ge.

(** What [order] promises about the positions: for each requested value the
    coordinate has, in turn, all its positions (in some order among ties). *)
Definition blocks_of (v find : list Z) (inds : list Z) : Prop :=
  exists blocks, inds = concat blocks /\
    Forall2 (fun x b => Permutation b (occurrences x v)) find blocks.

Definition sorted_as (reverse : bool) : list Z -> Prop :=
  if reverse then weakly_descending else weakly_ascending.

(** [i] is the first position holding a value at or above [x]. *)
Definition first_at_or_after (v : list Z) (x i : Z) : Prop :=
  0 <= i < zlen v /\ (forall j y, znth v j = Some y -> j < i -> y < x) /\
  (forall j y, znth v j = Some y -> i <= j -> x <= y).

(** ** Histories *)
Definition is_mono (c : coord) : bool := match c with CMono _ _ => true | _ => false end.

Definition is_order (o : coord_op) : bool :=
  match o with OpOrderValues _ | OpOrderSamples _ => true | _ => false end.

(** No order operation is applied while the coordinate is a monotonic array. *)
Fixpoint no_order_on_mono (argsort : list Z -> list Z) (c : coord) (ops : list coord_op) : Prop :=
  match ops with
  | [] => True
  | o :: t => is_mono c && is_order o = false /\
              match apply_op argsort c o with
              | Ok c' => no_order_on_mono argsort c' t | Err _ => True end
  end.

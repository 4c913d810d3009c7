(** Specification vocabulary for coordinate managers and patches: what a
    consistent manager is, and what it means for the labels of a patch to follow
    its data. *)
From Verif Require Import Base CoordModel CoordSpec NdModel NdSpec FrameModel CmModel.
From Coq Require Import Strings.String Sorting.Sorted Sorting.Permutation.
Local Open Scope Z_scope.
Local Open Scope list_scope.

(** Coordinates in the state the constructors put them in. *)
Definition wf_mcoord (m : mcoord) : Prop :=
  match m with
  | M1 c => wf_coord c
  | MN _ a => wf_nd a /\ List.length (nd_shape a) <> 1%nat /\ 0 < size (nd_shape a)
  | MNP s => Forall (fun n => 0 <= n) s /\ List.length s <> 1%nat
  end.

(** Dimension [d] has a 1-D coordinate of length [n]. *)
Definition dim_len (cm : cman) (d : string) (n : Z) : Prop :=
  exists c, assoc d (cm_coords cm) = Some (M1 c) /\ c_len c = n.

(** What the class promises: every dimension has a 1-D coordinate that belongs to
    it alone; every coordinate belongs to known dimensions and its shape is their
    lengths (or it belongs to none). *)
Record consistent (cm : cman) : Prop :=
  { con_dim : forall d, In d (cm_dims cm) ->
      (exists c, assoc d (cm_coords cm) = Some (M1 c)) /\ assoc d (cm_dmap cm) = Some [d];
    con_coord : forall n ds, assoc n (cm_dmap cm) = Some ds ->
      exists m, assoc n (cm_coords cm) = Some m /\ (forall d, In d ds -> In d (cm_dims cm)) /\
        (ds = [] \/ Forall2 (dim_len cm) ds (m_shape m)) }.

(** ... with distinct dimension names (also per coordinate) and two dicts with
    the same keys. *)
Record wf_cm (cm : cman) : Prop :=
  { wf_con : consistent cm;
    wf_dims : NoDup (cm_dims cm);
    wf_ckeys : NoDup (map fst (cm_coords cm));
    wf_dkeys : NoDup (map fst (cm_dmap cm));
    wf_keys : forall n, In n (map fst (cm_coords cm)) -> In n (map fst (cm_dmap cm));
    wf_distinct : forall n ds, assoc n (cm_dmap cm) = Some ds -> NoDup ds;
    wf_vals : forall n m, assoc n (cm_coords cm) = Some m -> wf_mcoord m }.

(** No coordinate is named like a limit keyword of update. *)
Definition plain_names (cm : cman) : Prop :=
  forall n, In n (map fst (cm_coords cm)) -> limit_key (cm_dims cm) n = false.

Record wf_patch {A} (p : patch A) : Prop :=
  { wp_cm : wf_cm (p_cm p);
    wp_nd : wf_nd (p_data p);
    wp_some : cm_dims (p_cm p) <> [];
    wp_shape : Forall2 (dim_len (p_cm p)) (cm_dims (p_cm p)) (nd_shape (p_data p)) }.

(** The element at a position given by dimension name. *)
Definition data_at {A} (p : patch A) (pos : string -> Z) : option A :=
  nd_get (p_data p) (map pos (cm_dims (p_cm p))).

(** [m'] holds the values of [m] at the listed positions of each axis. A 1-D
    coordinate is rebuilt by get_coord, so it [represents] them. *)
Definition carried1 (c c' : coord) (ps : list Z) : Prop :=
  match c with
  | CPart _ => c' = CPart (zlen ps)
  | _ => exists vs, gather (c_ints c) ps = Some vs /\ represents c' vs
  end.
Definition carried (m m' : mcoord) (pss : list (list Z)) : Prop :=
  match m with
  | M1 c => exists c' ps, m' = M1 c' /\ pss = [ps] /\ carried1 c c' ps
  | MN k a => if size (map zlen pss) =? 0 then m' = MNP (map zlen pss)
              else exists b, m' = MN k b /\ nd_picked a b pss
  | MNP s => m' = MNP (map zlen pss) /\
             Forall2 (fun ps n => forall p, In p ps -> 0 <= p < n) pss s
  end.

(** Positions of each axis of coordinate [n]: those of its dimensions; [own] for a
    coordinate without dimensions. *)
Definition picks_of (cm : cman) (pick : string -> list Z) (own : string -> list (list Z))
  (n : string) : list (list Z) :=
  match assoc n (cm_dmap cm) with
  | Some (d :: ds) => map pick (d :: ds)
  | _ => own n
  end.

(** [cm'] is [cm] with every coordinate restricted to the picked positions. *)
Definition cm_aligned (cm cm' : cman) (pick : string -> list Z) (own : string -> list (list Z))
  : Prop :=
  cm_dims cm' = cm_dims cm /\
  (forall n, assoc n (cm_dmap cm') = assoc n (cm_dmap cm)) /\
  (forall n, match assoc n (cm_coords cm), assoc n (cm_coords cm') with
             | Some m, Some m' => carried m m' (picks_of cm pick own n)
             | None, None => True
             | _, _ => False
             end).

(** [p'] is [p] restricted to the picked positions of each dimension, in that
    order: data and every coordinate alike. *)
Definition aligned {A} (p p' : patch A) (pick : string -> list Z) (own : string -> list (list Z))
  : Prop :=
  wf_patch p' /\ cm_aligned (p_cm p) (p_cm p') pick own /\
  nd_picked (p_data p) (p_data p') (map pick (cm_dims (p_cm p))).

(** ** What a select argument asks for: positions of the coordinate. *)
Definition asks_values (c : coord) (relative : bool) (lo hi : option Z) (ps : list Z) : Prop :=
  match c with
  | CPart n => lo = None /\ hi = None /\ ps = zrange n
  | _ =>
      (forall r, c = CRange r -> Z.abs (r_step r) < 20000000000) /\
      exists mn mx, is_least mn (c_ints c) /\ is_greatest mx (c_ints c) /\
        ps = positions_where (between (resolve relative mn mx lo) (resolve relative mn mx hi))
                             (c_ints c)
  end.

Definition asks (c : coord) (relative samples : bool) (arg : selarg) (ps : list Z) : Prop :=
  match arg with
  | SelPair lo hi =>
      if samples && negb relative
      then slice_positions (c_len c) (mkSlice lo hi None) = Some ps
      else samples = false /\ asks_values c relative lo hi ps
  | SelSlice s =>
      if samples && negb relative
      then slice_positions (c_len c) s = Some ps /\
           match sl_step s with Some k => 0 < k | None => True end
      else samples = false /\ sl_step s = None /\ asks_values c relative (sl_start s) (sl_stop s) ps
  | SelInt i => samples = true /\ relative = false /\ - c_len c <= i < c_len c /\
                ps = [wrap_index (c_len c) i]
  | SelAll => samples && relative = false /\ ps = zrange (c_len c)
  | SelArr l =>
      concrete c /\
      if samples
      then StronglySorted Z.lt ps /\ forall i, In i ps <-> In i l /\ 0 <= i < c_len c
      else exists mn mx, is_least mn (c_ints c) /\ is_greatest mx (c_ints c) /\
           ps = positions_where
                  (fun x => existsb (fun y => match resolve relative mn mx (Some y) with
                                              | Some z => x =? z | None => false end) l)
                  (c_ints c)
  | SelBools m => concrete c /\ samples = false /\ zlen m = c_len c /\
                  StronglySorted Z.lt ps /\ forall i, In i ps <-> znth m i = Some true
  end.

(** A slice with a negative step. *)
Definition backwards (arg : selarg) : bool :=
  match arg with
  | SelSlice s => match sl_step s with Some k => k <? 0 | None => false end
  | _ => false
  end.

(** [q] is obtained from [p] by successive restrictions to ascending positions. *)
Inductive restricts {A} : patch A -> patch A -> Prop :=
  | rs_refl p : wf_patch p -> restricts p p
  | rs_step p q r pick own : aligned p q pick own ->
      (forall d, In d (cm_dims (p_cm p)) -> StronglySorted Z.lt (pick d)) ->
      restricts q r -> restricts p r.

(** What an order argument asks for. By value: for each requested value, in turn,
    every position holding it. By sample: the requested indices that exist. *)
Definition asks_order (c : coord) (relative samples : bool) (l : list Z) (ps : list Z) : Prop :=
  if samples
  then (forall i, In i l -> - c_len c < i < 0 -> False) /\
       ps = filter (fun i => (0 <=? i) && (i <? c_len c)) l
  else exists mn mx, is_least mn (c_ints c) /\ is_greatest mx (c_ints c) /\
       blocks_of (c_ints c)
         (map (fun y => if relative then (if 0 <=? y then mn + y else mx + y) else y) l) ps.

Definition can_order (c : coord) (samples : bool) (l : list Z) : Prop :=
  concrete c /\ (samples = true -> forall i, In i l -> - c_len c < i < 0 -> False).

(** The positions an untouched manager has. *)
Definition pick0 (cm : cman) (d : string) : list Z :=
  match assoc d (cm_coords cm) with Some (M1 c) => zrange (c_len c) | _ => [] end.
Definition own0 (cm : cman) (n : string) : list (list Z) :=
  match assoc n (cm_coords cm) with Some m => full (m_shape m) | None => [] end.

(** The dimensions of a coordinate; names whose dimension lists are pairwise
    different. *)
Definition dims_of (cm : cman) (n : string) : list string :=
  match assoc n (cm_dmap cm) with Some ds => ds | None => [] end.

Definition separate (cm : cman) (names : list string) : Prop := NoDup (map (dims_of cm) names).

(** The named coordinates are restricted to [psf], everything else is kept. *)
Definition picks_kw (cm : cman) (psf : string -> list Z) (names : list string)
  (pick : string -> list Z) (own : string -> list (list Z)) : Prop :=
  (forall n d, In n names -> assoc n (cm_dmap cm) = Some [d] -> pick d = psf n) /\
  (forall n, In n names -> assoc n (cm_dmap cm) = Some [] -> own n = [psf n]) /\
  (forall d, (forall n, In n names -> assoc n (cm_dmap cm) <> Some [d]) -> pick d = pick0 cm d) /\
  (forall n, ~ In n names -> own n = own0 cm n).

(** A monotone array sorted along with another coordinate of its dimension. *)
Definition dragged (cm : cman) (done : list string) (n : string) : Prop :=
  exists n' k v d, assoc n (cm_coords cm) = Some (M1 (CMono k v)) /\
    assoc n (cm_dmap cm) = Some [d] /\ In n' done /\ n' <> n /\ assoc n' (cm_dmap cm) = Some [d].


(** What a transpose call asks for: the named dimensions, with the dots standing
    for all the others in their present order; no argument reverses the order. *)
Definition named_in (d : string) (new : list targ) : bool :=
  existsb (fun t => match t with TName x => String.eqb d x | TDots => false end) new.
Definition meant (new : list targ) (old : list string) : list string :=
  flat_map (fun t => match t with TName d => [d] | TDots => filter (fun d => negb (named_in d new)) old end) new.
Definition wanted (new : list targ) (old : list string) : list string :=
  match new with [] => rev old | _ => meant new old end.

(** The name a coordinate has after a list of renames, applied in order. *)
Fixpoint renamed (kw : list (string * string)) (n : string) : string :=
  match kw with
  | [] => n
  | (old, new) :: t => renamed t (if String.eqb n old then new else n)
  end.
(** Every rename starts from a name that exists when it is applied and leads to
    one that does not. *)
Fixpoint fresh_renames (kw : list (string * string)) (names : list string) : Prop :=
  match kw with
  | [] => True
  | (old, new) :: t =>
      In old names /\ (new = old \/ ~ In new names) /\
      fresh_renames t (map (fun n => if String.eqb n old then new else n) names)
  end.

(** The renames that take back [kw]. *)
Definition undo_renames (kw : list (string * string)) : list (string * string) :=
  rev (map (fun e => (snd e, fst e)) kw).

(** The positions of a patch flipped along [dims]. *)
Definition flip_pick (cm : cman) (dims : list string) (d : string) : list Z :=
  if mem d dims then rev (pick0 cm d) else pick0 cm d.

(** A name and a length or array from which append_dims can make a dimension. *)
Definition newdim (cm : cman) (e : string * cval) : Prop :=
  ~ In (fst e) (map fst (cm_coords cm)) /\ limit_key (cm_dims cm) (fst e) = false /\
  match snd e with VLen n => 0 <= n | VArr _ _ => True | _ => False end.
Definition newlen (v : cval) : Z := match v with VLen n => n | VArr _ v => zlen v | _ => 0 end.

(** ** Operation sequences *)
(** A coordinate argument whose N-D arrays really are N-D (N <> 1). *)
Definition nd_coord (m : mcoord) : Prop :=
  match m with
  | M1 _ => True
  | MN _ a => List.length (nd_shape a) <> 1%nat
  | MNP s => List.length s <> 1%nat
  end.
Definition nd_cval (v : cval) : Prop :=
  match v with
  | VCoord m => nd_coord m
  | VNd _ a => List.length (nd_shape a) <> 1%nat
  | VArr _ _ | VLen _ => True
  end.
Definition nd_kval (v : kval) : Prop :=
  match v with KSimple v | KTuple _ v => nd_cval v | KNone | KLimit _ => True end.

(** One call of a public method. *)
Inductive call :=
  | CallSelect (relative samples : bool) (kw : list (string * selarg))
  | CallOrder (relative samples : bool) (kw : list (string * list Z))
  | CallSort (names : list string) (reverse : bool)
  | CallSnap (names : list string) (reverse : bool)
  | CallTranspose (new : list targ)
  | CallFlip (dims : list string) (flip_coords : bool)
  | CallRename (kw : list (string * string))
  | CallUpdate (kw : list (string * kval))
  | CallDrop (names : list string)
  | CallSetDims (kw : list (string * string))
  | CallSqueeze (dim : option (list string))
  | CallAppend (new : list (string * cval))
  | CallDecimate (dim : string) (k : Z)
  | CallRoll (dim : string) (k : Z) (update : bool).
Definition call_ok (o : call) : Prop :=
  match o with
  | CallUpdate kw => forall e, In e kw -> nd_kval (snd e)
  | CallAppend new => forall e, In e new -> nd_cval (snd e)
  | _ => True
  end.
Definition do_call {A} (argsort : list Z -> list Z) (p : patch A) (o : call) : result (patch A) :=
  match o with
  | CallSelect r s kw => pt_select p r s kw
  | CallOrder r s kw => pt_order argsort p r s kw
  | CallSort n r => pt_sort argsort p n r
  | CallSnap n r => pt_snap argsort p n r
  | CallTranspose new => pt_transpose p new
  | CallFlip ds f => pt_flip p ds f
  | CallRename kw => pt_rename p kw
  | CallUpdate kw => pt_update_coords p kw
  | CallDrop n => pt_drop_coords p n
  | CallSetDims kw => pt_set_dims p kw
  | CallSqueeze d => pt_squeeze p d
  | CallAppend new => pt_append_dims p new
  | CallDecimate d k => pt_decimate p d k
  | CallRoll d k u => pt_roll p d k u
  end.

(** A patch whose manager is consistent and whose data has the manager's shape. *)
Definition sound {A} (p : patch A) : Prop :=
  consistent (p_cm p) /\ (forall n m, In (n, m) (cm_coords (p_cm p)) -> nd_coord m) /\
  match cm_dims (p_cm p) with
  | [] => nd_shape (p_data p) = [0]
  | ds => Forall2 (dim_len (p_cm p)) ds (nd_shape (p_data p))
  end.

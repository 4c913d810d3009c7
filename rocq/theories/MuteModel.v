(** Model of muting: dascore/proc/mute.py, with get_2d_line_intersection
    (utils/misc.py 880-908) and get_dim_axis_value (utils/patch.py 594-679) for
    keywords only.

    Floats are exact rationals. Labels become rationals the way to_float makes floats
    of them (utils/time.py 341-420): times are nanoseconds and become seconds, other
    labels stay as they are. Time values given as floats are not rounded to the
    nanosecond. Vectors are not scaled to length one: scaling by a positive number
    changes no sign, and the two comparisons with a tolerance are squared.
    Not modelled: smoothing (a Gaussian filter), percentages, boundaries of any other
    number than two. *)
From Verif Require Import Base CoordModel NdModel FrameModel ChunkModel CmModel ProcModel.
From Coq Require Import Strings.String QArith Qabs.
Local Open Scope Z_scope.
Local Open Scope list_scope.

(** utils/patch.py 654-679: all keywords must be dimensions; in the order given. *)
Definition named_dims {V} (dims : list string) (kw : list (string * V)) : result (list (string * V)) :=
  match filter (fun e => mem (fst e) dims) kw with
  | [] => Err ParameterError
  | l => if zlen l =? zlen kw then Ok l else Err PatchCoordinateError
  end.

Section Mute.
Context {A : Type} (mul : A -> Q -> A).

(** mute.py 524-532: the envelope is one inside the region if [invert], else zero, and
    the other way round outside; the data is multiplied with it. [inside] takes a
    position in the data. *)
Definition envelope (invert inside : bool) : Q := if Bool.eqb invert inside then 1 else 0.
Definition apply_envelope (p : patch A) (invert : bool) (inside : list Z -> option bool) : result (patch A) :=
  match nd_build (nd_shape (p_data p)) (fun ix =>
          match nd_get (p_data p) ix, inside ix with
          | Some x, Some b => Some (mul x (envelope invert b))
          | _, _ => None end) with
  | Some a => new_patch (p_cm p) a
  | None => Err IndexError
  end.

(** ** One dimension *)

(** mute.py 120-143 and 381-409: a range of labels. *)
Definition pt_line_mute1 (p : patch A) (invert relative : bool) (kw : list (string * list (option Z)))
  : result (patch A) :=
  match kw with
  | [] => Err ParameterError
  | [_] =>
      do l <- named_dims (cm_dims (p_cm p)) kw;
      match l with
      | [(d, [lo; hi])] =>
          do ax <- axis_of (p_cm p) d;
          match assoc d (cm_coords (p_cm p)) with
          | Some (M1 c) =>
              do x <- c_sel c relative false (SelPair lo hi);
              match indexer_positions (c_len c) (snd x) with
              | None => Err IndexError
              | Some ps => apply_envelope p invert (fun ix => option_map (fun i => memZ i ps) (nth_error ix ax))
              end
          | _ => Err KeyError
          end
      | _ => Err ParameterError
      end
  | [_; _] => Err Unmodelled
  | _ => Err ParameterError
  end.

(** ** Two dimensions *)

(** One boundary along one dimension: two numbers, one number, or None and .... *)
Inductive mbound := BPair (a b : Q) | BNum (a : Q) | BNone.
Definition point := (Q * Q)%type.

(** to_float of a label. *)
Definition to_fl (c : coord) (z : Z) : Q := match c_kind c with KTime => z # 1000000000 | KInt => inject_Z z end.
(** mute.py 240-243: offset from the lowest label; with [relative] a negative value
    counts from the highest (coords.py 740-747). *)
Definition offset (c : coord) (relative : bool) (v : Q) : result Q :=
  match c_min c, c_max c with
  | Some mn, Some mx =>
      Ok (if relative then (if Qle_bool 0 v then v else to_fl c mx - to_fl c mn + v) else v - to_fl c mn)%Q
  | _, _ => Err ValueError
  end.

(** The two columns of one line while it is filled in; [None] is nan. *)
Definition columns := (option (Q * Q) * option (Q * Q))%type.
Definition set_col (first : bool) (v : Q * Q) (c : columns) : columns :=
  if first then (Some v, snd c) else (fst c, Some v).
(** mute.py 250-275: the body of the loop for the dimension in the first ([first]) or
    second place; the boolean says that a single number was given. *)
Definition fill (c : coord) (relative first : bool) (b : mbound) (cols : columns) : result (columns * bool) :=
  match b with
  | BPair u v => do u' <- offset c relative u; do v' <- offset c relative v;
                 Ok (set_col first (u', v') cols, false)
  | BNone => Ok (cols, false)
  | BNum u => do u' <- offset c relative u;
              Ok (set_col (negb first) (0, 1)%Q (set_col first (u', u') cols), true)
  end.
Definition line := (point * point)%type.
Definition line_of (c : columns) : result line :=
  match c with
  | (Some (x1, x2), Some (y1, y2)) => Ok ((x1, y1), (x2, y2))
  | _ => Err AssertionError
  end.
(** mute.py 236-277: _get_filled_value_list. The coordinates are those of the first two
    dimensions of the patch (251), whatever dimensions are named. The result is the
    two lines and the index of the last one given by a single number. *)
Definition filled (cx cy : coord) (relative : bool) (bx by_ : mbound * mbound) : result (line * line * option bool) :=
  do a1 <- fill cx relative true (fst bx) (None, None);
  do b1 <- fill cx relative true (snd bx) (None, None);
  do a2 <- fill cy relative false (fst by_) (fst a1);
  do b2 <- fill cy relative false (snd by_) (fst b1);
  let ifill := if snd b2 then Some true else if snd a2 then Some false
               else if snd b1 then Some true else if snd a1 then Some false else None in
  do l1 <- line_of (fst a2);
  do l2 <- line_of (fst b2);
  Ok (l1, l2, ifill).

Definition tol : Q := 1 # 1000000000.
Definition sub (p q : point) : point := ((fst p - fst q)%Q, (snd p - snd q)%Q).
Definition dot (p q : point) : Q := (fst p * fst q + snd p * snd q)%Q.
Definition cross (p q : point) : Q := (fst p * snd q - snd p * fst q)%Q.
Definition neg (p : point) : point := ((- fst p)%Q, (- snd p)%Q).
Definition Qltb (a b : Q) : bool := negb (Qle_bool b a).

(** misc.py 880-908; [None] is nan. The denominator is compared with zero by
    np.isclose, whose absolute tolerance is 1e-8. *)
Definition intersection (l1 l2 : line) : option point :=
  let '((x1, y1), (x2, y2)) := l1 in
  let '((x3, y3), (x4, y4)) := l2 in
  let denom := ((x1 - x2) * (y3 - y4) - (y1 - y2) * (x3 - x4))%Q in
  if Qle_bool (Qabs denom) (1 # 100000000) then None
  else Some ((((x1 * y2 - y1 * x2) * (x3 - x4) - (x1 - x2) * (x3 * y4 - y3 * x4)) / denom)%Q,
             (((x1 * y2 - y1 * x2) * (y3 - y4) - (y1 - y2) * (x3 * y4 - y3 * x4)) / denom)%Q).

Record geometry := mkGeo { g_o1 : option point; g_o2 : option point; g_v1 : point; g_v2 : point; g_parallel : bool }.
(** mute.py 186-234: _get_line_params; [rx], [ry] are the extended ranges of the named
    dimensions. The lines are relative to them. *)
Definition scale (rx ry : Q) (p : point) : point := ((fst p / rx)%Q, (snd p / ry)%Q).
Definition get_geometry (rx ry : Q) (l1 l2 : line) (ifill : option bool) : result geometry :=
  let origin := intersection l1 l2 in
  let v1 := scale rx ry (sub (snd l1) (fst l1)) in
  let v2 := scale rx ry (sub (snd l2) (fst l2)) in
  if Qltb (dot v1 v1) (tol * tol)%Q || Qltb (dot v2 v2) (tol * tol)%Q then Err ParameterError
  else
    let parallel := Qltb ((1 - tol) * (1 - tol) * (dot v1 v1 * dot v2 v2))%Q (dot v1 v2 * dot v1 v2)%Q in
    let origins := if parallel then (Some (fst l1), Some (fst l2)) else (origin, origin) in
    let geo v1 v2 := mkGeo (fst origins) (snd origins) v1 v2 parallel in
    if Qle_bool 0 (dot v1 v2) then Ok (geo v1 v2)
    else match ifill with
         | Some true => Ok (geo v1 (neg v2))
         | Some false => Ok (geo (neg v1) v2)
         | None => if parallel then Ok (geo (neg v1) v2) else Err ParameterError
         end.

(** mute.py 294-378: whether the sample with offsets [pt] is in the region. A nan
    origin makes every comparison false. *)
Definition inside (g : geometry) (rx ry : Q) (pt : point) : bool :=
  match g_o1 g, g_o2 g with
  | Some o1, Some o2 =>
      let u1 := scale rx ry (sub pt o1) in
      let u2 := scale rx ry (sub pt o2) in
      Qltb (cross (g_v1 g) u1 * cross (g_v2 g) u2)%Q 0 &&
      (g_parallel g || (Qltb 0 (dot (g_v1 g) u1) && Qltb 0 (dot (g_v2 g) u2)))
  | _, _ => false
  end.

Definition coord_of (p : patch A) (d : string) : result coord :=
  match assoc d (cm_coords (p_cm p)) with Some (M1 c) => Ok c | _ => Err CoordError end.
Definition fl_offsets (c : coord) : result (list Q) :=
  match c_min c with
  | Some mn => Ok (map (fun z => to_fl c z - to_fl c mn)%Q (c_ints c))
  | None => Err ValueError
  end.
(** mute.py 279-292, 381-409, 412-532 for two dimensions. *)
Definition pt_line_mute2 (p : patch A) (invert relative : bool) (kw : list (string * (mbound * mbound)))
  : result (patch A) :=
  match kw with
  | [] => Err ParameterError
  | [_] => Err Unmodelled
  | [_; _] =>
      do l <- named_dims (cm_dims (p_cm p)) kw;
      match l, cm_dims (p_cm p) with
      | [(d1, b1); (d2, b2)], first :: second :: _ =>
          do a1 <- axis_of (p_cm p) d1;
          do a2 <- axis_of (p_cm p) d2;
          do cf <- coord_of p first;
          do cs <- coord_of p second;
          do f <- filled cf cs relative b1 b2;
          let '(l1, l2, ifill) := f in
          do c1 <- coord_of p d1;
          do c2 <- coord_of p d2;
          do r1 <- coord_range c1 true;
          do r2 <- coord_range c2 true;
          let rx := to_fl c1 r1 in
          let ry := to_fl c2 r2 in
          do g <- get_geometry rx ry l1 l2 ifill;
          do xs <- fl_offsets c1;
          do ys <- fl_offsets c2;
          apply_envelope p invert (fun ix =>
            match nth_error ix a1, nth_error ix a2 with
            | Some i, Some j => match znth xs i, znth ys j with
                                | Some x, Some y => Some (inside g rx ry (x, y))
                                | _, _ => None end
            | _, _ => None end)
      | _, _ => Err ParameterError
      end
  | _ => Err ParameterError
  end.

(** ** Slopes *)
Inductive slope := SFin (q : Q) | SInf.
(** proc/coords.py 133-154 with require_sorted. *)
Definition sorted_coord (p : patch A) (d : string) : result coord :=
  do c <- coord_of p d;
  if c_sorted c || c_reverse_sorted c then Ok c else Err CoordError.
(** First label, and last label minus first. *)
Definition ends (c : coord) : result (Q * Q) :=
  match znth (c_ints c) 0, znth (c_ints c) (zlen (c_ints c) - 1) with
  | Some a, Some b => Ok (to_fl c a, to_fl c (b - a))
  | _, _ => Err IndexError
  end.
(** mute.py 613-630. *)
Definition slope_line (ox oy range_x : Q) (s : slope) : mbound * mbound :=
  match s with
  | SInf => (BPair ox (ox + 1), BPair oy oy)
  | SFin q => if Qle_bool (Qabs q) (1 # 100000000) then (BPair ox ox, BPair oy (oy + 1))
              else (BPair ox (ox + range_x), BPair oy (oy + range_x / q))
  end.
(** mute.py 535-639: slope_mute. *)
Definition pt_slope_mute (p : patch A) (s1 s2 : slope) (d1 d2 : string) (invert : bool) : result (patch A) :=
  if existsb (fun s => match s with SFin q => Qltb q 0 | SInf => false end) [s1; s2] then Err ParameterError
  else
    do c1 <- sorted_coord p d1;
    do c2 <- sorted_coord p d2;
    do e1 <- ends c1;
    do e2 <- ends c2;
    let b1 := slope_line (fst e1) (fst e2) (snd e1) s1 in
    let b2 := slope_line (fst e1) (fst e2) (snd e1) s2 in
    pt_line_mute2 p invert false [(d1, (fst b1, fst b2)); (d2, (snd b1, snd b2))].
End Mute.

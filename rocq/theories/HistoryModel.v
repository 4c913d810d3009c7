(** Model of the [patch_function] decorator: dascore/utils/patch.py 58-309, with
    update_attrs (dascore/proc/basic.py 96-133), CoordManager.update_from_attrs
    (dascore/core/coordmanager.py 321-354) and the attribute part of
    Patch.__init__ (dascore/core/patch.py 86-120).

    Patches are objects in a heap, so that [out is patch] and "the input is
    unchanged" can be said. A patch has its attributes, the dims and the
    coordinate summaries (to_summary_dict) of its coordinate manager, and a body
    standing for the data and the coordinates themselves. The decorated function
    may change the rest of the world, also kept in the state, so that not calling
    it shows. Not modelled: pydantic's validate_call, and results other than
    patches that have attrs. *)
From Verif Require Import Base CoordModel FrameModel ChunkModel CmModel AttrsModel.
From Coq Require Import Strings.String Strings.Ascii.
Local Open Scope Z_scope.

(** ** Patches and update_attrs *)
Record hpatch (B : Type) := mkH
  { h_attrs : attrs; h_dims : list string; h_sums : list (string * summ); h_body : B }.
Arguments mkH {B} h_attrs h_dims h_sums h_body.
Arguments h_attrs {B} h.
Arguments h_dims {B} h.
Arguments h_sums {B} h.
Arguments h_body {B} h.

Definition sum_dicts (l : list (string * summ)) : list (string * sdict) :=
  map (fun e => (fst e, summ_dict (snd e))) l.

(** coordmanager.py 340-345: what the attributes say about a coordinate is what
    the coordinate says; a field at its default is left out of the dump, and
    [get] gives None. *)
Definition no_diff (m : sdict) (s : summ) : bool :=
  forallb (fun f => scal_eqb (snd f) (get_or ANone (fst f) (summ_short s))) m.

Section Update.
Context {B : Type}.

(** coordmanager.py 321-354: update_from_attrs, when it changes no coordinate. *)
Definition from_attrs (p : hpatch B) (o : adict) : result attrs :=
  do iv <- separate [] o (Some (h_dims p));
  let (info, v) := iv in
  if negb (forallb (fun e => match assoc (fst e) (h_sums p) with
                             | Some s => no_diff (snd e) s | None => true end) info)
  then Err Unmodelled
  else
    let unused := filter (fun e => negb (mem (fst e) (h_dims p))) info in
    let v := fold_left (fun v e =>
               fold_left (fun v f => assoc_set (fst e ++ "_" ++ fst f)%string (snd f) v) (snd e) v) unused v in
    let v := assoc_set "dims"%string (ASeq (h_dims p)) v in
    mk_attrs (mkDict v (Some (CDict (sum_dicts (h_sums p))))).

(** core/patch.py 110-120 for attributes that are a PatchAttrs already. *)
Definition init_patch (p : hpatch B) (a : attrs) : result (hpatch B) :=
  do a <- attrs_update a (mkDict [] (Some (CMan (h_dims p) (sum_dicts (h_sums p)))));
  if strs_eqb (h_dims p) (dim_tuple a)
  then Ok (mkH a (h_dims p) (h_sums p) (h_body p))
  else Err PatchCoordinateError.

(** proc/basic.py 96-133: update_attrs, for keywords other than coords. *)
Definition update_attrs (p : hpatch B) (kw : sdict) : result (hpatch B) :=
  let old := dump_set (h_attrs p) in
  let new := mkDict (merge_fields kw (d_vals old)) (d_coords old) in
  match kw with
  | [(k, _)] =>
      if String.eqb k "history"
      then do a <- mk_attrs new; Ok (mkH a (h_dims p) (h_sums p) (h_body p))
      else do a <- from_attrs p new; init_patch p a
  | _ => do a <- from_attrs p new; init_patch p a
  end.
End Update.

(** ** The history string *)

(** An argument: None, a list, a tuple, a patch, or anything else by what [str]
    (for arrays [np.array2string]) gives. *)
Inductive pyval := PNone | PText (s : string) | PList (l : list pyval) | PTuple (l : list pyval) | PPatch.

(** patch.py 58-75: _format_values. *)
Fixpoint format_values (v : pyval) : string :=
  match v with
  | PNone => "None"
  | PText s => s
  | PList l => "[" ++ str_join "," (map format_values l) ++ "]"
  | PTuple l => "(" ++ str_join "," (map format_values l) ++ ")"
  | PPatch => "Patch..."
  end%string.

(** python's [repr] of a string: double quotes when it has single quotes only.
    Characters beyond ASCII count as printable. *)
Definition hex_digit (n : nat) : ascii :=
  ascii_of_nat (if Nat.ltb n 10 then n + 48 else n + 87)%nat.
Definition escape (quote c : ascii) : string :=
  let n := nat_of_ascii c in
  if Ascii.eqb c quote || Ascii.eqb c "\"%char then String "\"%char (String c EmptyString)
  else if Nat.eqb n 9 then "\t"%string
  else if Nat.eqb n 10 then "\n"%string
  else if Nat.eqb n 13 then "\r"%string
  else if Nat.ltb n 32 || Nat.eqb n 127
       then ("\x" ++ String (hex_digit (Nat.div n 16)) (String (hex_digit (Nat.modulo n 16)) EmptyString))%string
  else String c EmptyString.
Fixpoint escape_all (quote : ascii) (s : string) : string :=
  match s with
  | EmptyString => EmptyString
  | String c t => (escape quote c ++ escape_all quote t)%string
  end.
Definition single_quote : ascii := "'"%char.
Definition double_quote : ascii := """"%char.
Definition py_repr (s : string) : string :=
  let q := if str_contains (String single_quote EmptyString) s
              && negb (str_contains (String double_quote EmptyString) s)
           then double_quote else single_quote in
  String q (escape_all q s ++ String q EmptyString)%string.

(** A function's parameters: positional ones, keyword-only ones (with defaults),
    and the names of its star and double-star parameters. *)
Record signature := mkSig
  { g_pos : list (string * option pyval); g_star : option string;
    g_only : list (string * option pyval); g_kw : option string }.

(** inspect.getcallargs: what every parameter gets, and the extra keywords. *)
Definition bind_one (kw : list (string * pyval)) (e : string * option pyval) : result (string * pyval) :=
  match assoc (fst e) kw, snd e with
  | Some v, _ => Ok (fst e, v)
  | None, Some d => Ok (fst e, d)
  | None, None => Err TypeError
  end.
Definition getcallargs (g : signature) (pos : list pyval) (kw : list (string * pyval))
  : result (list (string * pyval) * list (string * pyval)) :=
  let n := List.length pos in
  let names := map fst (g_pos g) in
  let own := names ++ map fst (g_only g) in
  if existsb (fun k => mem k (map fst kw)) (firstn n names) then Err TypeError
  else if Nat.ltb (List.length names) n && match g_star g with None => true | Some _ => false end then Err TypeError
  else if existsb (fun k => negb (mem k own)) (map fst kw)
          && match g_kw g with None => true | Some _ => false end then Err TypeError
  else
    do rest <- map_result (bind_one kw) (skipn n (g_pos g) ++ g_only g);
    let star := match g_star g with
                | Some s => [(s, PTuple (skipn (List.length names) pos))] | None => [] end in
    Ok (combine names pos ++ star ++ rest, filter (fun e => negb (mem (fst e) own)) kw).

(** patch.py 78-95: _func_and_kwargs_str. Extra keywords under another name than
    "kwargs" would be shown as a dict and are not modelled. *)
Definition shown (e : string * pyval) : list string :=
  match snd e with
  | PNone => []
  | v => [(fst e ++ "=" ++ py_repr (format_values v))%string]
  end.
Definition call_string (name : string) (g : signature) (pos : list pyval) (kw : list (string * pyval))
  : result string :=
  do b <- getcallargs g pos kw;
  let (args, extra) := b in
  if match g_kw g with Some k => negb (String.eqb k "kwargs") | None => false end
     || mem "kwargs"%string (map fst args) then Err Unmodelled
  else
    let args := filter (fun e => negb (mem (fst e) ["patch"; "self"]%string)) args in
    let l := sort_strs (flat_map shown args ++ flat_map shown extra) in
    Ok (name ++ "(" ++ str_join "," l ++ ")")%string.

(** patch.py 98-121: _get_history_str. *)
Inductive hmode := Full | NameOnly | NoHistory.
Definition history_str (mode : hmode) (name : string) (g : signature) (pos : list pyval)
  (kw : list (string * pyval)) : result (option string) :=
  match mode with
  | NoHistory => Ok None
  | Full => do s <- call_string name g pos kw; Ok (Some s)
  | NameOnly => Ok (Some name)
  end.

(** ** The decorator *)
Inductive areq := AnyAttrs | NamedAttrs (l : list string) | TheseAttrs (l : sdict).
Record pfunc := mkF
  { f_name : string; f_sig : signature;
    f_dims : option (list string); f_coords : option (list string); f_attrs : areq;
    f_mode : hmode; f_type : option string }.

Section Wrapper.
Context {B W : Type}.
Record state := mkSt { heap : list (hpatch B); world : W }.

(** What a function gives back: an object of the heap, or something without attrs. *)
Inductive ret := RRef (i : nat) | ROther.
Definition body := nat -> list pyval -> list (string * pyval) -> state -> result ret * state.

(** patch.py 124-151: check_patch_coords. *)
Definition missing_from (need : option (list string)) (have : list string) : bool :=
  match need with Some l => negb (subset l have) | None => false end.
Definition check_coords (f : pfunc) (p : hpatch B) : result unit :=
  if missing_from (f_dims f) (h_dims p) || missing_from (f_coords f) (map fst (h_sums p))
  then Err PatchCoordinateError else Ok tt.

(** patch.py 154-180: check_patch_attrs; "dims" and "coords" are not asked for by
    value here. *)
Definition attr_names (a : attrs) : list string :=
  ["dims"; "coords"]%string ++ map fst field_defaults ++ map fst (a_vals a).
Definition check_attrs (f : pfunc) (p : hpatch B) : result unit :=
  match f_attrs f with
  | AnyAttrs => Ok tt
  | NamedAttrs l => if subset l (attr_names (h_attrs p)) then Ok tt else Err PatchAttributeError
  | TheseAttrs l =>
      do vs <- map_result (fun e => do v <- attr_read (h_attrs p) (fst e); Ok (scal_eqb v (snd e))) l;
      if forallb id vs then Ok tt else Err PatchAttributeError
  end.

(** [list(out.attrs.history)]: a string is a list of characters. *)
Fixpoint chars (s : string) : list string :=
  match s with EmptyString => [] | String c t => String c EmptyString :: chars t end.
Definition history_list (a : attrs) : result (list string) :=
  match attr_get a "history" with
  | Some (ASeq l) => Ok l
  | Some (AStr s) => Ok (chars s)
  | _ => Err TypeError
  end.

(** patch.py 272-298: what is written on the result [q], object [j], of a call on
    object [i]. *)
Definition attr_updates (f : pfunc) (i j : nat) (q : hpatch B) (pos : list pyval) (kw : list (string * pyval))
  : result sdict :=
  let dt := match f_type f with Some t => [("data_type"%string, AStr t)] | None => [] end in
  if Nat.eqb j i then Ok dt
  else
    do s <- history_str (f_mode f) (f_name f) (f_sig f) (PPatch :: pos) kw;
    match s with
    | None | Some EmptyString => Ok dt
    | Some e => do h <- history_list (h_attrs q); Ok (dt ++ [("history"%string, ASeq (h ++ [e]))])
    end.
Definition call (f : pfunc) (b : body) (i : nat) (pos : list pyval) (kw : list (string * pyval)) (st : state)
  : result ret * state :=
  match nth_error (heap st) i with
  | None => (Err Unmodelled, st)
  | Some p =>
      match (do _ <- check_coords f p; check_attrs f p) with
      | Err e => (Err e, st)
      | Ok _ =>
          match b i pos kw st with
          | (Ok (RRef j), st) =>
              match nth_error (heap st) j with
              | None => (Err Unmodelled, st)
              | Some q =>
                  match attr_updates f i j q pos kw with
                  | Err e => (Err e, st)
                  | Ok [] => (Ok (RRef j), st)
                  | Ok kw => match update_attrs q kw with
                             | Err e => (Err e, st)
                             | Ok r => (Ok (RRef (List.length (heap st))), mkSt (heap st ++ [r]) (world st))
                             end
                  end
              end
          | r => r
          end
      end
  end.
End Wrapper.
Arguments state B W : clear implicits.
Arguments body B W : clear implicits.

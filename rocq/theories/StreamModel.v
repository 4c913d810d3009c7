(** Model of conversions to and from ObsPy streams: patch_to_obspy and obspy_to_patch of
    dascore/utils/io.py.

    Patches have two dimensions and evenly sampled time; the data is a list of rows along the
    first dimension. A trace has a start, a step, data and other stats, those ObsPy adds itself
    left out. Times and steps are exact. PatchConversionError is PatchError, a base of it. *)
From Verif Require Import Base FrameModel.
From Coq Require Import Strings.String.
Local Open Scope list_scope.

Section Stream.
Context {A V : Type}.
(** The coordinate of time has a start, a step and a length, the other one has values. *)
Record patch2 := mkP2 { q_dims : string * string; q_rows : list (list A); q_values : list V; q_start : Z; q_step : Z; q_len : nat; q_attrs : list (string * V) }.
Record trace := mkTrace { t_start : Z; t_step : Z; t_data : list A; t_stats : list (string * V) }.
(** io.py 208-214. *)
Definition check_patch (dims : list string) : result unit := if negb (mem "time" dims) && Nat.eqb (List.length dims) 2 then Err PatchError else Ok tt.
Definition column (rows : list (list A)) (j : nat) : list A := flat_map (fun r => match nth_error r j with Some x => [x] | None => [] end) rows.
Definition columns (rows : list (list A)) (n : nat) : list (list A) := map (column rows) (seq 0 n).
(** io.py 230-245: time is made the last dimension; one trace for each value of the other. *)
Definition to_stream (p : patch2) : result (list trace) :=
  do _ <- check_patch [fst (q_dims p); snd (q_dims p)];
  let first := String.eqb (fst (q_dims p)) "time" in
  let other := if first then snd (q_dims p) else fst (q_dims p) in
  let rows := if first then columns (q_rows p) (List.length (q_values p)) else q_rows p in
  Ok (map (fun e => mkTrace (q_start p) (q_step p) (fst e) (assoc_set other (snd e) (q_attrs p))) (combine rows (q_values p))).
(** io.py 277. *)
Definition removed : list string := ["starttime"; "endtime"; "sampling_rate"; "delta"; "npts"; "calib"]%string.
Definition has_stat (dim : string) (t : trace) : bool := match assoc dim (t_stats t) with Some _ => true | None => false end.
(** io.py 248-303; no patch stands for the empty one. Time and attributes are those of the last
    trace. *)
Definition from_stream (traces : list trace) (dim : string) : result (option patch2) :=
  match traces with
  | [] => Ok None
  | t0 :: rest =>
      if forallb (fun t => Nat.eqb (List.length (t_data t)) (List.length (t_data t0))) rest && forallb (has_stat dim) traces then
        let tr := last rest t0 in
        Ok (Some (mkP2 (dim, "time"%string) (map t_data traces) (flat_map (fun t => match assoc dim (t_stats t) with Some v => [v] | None => [] end) traces)
                       (t_start tr) (t_step tr) (List.length (t_data tr)) (filter (fun e => negb (mem (fst e) removed)) (t_stats tr))))
      else Err PatchError
  end.
End Stream.
Arguments patch2 : clear implicits.
Arguments trace : clear implicits.

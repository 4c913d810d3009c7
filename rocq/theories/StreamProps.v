(** C107: conversions to and from ObsPy streams. *)
From Verif Require Import Base FrameModel StreamModel StreamSpec StreamProofs.
From Coq Require Import Strings.String.
Local Open Scope string_scope.
Local Open Scope list_scope.

(** A stream has one trace for each value of the other dimension, with its samples in order of
    time, the times of the patch, the value and the attributes. *)
Theorem C107_traces : forall A V (p : patch2 A V) d, shaped p -> other_dim p d -> d <> "time" -> exists ts, to_stream p = Ok ts /\ List.length ts = List.length (q_values p) /\
  forall i t, nth_error ts i = Some t -> t_start t = q_start p /\ t_step t = q_step p /\ List.length (t_data t) = q_len p /\ (forall j, nth_error (t_data t) j = sample p i j) /\ assoc d (t_stats t) = nth_error (q_values p) i /\
    forall k, k <> d -> assoc k (t_stats t) = assoc k (q_attrs p).
Proof. intros A V. exact stream_traces. Qed.
Print Assumptions C107_traces.
(** Patches with two dimensions and no time are refused. *)
Theorem C107_refused : forall A V (p : patch2 A V), (forall d, ~ other_dim p d) -> to_stream p = Err PatchError.
Proof. intros A V. exact to_refused. Qed.
Print Assumptions C107_refused.
(** A stream gives a patch exactly if its traces have the same number of samples and the stat;
    the patch has a row for each, and time and attributes of the last. *)
Theorem C107_patch : forall A V (ts : list (trace A V)) dim p, from_stream ts dim = Ok (Some p) <-> exists front tr, ts = front ++ [tr] /\
  (forall t, In t ts -> List.length (t_data t) = List.length (t_data tr) /\ assoc dim (t_stats t) <> None) /\
  q_dims p = (dim, "time") /\ q_rows p = map t_data ts /\ map Some (q_values p) = map (fun t => assoc dim (t_stats t)) ts /\ q_start p = t_start tr /\ q_step p = t_step tr /\ q_len p = List.length (t_data tr) /\
  q_attrs p = filter (fun e => negb (mem (fst e) removed)) (t_stats tr).
Proof. intros A V. exact from_ok. Qed.
Print Assumptions C107_patch.
(** Other streams are refused, the empty one apart. *)
Theorem C107_stream_refused : forall A V (ts : list (trace A V)) dim e, from_stream ts dim = Err e -> e = PatchError /\
  ((exists t u, In t ts /\ In u ts /\ List.length (t_data t) <> List.length (t_data u)) \/ exists t, In t ts /\ assoc dim (t_stats t) = None).
Proof. intros A V. exact from_refused. Qed.
Print Assumptions C107_stream_refused.
(** The empty stream gives the empty patch, and only it does. *)
Theorem C107_empty : forall A V (ts : list (trace A V)) dim, from_stream ts dim = Ok None <-> ts = [].
Proof. intros A V ts dim. destruct ts as [|t ts]; [split; reflexivity|]. unfold from_stream. destruct (_ && _); split; discriminate. Qed.
Print Assumptions C107_empty.
(** A patch converted to a stream and back has the same samples, coordinates and attributes, with
    time as the last dimension; the names left out are those of ObsPy. *)
Theorem C107_back : forall A V (p : patch2 A V) d, shaped p -> other_dim p d -> d <> "time" -> q_values p <> [] -> exists ts r, to_stream p = Ok ts /\ from_stream ts d = Ok (Some r) /\
  q_dims r = (d, "time") /\ q_values r = q_values p /\ q_start r = q_start p /\ q_step r = q_step p /\ q_len r = q_len p /\ (forall i j, sample r i j = sample p i j) /\
  forall k, k <> d -> ~ In k removed -> assoc k (q_attrs r) = assoc k (q_attrs p).
Proof. intros A V. exact stream_back. Qed.
Print Assumptions C107_back.
Theorem C107_removed : forall k, In k removed <-> k = "starttime" \/ k = "endtime" \/ k = "sampling_rate" \/ k = "delta" \/ k = "npts" \/ k = "calib".
Proof. intros k. cbn. intuition congruence. Qed.
Print Assumptions C107_removed.
(** Times of traces are not compared: traces of different times are put in one patch. *)
Theorem C107_times_refuted : exists (ts : list (trace Z Z)) p, from_stream ts "distance" = Ok (Some p) /\ (exists t, In t ts /\ t_start t <> q_start p) /\ exists t, In t ts /\ t_step t <> q_step p.
Proof.
  exists [mkTrace 0%Z 1%Z [5%Z] [("distance", 1%Z)]; mkTrace 100%Z 2%Z [6%Z] [("distance", 2%Z)]]. eexists. split; [reflexivity|].
  split; (eexists; split; [left; reflexivity|cbn; discriminate]).
Qed.
Print Assumptions C107_times_refuted.
(** The check does not refuse patches of any other number of dimensions, with or without time. *)
Theorem C107_check_refuted : check_patch ["distance"; "frequency"; "shot"] = Ok tt /\ check_patch ["time"] = Ok tt /\ check_patch ["distance"] = Ok tt.
Proof. repeat split; reflexivity. Qed.
Print Assumptions C107_check_refuted.
(** The conversions add an attribute named after the dimension, with the last value. *)
Definition small (dims : string * string) (rows : list (list Z)) : patch2 Z Z := mkP2 dims rows [10; 20]%Z 100%Z 5%Z 3 [("gauge", 7%Z); ("calib", 8%Z)].
Theorem C107_attributes_refuted : exists ts r, to_stream (small ("distance", "time") [[1; 2; 3]; [4; 5; 6]]%Z) = Ok ts /\ from_stream ts "distance" = Ok (Some r) /\
  assoc "distance" (q_attrs r) = Some 20%Z /\ assoc "calib" (q_attrs r) = None.
Proof. do 2 eexists. split; [reflexivity|]. split; [reflexivity|]. split; reflexivity. Qed.
Print Assumptions C107_attributes_refuted.

Example C107_witness : shaped (small ("time", "distance") [[1; 4]; [2; 5]; [3; 6]]%Z) /\ other_dim (small ("time", "distance") [[1; 4]; [2; 5]; [3; 6]]%Z) "distance" /\
  exists ts, to_stream (small ("time", "distance") [[1; 4]; [2; 5]; [3; 6]]%Z) = Ok ts /\ map t_data ts = [[1; 2; 3]; [4; 5; 6]]%Z /\ exists r, from_stream ts "distance" = Ok (Some r) /\ q_rows r = [[1; 2; 3]; [4; 5; 6]]%Z.
Proof. split; [cbn; split; [reflexivity|repeat constructor]|]. split; [right; reflexivity|]. eexists. split; [reflexivity|]. split; [reflexivity|]. eexists. split; reflexivity. Qed.
Example C107_witness_refused : to_stream (small ("distance", "frequency") [[1; 2; 3]; [4; 5; 6]]%Z) = Err PatchError /\
  from_stream [mkTrace 0%Z 1%Z [5%Z] [("distance", 1%Z)]; mkTrace 0%Z 1%Z [] [("distance", 2%Z)]] "distance" = Err PatchError /\ from_stream [mkTrace 0%Z 1%Z [5%Z] [("distance", 1%Z)]] "depth" = Err PatchError.
Proof. repeat split; reflexivity. Qed.

(** Properties C25, C26 and C31: filtering and trimming tables, stored paths.
    Model: FrameModel.v. Specification vocabulary: FrameSpec.v. *)
From Verif Require Import Base BaseFacts FrameModel FrameSpec FrameProofs FrameProofs2 FrameProofs3
  FrameProofs4 FrameProofs5.
From Coq Require Import Strings.String Strings.Ascii Lia.
Local Open Scope Z_scope.
Local Open Scope string_scope.

(** A small table for the witnesses. *)
Definition tcols : list string := ["station"; "time_min"; "time_max"; "time_step"; "gauge"].
Definition trow (s : string) (a b g : Z) : frow :=
  mkRow [("station", VStr s); ("time_min", VInt a); ("time_max", VInt b); ("time_step", VInt 1); ("gauge", VInt g)] false.
Definition ttable : list frow := [trow "aa1" 0 10 5; trow "ab2" 11 20 7; trow "bb1" 21 30 5].
Definition between (a b : Z) : qval := QColl [ICell (VInt a); ICell (VInt b)].

(** * C25: filtering *)
Theorem C25_filter : forall cols rows ign kw m,
  (forall k v, In (k, v) kw -> ~ has_col cols k -> plain_key k) ->
  filter_df cols rows ign kw = Ok m ->
  exists P, m = map P rows /\
    forall r, In r rows -> (P r = true <-> forall k v, In (k, v) kw -> meets cols r k v).
Proof. exact filter_df_rows. Qed.
Print Assumptions C25_filter.

Theorem C25_patterns : forall p s, glob p s = true <-> Matches p s.
Proof. exact glob_spec. Qed.
Print Assumptions C25_patterns.

Theorem C25_errors : forall cols rows ign kw e,
  (forall k v, In (k, v) kw -> ~ has_col cols k -> plain_key k) ->
  filter_df cols rows ign kw = Err e ->
  exists k v, In (k, v) kw /\ Refused cols rows ign k v e.
Proof. exact filter_df_err. Qed.
Print Assumptions C25_errors.

Theorem C25_refusals : forall cols rows ign kw m,
  (forall k v, In (k, v) kw -> ~ has_col cols k -> plain_key k) ->
  filter_df cols rows ign kw = Ok m ->
  forall k v e, In (k, v) kw -> ~ Refused cols rows ign k v e.
Proof. exact filter_df_ok. Qed.
Print Assumptions C25_refusals.

(** An unset value for an existing column is not "no condition": nothing matches. *)
Theorem C25_none_matches_nothing_refuted : exists cols rows kw,
  rows <> [] /\ kw = [("station", QNone)] /\
  filter_df cols rows true kw = Ok (map (fun _ => false) rows).
Proof. exists tcols, ttable, [("station", QNone)]. repeat split. discriminate. Qed.
Print Assumptions C25_none_matches_nothing_refuted.

(** Asking to ignore unsuitable keywords does not cover <name>_min. *)
Theorem C25_ignored_keyword_fails_refuted : exists cols rows,
  filter_df cols rows true [("depth", QVal (VInt 3))] = Ok (map (fun _ => true) rows) /\
  filter_df cols rows true [("depth_min", QVal (VInt 3))] = Err KeyError.
Proof. exists tcols, ttable. split; vm_compute; reflexivity. Qed.
Print Assumptions C25_ignored_keyword_fails_refuted.

Example C25_witness :
  let kw := [("station", QVal (VStr "a*")); ("time", between 25 5); ("gauge_max", QVal (VInt 6))] in
  (forall k v, In (k, v) kw -> ~ has_col tcols k -> plain_key k) /\
  filter_df tcols ttable false kw = Ok [true; false; false].
Proof.
  split; [|vm_compute; reflexivity].
  intros k v [H|[H|[H|[]]]] Hc; injection H as <- <-; intros suf a b Hs E [base Hb].
  - exfalso. apply Hc. vm_compute. auto.
  - exfalso. apply (f_equal (str_suffix suf)) in Hb.
    rewrite (proj2 (str_suffix_spec suf (base ++ suf))) in Hb by eauto.
    destruct Hs as [->| ->]; discriminate.
  - destruct Hs as [->| ->].
    + apply (f_equal String.length) in E as L. rewrite !slen_app in L. cbn in L.
      do 6 (destruct a as [|? a]; [try discriminate; cbn in E; injection E; intros; subst; try congruence|cbn in E; injection E as _ E]);
      try discriminate.
      cbn in L. lia.
    + exfalso. apply (f_equal (str_suffix "_min")) in Hb.
      rewrite (proj2 (str_suffix_spec "_min" (base ++ "_min"))) in Hb by eauto. discriminate.
Qed.

Example C25_refused_witness :
  filter_df tcols ttable false [("bob", QVal (VInt 1))] = Err ParameterError /\
  Refused tcols ttable false "bob" (QVal (VInt 1)) ParameterError /\
  filter_df tcols ttable false [("time_min", QColl [ICell (VInt 2); IDots])] = Err ParameterError.
Proof.
  split; [reflexivity|]. split; [|reflexivity]. apply R_unknown; try congruence.
  - vm_compute. intuition discriminate.
  - intros [base [H|H]]; apply (f_equal String.length) in H; rewrite slen_app in H; cbn in H; lia.
Qed.

(** * C26: trimming *)
Theorem C26_trim : forall cols rows ign kw out,
  NoDup (map fst kw) ->
  (forall k v, In (k, v) kw -> ~ has_col cols k -> plain_key k) ->
  adjust_segments cols rows ign kw = Ok out ->
  exists P g, out = map g (filter P rows) /\
    (forall r, In r rows -> (P r = true <-> forall k v, In (k, v) kw -> meets cols r k v)) /\
    forall r,
      (forall c, (forall k, In k (map fst kw) -> ~ has_col cols k -> c <> k ++ "_min" /\ c <> k ++ "_max") ->
         val (g r) c = val r c) /\
      (forall k a b, In (k, QColl [a; b]) kw -> ~ has_col cols k -> interval cols k -> trimmed r (g r) k a b) /\
      (f_mod (g r) = true <-> f_mod r = true \/ exists c, val (g r) c <> val r c).
Proof. exact adjust_segments_spec. Qed.
Print Assumptions C26_trim.

Theorem C26_errors : forall cols rows ign kw e,
  (forall k v, In (k, v) kw -> ~ has_col cols k -> plain_key k) ->
  adjust_segments cols rows ign kw = Err e ->
  (exists k v, In (k, v) kw /\ Refused cols rows ign k v e) \/
  (e = ParameterError /\ exists k v, In (k, v) kw /\ interval cols k /\ ~ has_col cols k /\
     (~ has_col cols (k ++ "_step") \/ (v <> QNone /\ forall a b, v <> QColl [a; b]))).
Proof. exact adjust_segments_err. Qed.
Print Assumptions C26_errors.

Theorem C26_success : forall cols rows ign kw out,
  adjust_segments cols rows ign kw = Ok out ->
  (exists m, filter_df cols rows ign kw = Ok m) /\
  forall k v, In (k, v) kw -> interval cols k -> ~ has_col cols k ->
    has_col cols (k ++ "_step") /\ (v = QNone \/ v = QDots \/ exists a b, v = QColl [a; b]).
Proof. exact adjust_segments_ok. Qed.
Print Assumptions C26_success.

Example C26_witness :
  NoDup (map fst [("time", between 5 25)]) /\
  option_map (map (fun r => (get_cell r "time_min", get_cell r "time_max", f_mod r)))
    (match adjust_segments tcols ttable false [("time", between 5 25)] with Ok x => Some x | Err _ => None end)
  = Some [(VInt 5, VInt 10, true); (VInt 11, VInt 20, false); (VInt 21, VInt 25, true)].
Proof. split; [repeat constructor; cbn; tauto|vm_compute; reflexivity]. Qed.

(** * C31: stored paths *)
Theorem C31_roundtrip_partial : forall base rel,
  join_path base (remove_base_path base (join_path base rel)) = join_path base rel <->
  ~ occurs (base ++ "/") rel.
Proof. exact base_path_roundtrip. Qed.
Print Assumptions C31_roundtrip_partial.

Theorem C31_outside : forall base path,
  ~ occurs (base ++ "/") path -> remove_base_path base path = path.
Proof. exact foreign_path. Qed.
Print Assumptions C31_outside.

(** A folder below the directory with the directory's own path as a part of its
    path loses that part: "/data/site/data/f.h5" is stored as "sitef.h5". *)
Theorem C31_repeated_name_refuted : exists base rel,
  remove_base_path base (join_path base rel) = "sitef.h5" /\
  join_path base (remove_base_path base (join_path base rel)) <> join_path base rel.
Proof. exists "/data", "site/data/f.h5". split; [reflexivity|discriminate]. Qed.
Print Assumptions C31_repeated_name_refuted.

Example C31_witness :
  ~ occurs ("/data" ++ "/") "2020/f.h5" /\
  remove_base_path "/data" (join_path "/data" "2020/f.h5") = "2020/f.h5".
Proof.
  split; [|reflexivity]. apply (proj1 (base_path_roundtrip "/data" "2020/f.h5")). reflexivity.
Qed.

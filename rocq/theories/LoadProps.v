(** Properties C61 and C62: reading DASDAE files with keywords, scanning them, and
    loading patches from the rows of their contents.
    Model: LoadModel.v. Specification vocabulary: LoadSpec.v. *)
From Verif Require Import Base BaseFacts FrameProofs FrameProofs5 AttrsProofs CoordModel CoordSpec NdModel NdSpec FrameModel FrameSpec ChunkModel CmModel CmSpec AttrsModel AttrsSpec
  DasdaeModel DasdaeSpec DasdaeProofs2 DasdaeProofs5 DasdaeProofs7 AttrsProofs7 LoadModel LoadSpec LoadProofs LoadProofs2 LoadProofs3 LoadProofs4 LoadProofs5 LoadProofs6 CmProofs CmProps DasdaeProps.
From Coq Require Import Strings.String Strings.Ascii ZifyBool Lia.
Local Open Scope Z_scope.
Local Open Scope list_scope.
Local Open Scope string_scope.

(** ** C61: reading with keywords *)

(** What a keyword asks of the attributes decides which of the file's patches are
    read, and what it asks of coordinates to which positions they are restricted:
    the patches of a plain read, in their order, without those with other attributes,
    restricted on every coordinate a keyword names; what is empty then is left out,
    if any keyword counts. *)
Theorem C61_read : forall A (l : list (string * dpatch A)) f ps kw,
  all_storable l -> replaced l -> save_all l [] = Ok f -> dasdae_read f = Ok ps ->
  (forall p, In p ps -> can_answer kw p /\ can_select kw p) ->
  exists qs, dasdae_read_kw f kw = Ok qs /\ kept kw ps qs.
Proof. intros A. exact read_kept. Qed.
Print Assumptions C61_read.

(** Two patches at 100, 110 and at 500. *)
Definition two : list (string * dpatch Z) := [("a", first_p); ("b", second_p)].
Lemma two_storable : all_storable two.
Proof. intros n p [[= <- <-]|[[= <- <-]|[]]]; (split; [exact first_storable || exact second_storable|apply node_nameb_ok; reflexivity]). Qed.
Lemma two_replaced : replaced two.
Proof.
  intros n p q (l1 & l2 & E & N) I.
  assert (U : forall x y, In (x, y) two -> y = if String.eqb x "a" then first_p else second_p).
  { intros x y [[= <- <-]|[[= <- <-]|[]]]; reflexivity. }
  assert (p = q) as ->. { rewrite (U n q I). apply U. rewrite E. apply in_app_iff. right. now left. } split; apply incl_refl.
Qed.
(** A pattern for a text, numbers, and a range of times. *)
Definition some_kw : rkw :=
  [("network", RVal (AStr "n*")); ("rate", RVal (ANum 4)); ("time", RPair (ANum 105) ANone); ("path", RVal (AStr "here")); ("unheard", RVal (ANum 1))].

Example C61_read_applies : exists f ps q, all_storable two /\ replaced two /\ save_all two [] = Ok f /\ dasdae_read f = Ok ps /\ zlen ps = 2
  /\ (forall p, In p ps -> can_answer some_kw p /\ can_select some_kw p)
  /\ dasdae_read_kw f some_kw = Ok [q] /\ nd_flat (p_data (dp_patch q)) = [10; 11; 12] /\ assoc "time" (cm_coords (dp_cm q)) = Some (trange 110 10 1).
Proof.
  do 3 eexists. split; [exact two_storable|]. split; [exact two_replaced|]. split; [vm_compute; reflexivity|]. split; [vm_compute; reflexivity|].
  split; [reflexivity|]. split.
  - intros p I. assert (K : forall (P : dpatch Z -> Prop) x y, P x -> P y -> In p [x; y] -> P p) by (intros P x y Px Py [<-|[<-|[]]]; assumption).
    split.
    + revert I. apply (K (can_answer some_kw)).
      all: intros k r I Nf; unfold some_kw in I; cbn [In] in I.
      all: destruct I as [E|[E|[E|[E|[E|[]]]]]]; injection E as <- <-.
      all: cbv [attr_askable attr_value value_of]; cbn -[contains_char].
      all: try exact I.
      all: try (exfalso; apply Nf; left; cbn; tauto).
      all: try (intros (a & b & Eq); destruct a as [|? [|? [|? a]]]; cbn in Eq; congruence).
      all: try (split; [intros b|now left]; split; intros Eq; destruct b as [|? [|? [|? [|? [|? [|? [|? [|? b]]]]]]]]; cbn in Eq; congruence).
    + revert I. apply (K (can_select some_kw)).
      all: split; [intros n I; cbn in I; destruct I as [<-|[<-|[<-|[]]]]; reflexivity|apply nodupb_ok; vm_compute; reflexivity| |].
      all: unfold ranges_over.
      1, 3: intros n m d I J; unfold some_kw in I, J; cbn [map fst In] in I, J;
            destruct I as [<-|[<-|[<-|[<-|[<-|[]]]]]]; cbn; try discriminate;
            destruct J as [<-|[<-|[<-|[<-|[<-|[]]]]]]; cbn; (discriminate || reflexivity).
      all: intros n r d c I; unfold some_kw in I; cbn [In] in I;
           destruct I as [E|[E|[E|[E|[E|[]]]]]]; injection E as <- <-; cbn [assoc String.eqb]; intros Hr Hc; vm_compute in Hr; try discriminate;
           vm_compute in Hc; injection Hc as <-.
      all: eexists; exists (Some 105), None; split; [right; eexists; split; reflexivity|]; split; [left; split; reflexivity|];
           split; [intros r [= <-]; cbn; lia|].
      1: exists 100, 110; split; [split; [now left|intros y [<-|[<-|[]]]; cbn; lia]|]; split; [split; [right; now left|intros y [<-|[<-|[]]]; cbn; lia]|reflexivity].
      1: exists 500, 500; split; [split; [now left|intros y [<-|[]]; cbn; lia]|]; split; [split; [now left|intros y [<-|[]]; cbn; lia]|reflexivity].
  - split; [vm_compute; reflexivity|]. split; vm_compute; reflexivity.
Qed.

(** Without keywords it is a plain read. *)
Theorem C61_plain : forall A (f : file A), dasdae_read_kw f [] = dasdae_read f.
Proof. intros A. exact read_plain. Qed.
Print Assumptions C61_plain.
Example C61_plain_applies : exists f ps, save_all two [] = Ok f /\ dasdae_read_kw f [] = Ok ps /\ zlen ps = 2.
Proof. do 2 eexists. split; [vm_compute; reflexivity|]. split; vm_compute; reflexivity. Qed.

(** Keywords that are None, and those that say where a file is, leave no patch out
    and no sample, not even of patches without any. *)
Theorem C61_none : forall A (l : list (string * dpatch A)) f ps kw,
  all_storable l -> replaced l -> save_all l [] = Ok f -> dasdae_read f = Ok ps -> NoDup (map fst kw) ->
  (forall k r, In (k, r) kw -> r = RVal ANone \/ In k ["file_version"; "file_format"; "path"; "_modified"]) ->
  (forall p, In p ps -> plain_names (dp_cm p) /\
     (forall n m d, In n (map fst kw) -> In m (map fst kw) -> ranges_over p n d -> ranges_over p m d -> n = m) /\
     forall k d, In k ["file_version"; "file_format"; "path"; "_modified"] -> ~ ranges_over p k d) ->
  exists qs, dasdae_read_kw f kw = Ok qs /\ Forall2 (selected kw) ps qs.
Proof. intros A. exact read_none. Qed.
Print Assumptions C61_none.
Example C61_none_applies : let kw := [("time", RVal ANone); ("network", RVal ANone); ("path", RVal (AStr "here"))] in
  exists f ps qs, save_all two [] = Ok f /\ dasdae_read f = Ok ps
  /\ (forall p, In p ps -> plain_names (dp_cm p) /\
     (forall n m d, In n (map fst kw) -> In m (map fst kw) -> ranges_over p n d -> ranges_over p m d -> n = m) /\
     forall k d, In k ["file_version"; "file_format"; "path"; "_modified"] -> ~ ranges_over p k d)
  /\ dasdae_read_kw f kw = Ok qs /\ zlen qs = 2.
Proof.
  cbv zeta. do 3 eexists. split; [vm_compute; reflexivity|]. split; [vm_compute; reflexivity|]. split.
  - intros p [<-|[<-|[]]]; (split; [intros n I; cbn in I; destruct I as [<-|[<-|[<-|[]]]]; reflexivity|]); split.
    1, 3: intros n m d I J; cbn [map fst In] in I, J; destruct I as [<-|[<-|[<-|[]]]]; cbn; try discriminate;
          destruct J as [<-|[<-|[<-|[]]]]; cbn; (discriminate || reflexivity).
    all: intros k d I; cbn [In] in I; destruct I as [<-|[<-|[<-|[<-|[]]]]]; unfold ranges_over; cbn; discriminate.
  - split; vm_compute; reflexivity.
Qed.

(** REFUTED: reading with nothing but a question about attributes does not give all the
    patches with those attributes: one without samples, as an empty selection leaves,
    is read by a plain read and by one with None for the keyword, but left out as soon
    as any keyword counts, although the keyword fits and selects nothing
    (io/dasdae/core.py 131-133). *)
Definition hollow : dpatch Z :=
  mk (mkPatch (mkCm ["time"] [("time", M1 (CArr KTime []))] [("time", ["time"])]) (mkNd [0] [])) [("time", AStr "s")]
     [("network", AStr "n"); ("rate", ANum 4)].
Theorem C61_empty_refuted : exists f p, save_all [("a", hollow)] [] = Ok f /\ dasdae_read f = Ok [p]
  /\ dasdae_read_kw f [("network", RVal ANone)] = Ok [p]
  /\ answers [("network", RVal (AStr "n"))] p /\ (forall d, ~ ranges_over p "network" d)
  /\ dasdae_read_kw f [("network", RVal (AStr "n"))] = Ok [].
Proof.
  do 2 eexists. split; [vm_compute; reflexivity|]. split; [vm_compute; reflexivity|]. split; [vm_compute; reflexivity|]. split; [|split].
  - intros k r [E|[]] _. injection E as <- <-. cbv [attr_answers attr_value value_of]. cbn.
    apply FrameProofs.glob_spec. vm_compute. reflexivity.
  - intros d. unfold ranges_over. cbn. discriminate.
  - vm_compute. reflexivity.
Qed.
Print Assumptions C61_empty_refuted.

(** REFUTED: the column names of a file's contents are no keywords for reading it:
    the start of a coordinate, as time_min in get_contents and in the rows that spools
    load from, is a KeyError, since the filter looks for the column time_min in a table
    with the attributes only (io/dasdae/utils.py 160-177, utils/pd.py 150-240). *)
Theorem C61_ends_refuted : exists f, save_all two [] = Ok f
  /\ forall b v, In b ["time"; "distance"; "ch_no"] -> v = ANum 100 \/ v = ANum 3 ->
     dasdae_read_kw f [(b ++ "_min", RVal v)] = Err KeyError /\ dasdae_read_kw f [(b ++ "_max", RVal v)] = Err KeyError.
Proof.
  eexists. split; [vm_compute; reflexivity|]. intros b v [<-|[<-|[<-|[]]]] [-> | ->]; split; vm_compute; reflexivity.
Qed.
Print Assumptions C61_ends_refuted.

(** ** C62: scanning, and loading from the rows of the contents *)

(** A scan tells of every patch in the file what a read gives: one attribute set per
    name, in the order in which the patches are read, with the saved attributes, dims
    and coordinate summaries, the dimensions of every coordinate, and the path, format
    and version it was scanned with. *)
Theorem C62_scan : forall A (l : list (string * dpatch A)) f path version,
  all_storable l -> replaced l -> (forall n p, saved_last l n p -> scannable p) -> save_all l [] = Ok f ->
  exists ns ss ps, dasdae_scan path version f = Ok ss /\ dasdae_read f = Ok ps /\ names_in_order l ns /\
    Forall2 (fun n s => exists p, saved_last l n p /\ describes p path version s) ns ss /\
    Forall2 (fun n p' => exists p, saved_last l n p /\ read_back p p') ns ps.
Proof. intros A. exact scan_all. Qed.
Print Assumptions C62_scan.

Definition sub_free (w s : string) : bool := negb (str_contains w s).
Definition scannableb {A} (p : dpatch A) : bool :=
  let names := map fst (cm_coords (dp_cm p)) in
  forallb (apartb (names_of (dp_attrs p))) ["path"; "file_format"; "file_version"] &&
  forallb (fun n => apartb (names_of (dp_attrs p)) ("_cdims_" ++ n) && sub_free "_attrs_" ("_cdims_" ++ n)) names &&
  forallb (fun k => negb (String.eqb k "_dims") && forallb (fun n => negb (String.eqb k ("_cdims_" ++ n))) names) (map fst (a_vals (dp_attrs p))).
Lemma scannableb_ok {A} (p : dpatch A) : scannableb p = true -> scannable p.
Proof.
  unfold scannableb. intros H. apply andb_true_iff in H as (H & H3). apply andb_true_iff in H as (H1 & H2). rewrite forallb_forall in H1, H2, H3. split.
  - intros k I. apply apartb_ok. now apply H1.
  - intros n I. specialize (H2 n I). apply andb_true_iff in H2 as (G1 & G2). split; [now apply apartb_ok|]. intros C. apply str_contains_spec in C. unfold sub_free in G2. rewrite C in G2. discriminate.
  - intros k I. specialize (H3 k I). apply andb_true_iff in H3 as (G1 & G2). rewrite forallb_forall in G2. split; [intros ->; discriminate|]. intros n J ->. specialize (G2 n J). rewrite String.eqb_refl in G2. discriminate.
Qed.
Lemma two_scannable n p : saved_last two n p -> scannable p.
Proof.
  intros (l1 & l2 & E & _). assert (I : In (n, p) two) by (rewrite E; apply in_app_iff; right; now left).
  destruct I as [[= <- <-]|[[= <- <-]|[]]]; apply scannableb_ok; vm_compute; reflexivity.
Qed.
Example C62_scan_applies : exists f ss s, all_storable two /\ replaced two /\ (forall n p, saved_last two n p -> scannable p) /\ save_all two [] = Ok f
  /\ dasdae_scan "here" "1" f = Ok ss /\ zlen ss = 2 /\ znth ss 1 = Some s /\ value_of s "path" = Some (AStr "here") /\ value_of s "_cdims_ch_no" = Some (AStr "distance")
  /\ value_of s "network" = Some (AStr "n").
Proof.
  do 3 eexists. split; [exact two_storable|]. split; [exact two_replaced|]. split; [exact two_scannable|]. split; [vm_compute; reflexivity|].
  split; [vm_compute; reflexivity|]. split; [reflexivity|]. split; [reflexivity|]. split; [reflexivity|]. split; reflexivity.
Qed.

(** REFUTED: loading from a row of the contents does not give the patch the row
    describes when an earlier patch of the file shares its attributes and part of its
    range: the spool keeps no name of the patch in its row, reads the file again with
    the row as keywords and takes the first patch (clients/filespool.py 64-74,
    core/spool.py 552-573). Here the times are 100, 110 and 110, 120: the row of the
    second patch loads the last sample of the first. *)
Definition flat_cm (t : mcoord) : cman := mkCm ["time"] [("time", t)] [("time", ["time"])].
Definition flat_p (t : mcoord) (data : list Z) (station : string) : dpatch Z :=
  mk (mkPatch (flat_cm t) (mkNd [zlen data] data)) [("time", AStr "s")] [("station", AStr station)].
Theorem C62_overlap_refuted : let p := flat_p (trange 100 10 2) [1; 2] "A" in let q := flat_p (trange 110 10 2) [8; 9] "A" in
  exists f s1 s2 q', all_storable [("a", p); ("b", q)] /\ save_all [("a", p); ("b", q)] [] = Ok f /\ dasdae_scan "here" "1" f = Ok [s1; s2]
  /\ describes q "here" "1" s2 /\ load_row f (contents_row s2) = Ok q' /\ nd_flat (p_data (dp_patch q')) = [2].
Proof.
  cbv zeta. do 4 eexists. split; [|split; [vm_compute; reflexivity|split; [vm_compute; reflexivity|split; [|split; [vm_compute; reflexivity|reflexivity]]]]].
  - intros n p [[= <- <-]|[[= <- <-]|[]]]; (split; [apply storableb_ok; [reflexivity|vm_compute; reflexivity]|apply node_nameb_ok; reflexivity]).
  - assert (S : storable (flat_p (trange 110 10 2) [8; 9] "A")) by (apply storableb_ok; [reflexivity|vm_compute; reflexivity]).
    assert (C : scannable (flat_p (trange 110 10 2) [8; 9] "A")) by (apply scannableb_ok; vm_compute; reflexivity).
    destruct (scan_describes _ "here" "1" S C) as (s & Es & D). vm_compute in Es. injection Es as <-. exact D.
Qed.
Print Assumptions C62_overlap_refuted.

(** REFUTED: nor when its own attributes are patterns that match those of an earlier
    patch: stations "A1" and "A?" (utils/pd.py 150-240 reads texts as patterns). *)
Theorem C62_pattern_refuted : let p := flat_p (trange 100 10 2) [1; 2] "A1" in let q := flat_p (trange 100 10 2) [8; 9] "A?" in
  exists f s1 s2 q', all_storable [("a", p); ("b", q)] /\ save_all [("a", p); ("b", q)] [] = Ok f /\ dasdae_scan "here" "1" f = Ok [s1; s2]
  /\ describes q "here" "1" s2 /\ load_row f (contents_row s2) = Ok q' /\ value_of (dp_attrs q') "station" = Some (AStr "A1") /\ nd_flat (p_data (dp_patch q')) = [1; 2].
Proof.
  cbv zeta. do 4 eexists. split; [|split; [vm_compute; reflexivity|split; [vm_compute; reflexivity|split; [|split; [vm_compute; reflexivity|split; reflexivity]]]]].
  - intros n p [[= <- <-]|[[= <- <-]|[]]]; (split; [apply storableb_ok; [reflexivity|vm_compute; reflexivity]|apply node_nameb_ok; reflexivity]).
  - assert (S : storable (flat_p (trange 100 10 2) [8; 9] "A?")) by (apply storableb_ok; [reflexivity|vm_compute; reflexivity]).
    assert (C : scannable (flat_p (trange 100 10 2) [8; 9] "A?")) by (apply scannableb_ok; vm_compute; reflexivity).
    destruct (scan_describes _ "here" "1" S C) as (s & Es & D). vm_compute in Es. injection Es as <-. exact D.
Qed.
Print Assumptions C62_pattern_refuted.

(** Loading from a row of the contents gives the patch the row describes - its
    samples, labels, units and attributes - if every patch under an earlier name
    differs in an attribute or lies apart along a dimension. *)
Theorem C62_load : forall A (l : list (string * dpatch A)) f path version ss,
  all_storable l -> replaced l -> (forall n p, saved_last l n p -> scannable p /\ row_plain p) ->
  (forall n m p r, saved_last l n p -> saved_last l m r -> row_fits p r) ->
  save_all l [] = Ok f -> dasdae_scan path version f = Ok ss ->
  exists ns, names_in_order l ns /\ List.length ss = List.length ns /\
    forall i n s p, znth ns i = Some n -> znth ss i = Some s -> saved_last l n p ->
      (forall j m r, (j < i)%Z -> znth ns j = Some m -> saved_last l m r -> other_than p r) ->
      exists q, load_row f (contents_row s) = Ok q /\ loaded p q.
Proof. intros A. exact load_described. Qed.
Print Assumptions C62_load.

Lemma attr_keys (a : attrs) k : tidy a -> attr_value a k <> None -> In k (map fst (d_vals (dump a))).
Proof. intros T H. rewrite <- dump_value in H by exact T. apply assoc_In. destruct (assoc k (d_vals (dump a))); [eauto|congruence]. Qed.
Definition three_l : list (string * dpatch Z) :=
  [("a", flat_p (trange 100 10 2) [1; 2] "A"); ("b", flat_p (trange 100 10 2) [3; 4] "B"); ("c", flat_p (trange 500 10 2) [8; 9] "A")].
Lemma three_in n p : saved_last three_l n p -> In (n, p) three_l.
Proof. intros (l1 & l2 & E & _). rewrite E. apply in_app_iff. right. now left. Qed.
Lemma three_stored n p : In (n, p) three_l -> storable p.
Proof. intros [[= <- <-]|[[= <- <-]|[[= <- <-]|[]]]]; (apply storableb_ok; [reflexivity|vm_compute; reflexivity]). Qed.
Lemma three_plain n p : In (n, p) three_l -> row_plain p.
Proof.
  intros I. assert (T : tidy (dp_attrs p)) by (apply (st_family _ (three_stored n p I)); now left).
  assert (Co : exists z, cm_coords (dp_cm p) = [("time", trange z 10 2)]) by (destruct I as [[= <- <-]|[[= <- <-]|[[= <- <-]|[]]]]; eexists; reflexivity). destruct Co as (z & Co).
  assert (Dm : cm_dmap (dp_cm p) = [("time", ["time"])]) by (destruct I as [[= <- <-]|[[= <- <-]|[[= <- <-]|[]]]]; reflexivity).
  assert (Lz : labels_of (trange z 10 2) <> []) by (destruct I as [[= <- <-]|[[= <- <-]|[[= <- <-]|[]]]]; vm_compute in Co; injection Co as <-; vm_compute; discriminate).
  assert (Lk : forall k m, assoc k (cm_coords (dp_cm p)) = Some m -> m = trange z 10 2) by (intros k m E; rewrite Co in E; cbn in E; destruct (String.eqb k "time"); congruence).
  constructor.
  - rewrite Co. intros n0 [<-|[]]. split; [|split; discriminate]. intros C. apply str_contains_spec in C. discriminate.
  - intros k H. apply (attr_keys _ _ T) in H. assert (W : forallb whole_key (map fst (d_vals (dump (dp_attrs p)))) = true) by (destruct I as [[= <- <-]|[[= <- <-]|[[= <- <-]|[]]]]; vm_compute; reflexivity).
    rewrite forallb_forall in W. specialize (W k H). unfold whole_key in W. apply andb_true_iff in W as (W1 & W2). apply negb_true_iff in W1, W2. intros b.
    split; intros ->; [assert (X : str_suffix "_min" (b ++ "_min") = true)|assert (X : str_suffix "_max" (b ++ "_max") = true)]; try (apply str_suffix_spec; now exists b); congruence.
  - intros n0 J. rewrite Co in J. destruct J as [<-|[]]. destruct I as [[= <- <-]|[[= <- <-]|[[= <- <-]|[]]]]; vm_compute; reflexivity.
  - intros n0 d H. unfold ranges_over in H. rewrite Dm in H. cbn in H. destruct (String.eqb_spec n0 "time") as [E|]; [|discriminate]. congruence.
  - intros k m E. rewrite (Lk k m E). split; [exact Logic.I|]. split; [intros []|]. exact Lz.
  - intros k g E. apply Lk in E. injection E as ->. reflexivity.
Qed.
Lemma three_fits n m p r : In (n, p) three_l -> In (m, r) three_l -> row_fits p r.
Proof.
  intros I J. assert (T : tidy (dp_attrs p)) by (apply (st_family _ (three_stored n p I)); now left). constructor.
  - assert (Co : map fst (cm_coords (dp_cm r)) = ["time"]) by (destruct J as [[= <- <-]|[[= <- <-]|[[= <- <-]|[]]]]; reflexivity). rewrite Co. intros n0 k [<-|[]] H St. apply str_prefix_starts in St.
    destruct H as [H|[<-|[<-|[<-|[]]]]]; [|discriminate|discriminate|discriminate]. apply (attr_keys _ _ T) in H.
    assert (W : forallb (fun k => negb (str_prefix "time" k)) (map fst (d_vals (dump (dp_attrs p)))) = true) by (destruct I as [[= <- <-]|[[= <- <-]|[[= <- <-]|[]]]]; vm_compute; reflexivity).
    rewrite forallb_forall in W. specialize (W k H). rewrite St in W. discriminate.
  - intros k x H Ne. assert (Ik : In k (map fst (d_vals (dump (dp_attrs p))))) by (apply (attr_keys _ _ T); congruence).
    assert (Cb : forall pat, str_contains "[" pat = false -> ~ contains_char "[" pat).
    { intros pat E (a & b & ->). assert (X : AttrsSpec.contains "[" (a ++ String "[" b)) by (exists a, b; reflexivity). apply str_contains_spec in X. congruence. }
    destruct I as [[= <- <-]|[[= <- <-]|[[= <- <-]|[]]]]; vm_compute in Ik; repeat (destruct Ik as [Ik|Ik]; [subst k|]); try destruct Ik; vm_compute in H; injection H as <-;
      try (exfalso; apply Ne; left; cbn; tauto; fail);
      destruct J as [[= <- <-]|[[= <- <-]|[[= <- <-]|[]]]]; vm_compute; try exact Logic.I; apply Cb; reflexivity.
Qed.
Example C62_load_applies : exists f ss s1 s2 q1 q2,
  all_storable three_l /\ replaced three_l /\ (forall n p, saved_last three_l n p -> scannable p /\ row_plain p)
  /\ (forall n m p r, saved_last three_l n p -> saved_last three_l m r -> row_fits p r)
  /\ save_all three_l [] = Ok f /\ dasdae_scan "here" "1" f = Ok ss /\ znth ss 1 = Some s1 /\ znth ss 2 = Some s2
  /\ other_than (flat_p (trange 100 10 2) [3; 4] "B") (flat_p (trange 100 10 2) [1; 2] "A")
  /\ other_than (flat_p (trange 500 10 2) [8; 9] "A") (flat_p (trange 100 10 2) [1; 2] "A")
  /\ other_than (flat_p (trange 500 10 2) [8; 9] "A") (flat_p (trange 100 10 2) [3; 4] "B")
  /\ load_row f (contents_row s1) = Ok q1 /\ nd_flat (p_data (dp_patch q1)) = [3; 4]%Z
  /\ load_row f (contents_row s2) = Ok q2 /\ nd_flat (p_data (dp_patch q2)) = [8; 9]%Z.
Proof.
  do 6 eexists. split; [|split; [|split; [|split; [|split; [vm_compute; reflexivity|split; [vm_compute; reflexivity|split; [vm_compute; reflexivity|split; [vm_compute; reflexivity|]]]]]]]].
  - intros n p I. split; [exact (three_stored n p I)|]. destruct I as [[= <- <-]|[[= <- <-]|[[= <- <-]|[]]]]; apply node_nameb_ok; reflexivity.
  - intros n p q L J. apply three_in in L.
    assert (U : forall x y, In (x, y) three_l -> y = if String.eqb x "a" then flat_p (trange 100 10 2) [1; 2]%Z "A" else if String.eqb x "b" then flat_p (trange 100 10 2) [3; 4]%Z "B" else flat_p (trange 500 10 2) [8; 9]%Z "A").
    { intros x y [[= <- <-]|[[= <- <-]|[[= <- <-]|[]]]]; reflexivity. }
    rewrite (U n q J), (U n p L). split; apply incl_refl.
  - intros n p L. apply three_in in L. split; [|exact (three_plain n p L)]. destruct L as [[= <- <-]|[[= <- <-]|[[= <- <-]|[]]]]; apply scannableb_ok; vm_compute; reflexivity.
  - intros n m p r L M. apply three_in in L, M. exact (three_fits n m p r L M).
  - assert (Nx : ~ exempt "station") by (intros [H|(t & H)]; [cbn in H; intuition discriminate|discriminate]).
    assert (Far : forall d st, other_than (flat_p (trange 500 10 2) [8; 9]%Z "A") (flat_p (trange 100 10 2) d st)).
    { intros d st. right. exists "time"%string. do 2 eexists. split; [reflexivity|]. split; [now left|]. split; [reflexivity|]. intros y Iy. left. intros x Ix. vm_compute in Iy, Ix.
      destruct Iy as [<-|[<-|[]]]; destruct Ix as [<-|[<-|[]]]; reflexivity. }
    split; [|split; [apply Far|split; [apply Far|split; [vm_compute; reflexivity|split; [reflexivity|split; [vm_compute; reflexivity|reflexivity]]]]]].
    left. exists "station"%string, (AStr "B"). split; [reflexivity|]. split; [exact Nx|]. split; [discriminate|]. split; [discriminate|]. cbn. intros M. inversion M.
Qed.

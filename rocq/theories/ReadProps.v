(** Theorems about the Febus, TDMS, Terra15, SEGY and Sintela readers. *)
From Verif Require Import Base CoordModel CoordSpec ReadModel ReadSpec
  ReadProofs ReadProofs2 ReadProofs3 ReadProofs4 ReadProofs5 ReadProofs6.

(** * C70: Febus *)

(** Without a time filter a zone is read as recorded: the blocks' own rows one
    after the other, evenly labelled, cut to the requested distances. *)
Theorem C70_febus : forall z n dist, zone_ok z n ->
  exists out, read_zone z None dist = Ok out /\
              part_of (zone_times z n) (zone_dists z) (zone_rows z n) None dist out.
Proof. exact read_zone_all. Qed.
Print Assumptions C70_febus.

(** With a time filter the labels are one step later than without, and the
    filter is applied to the late labels. *)
Theorem C70_time_labels : forall z n b, zone_ok z n -> ordered b ->
  exists out, read_zone z (Some b) None = Ok out /\
    part_of (map (fun t => t + z_step z) (zone_times z n)) (zone_dists z) (zone_rows z n) (Some b) None out.
Proof. intros z n b Hz Hb. exact (read_zone_time z n b Hz Hb). Qed.
Print Assumptions C70_time_labels.

(** Whenever the distance filter keeps some but not all channels, a time filter
    next to it leaves nothing: an error, or no patch. *)
Theorem C70_both : forall z n b d, zone_ok z n ->
  zlen (filter (wanted (Some d)) (zone_dists z)) < z_shape2 z ->
  forall rd, read_zone z (Some b) (Some d) <> Ok (Some rd).
Proof. exact read_zone_both. Qed.
Print Assumptions C70_both.

(** The zones of a file are read in turn. *)
Theorem C70_file : forall zs ns dist, Forall2 zone_ok zs ns ->
  exists outs, read_febus zs None dist = Ok (somes outs) /\
    Forall2 (fun zn out => part_of (zone_times (fst zn) (snd zn)) (zone_dists (fst zn))
                             (zone_rows (fst zn) (snd zn)) None dist out) (combine zs ns) outs.
Proof. exact read_febus_ok. Qed.
Print Assumptions C70_file.

(** Two blocks of four rows, two of them its own; three channels. *)
Definition zone_ex : zone :=
  mkZone 1000 10 0 false 0 0 100 0 5 4 3
    [[[1; 2; 3]; [4; 5; 6]; [7; 8; 9]; [10; 11; 12]];
     [[7; 8; 9]; [10; 11; 12]; [13; 14; 15]; [16; 17; 18]]].
Lemma zone_ex_ok : zone_ok zone_ex 2.
Proof.
  constructor; cbn; unfold fair_step; try lia; try discriminate.
  intros block [<-|[<-|[]]]; (split; [reflexivity|]); intros row Hr; cbn in Hr;
    decompose [or] Hr; subst; try reflexivity; contradiction.
Qed.

(** A time filter gives the samples of the requested times. *)
Theorem C70_time_refuted : exists z n b, zone_ok z n /\ ordered b /\ forall out,
  read_zone z (Some b) None = Ok out ->
  ~ part_of (zone_times z n) (zone_dists z) (zone_rows z n) (Some b) None out.
Proof.
  exists zone_ex, 2, (Some 1010, Some 1020). split; [exact zone_ex_ok|]. split; [cbn; lia|].
  intros out E. vm_compute in E. injection E as <-. intros (_ & _ & H & _). vm_compute in H. discriminate.
Qed.
Print Assumptions C70_time_refuted.

(** A time and a distance filter together give the samples in both. *)
Theorem C70_both_refuted : exists z n b d, zone_ok z n /\
  filter (wanted (Some b)) (zone_times z n) <> [] /\ filter (wanted (Some d)) (zone_dists z) <> [] /\
  read_zone z (Some b) (Some d) = Err ValueError.
Proof.
  exists zone_ex, 2, (Some 1000, Some 2000), (Some 0, Some 0). split; [exact zone_ex_ok|].
  split; [vm_compute; discriminate|]. split; [vm_compute; discriminate|]. vm_compute. reflexivity.
Qed.
Print Assumptions C70_both_refuted.

Example C70_witness :
  zone_times zone_ex 2 = [1010; 1020; 1030; 1040] /\
  zone_rows zone_ex 2 = [[4; 5; 6]; [7; 8; 9]; [10; 11; 12]; [13; 14; 15]] /\
  exists rd, read_zone zone_ex None (Some (Some 0, Some 7)) = Ok (Some rd) /\
    shows rd [1010; 1020; 1030; 1040] [0; 5] [[4; 5]; [7; 8]; [10; 11]; [13; 14]].
Proof.
  split; [vm_compute; reflexivity|]. split; [vm_compute; reflexivity|].
  eexists. split; [vm_compute; reflexivity|]. vm_compute. repeat split; reflexivity.
Qed.
Example C70_time_witness : exists rd,
  read_zone zone_ex (Some (Some 1015, Some 1035)) None = Ok (Some rd) /\
  shows rd [1020; 1030] [0; 5; 10] [[4; 5; 6]; [7; 8; 9]].
Proof. eexists. split; [vm_compute; reflexivity|]. vm_compute. repeat split; reflexivity. Qed.

(** * C71: TDMS *)

(** Interleaved samples of one segment are read as recorded. *)
Theorem C71_interleaved : forall nch chunk rows t0 dt d dists time dist,
  0 < nch -> 0 < chunk -> rows <> [] -> width nch rows -> fair_step dt ->
  even_coord d dists -> zlen dists = nch ->
  exists out, tdms_read false t0 dt nch chunk (zlen rows * nch) d [interleaved rows] time dist = Ok out /\
              part_of (progression t0 dt (zlen rows)) dists rows time dist out.
Proof.
  intros. apply tdms_read_one; try assumption. apply segment_interleaved; assumption.
Qed.
Print Assumptions C71_interleaved.

(** Samples stored by chunks are read as recorded if there is at most one
    complete chunk and then an incomplete one. *)
Theorem C71_chunks_partial : forall nch chunk e k rows t0 dt d dists time dist,
  0 < nch -> 0 < chunk -> 0 < e < chunk -> 0 <= k <= 1 -> zlen rows = k * chunk + e ->
  width nch rows -> fair_step dt -> even_coord d dists -> zlen dists = nch ->
  exists out, tdms_read true t0 dt nch chunk (zlen rows * nch) d [in_chunks nch chunk rows] time dist = Ok out /\
              part_of (progression t0 dt (zlen rows)) dists rows time dist out.
Proof.
  intros nch chunk e k rows t0 dt d dists time dist Hn Hc He Hk L W Hs Hd Ld.
  apply tdms_read_one; try assumption.
  - intros ->. change (zlen (@nil (list Z))) with 0 in L. nia.
  - apply (segment_one_chunk nch chunk e Hn Hc He k); assumption.
Qed.
Print Assumptions C71_chunks_partial.

(** Which sample ends up where when there are [k] complete chunks: the samples of
    the chunks are dealt out in turn. *)
Theorem C71_order : forall nch chunk e k rows, 0 < nch -> 0 < chunk -> 0 < e < chunk -> 0 <= k ->
  zlen rows = k * chunk + e -> width nch rows ->
  exists out, segment_data true nch chunk (in_chunks nch chunk rows) = Ok (Some (out, zlen rows)) /\
    zlen out = zlen rows /\
    (forall b s, 0 <= b < k -> 0 <= s < chunk -> znth out (s * k + b) = znth rows (b * chunk + s)) /\
    (forall i, k * chunk <= i -> znth out i = znth rows i).
Proof. intros nch chunk e k rows Hn Hc He Hk. exact (segment_chunks nch chunk e Hn Hc He k rows Hk). Qed.
Print Assumptions C71_order.

(** Samples stored by chunks come back in order. *)
Theorem C71_order_refuted : exists nch chunk rows out, width nch rows /\
  segment_data true nch chunk (in_chunks nch chunk rows) = Ok (Some (out, zlen rows)) /\ out <> rows.
Proof.
  exists 1, 2, [[1]; [2]; [3]; [4]; [5]]. eexists. split.
  - intros row Hr. cbn in Hr. decompose [or] Hr; subst; try reflexivity. contradiction.
  - split; [vm_compute; reflexivity|]. vm_compute. discriminate.
Qed.
Print Assumptions C71_order_refuted.

(** Complete chunks only: never readable. *)
Theorem C71_complete_refuted : forall nch chunk k raw rest,
  0 < nch -> 0 < chunk -> 0 <= k -> zlen raw = k * chunk * nch ->
  tdms_data true nch chunk (raw :: rest) = Err TypeError.
Proof. exact tdms_exact. Qed.
Print Assumptions C71_complete_refuted.

(** A second segment goes next to the first one, not after it; if it has another
    length reading fails. *)
Theorem C71_segments_refuted : forall nch chunk rows1 rows2,
  0 < nch -> 0 < chunk -> rows1 <> [] -> rows2 <> [] -> width nch rows1 -> width nch rows2 ->
  tdms_data false nch chunk [interleaved rows1; interleaved rows2] =
  if zlen rows1 =? zlen rows2
  then Ok (map (fun p : list Z * list Z => fst p ++ snd p) (combine rows1 rows2), zlen rows1 + zlen rows2)
  else Err ValueError.
Proof. exact tdms_two. Qed.
Print Assumptions C71_segments_refuted.

Example C71_witness :
  in_chunks 2 3 [[1; 10]; [2; 20]; [3; 30]; [4; 40]] = [1; 2; 3; 10; 20; 30; 4; 40] /\
  segment_data true 2 3 [1; 2; 3; 10; 20; 30; 4; 40] = Ok (Some ([[1; 10]; [2; 20]; [3; 30]; [4; 40]], 4)) /\
  segment_data false 2 3 [1; 10; 2; 20] = Ok (Some ([[1; 10]; [2; 20]], 2)) /\
  exists rd, tdms_read false 100 10 2 3 6 (CRange (mkRange KInt 0 10 5 2)) [[1; 10; 2; 20; 3; 30]]
               (Some (Some 105, None)) (Some (Some 5, None)) = Ok (Some rd) /\
    shows rd [110; 120] [5] [[20]; [30]].
Proof.
  repeat split; try (vm_compute; reflexivity).
  eexists. split; [vm_compute; reflexivity|]. vm_compute. repeat split; reflexivity.
Qed.

(** * C72: Terra15 *)

(** With snapped times the rows that were recorded are read, an incomplete last
    block included, cut to the requested times and distances. *)
Theorem C72_terra15 : forall times good first last d dists rows time dist,
  recorded times good first last -> 2 <= zlen good ->
  let n := zlen good in
  let step := round_half_even (last - first) (n - 1) in
  fair_step step -> even_coord d dists -> width (zlen dists) rows -> n <= zlen rows ->
  exists out, terra_read times d (mkGrid (zlen dists) rows) true time dist = Ok out /\
    part_of (progression first step n) dists (firstn (Z.to_nat n) rows) time dist out.
Proof. exact terra_read_ok. Qed.
Print Assumptions C72_terra15.

(** Without snapping, an incomplete last block and a time filter cannot be
    combined. *)
Theorem C72_unsnapped_refuted : exists times good first last d dists rows time,
  recorded times good first last /\ 2 <= zlen good /\ even_coord d dists /\ width (zlen dists) rows /\
  zlen rows = zlen times /\
  terra_read times d (mkGrid (zlen dists) rows) false (Some time) None = Err AttributeError.
Proof.
  exists [10; 20; 30; 0], [10; 20; 30], 10, 30, (CRange (mkRange KInt 0 2 1 2)), [0; 1],
    [[1; 2]; [3; 4]; [5; 6]; [0; 0]], (Some 15, Some 25).
  split.
  { constructor; try reflexivity.
    - exists 1%nat. reflexivity.
    - intros t Ht. cbn in Ht. lia.
    - lia. }
  split; [cbn; lia|]. split.
  { eexists. split; [reflexivity|]. unfold wf_range, fair_step. cbn. repeat split; lia. }
  split; [intros row Hr; cbn in Hr; decompose [or] Hr; subst; try reflexivity; contradiction|].
  split; [reflexivity|]. vm_compute. reflexivity.
Qed.
Print Assumptions C72_unsnapped_refuted.

Example C72_witness :
  exists rd, terra_read [10; 20; 30; 0] (CRange (mkRange KInt 0 2 1 2))
    (mkGrid 2 [[1; 2]; [3; 4]; [5; 6]; [0; 0]]) true (Some (Some 15, None)) None = Ok (Some rd) /\
    shows rd [20; 30] [0; 1] [[3; 4]; [5; 6]].
Proof. eexists. split; [vm_compute; reflexivity|]. vm_compute. repeat split; reflexivity. Qed.

(** * C73: SEGY *)

(** Reading a file cut to the requested times and channels, as long as there is
    a requested channel. *)
Theorem C73_read : forall f time channel, segy_ok f ->
  let times := progression (sg_start f) (1000 * sg_interval f) (sg_count f) in
  let chans := zrange (zlen (sg_traces f)) in
  filter (wanted channel) chans <> [] ->
  exists out, segy_read f time channel = Ok out /\
    part_of times chans (of_columns (sg_count f) (sg_traces f)) time channel out.
Proof. exact segy_read_ok. Qed.
Print Assumptions C73_read.

(** Nothing is returned when no channel is requested: an error instead. *)
Theorem C73_no_channel_refuted : forall f time channel, segy_ok f ->
  filter (wanted channel) (zrange (zlen (sg_traces f))) = [] ->
  segy_read f time channel = Err ValueError.
Proof. exact segy_read_none. Qed.
Print Assumptions C73_no_channel_refuted.

(** Writing and reading back keeps samples and channel numbers; the start is cut
    to the second, the step is off by at most 3 ns. *)
Theorem C73_round_trip : forall r nch rows f,
  wf_range r -> 2 <= r_len r -> 3 < r_step r < 19999999000 -> 1 <= nch ->
  width nch rows -> zlen rows = r_len r -> segy_write r nch rows = Ok f ->
  exists rd, segy_read f None None = Ok (Some rd) /\
    shows rd (progression (r_min r / 1000000000 * 1000000000) (1000 * round_half_even (r_step r) 1000) (r_len r))
             (zrange nch) rows /\
    Z.abs (1000 * round_half_even (r_step r) 1000 - r_step r) <= 3.
Proof. exact segy_round. Qed.
Print Assumptions C73_round_trip.

(** Times survive being written and read back. *)
Theorem C73_start_refuted : exists r nch rows f rd,
  wf_range r /\ width nch rows /\ zlen rows = r_len r /\ segy_write r nch rows = Ok f /\
  segy_read f None None = Ok (Some rd) /\ c_values (rd_time rd) <> map Some (r_values r).
Proof.
  exists (mkRange KTime 5500000000 5502000000 1000000 2), 1, [[7]; [8]]. eexists. eexists.
  split; [unfold wf_range; cbn; repeat split; lia|].
  split; [intros row Hr; cbn in Hr; decompose [or] Hr; subst; try reflexivity; contradiction|].
  split; [reflexivity|]. split; [vm_compute; reflexivity|]. split; [vm_compute; reflexivity|].
  vm_compute. discriminate.
Qed.
Print Assumptions C73_start_refuted.

Example C73_witness :
  exists rd, segy_read (mkSegy 5000000000 1000 3 [[1; 2; 3]; [4; 5; 6]]) (Some (Some 5001000000, None)) (Some (None, Some 0)) = Ok (Some rd) /\
    shows rd [5001000000; 5002000000] [0] [[2]; [3]].
Proof. eexists. split; [vm_compute; reflexivity|]. vm_compute. repeat split; reflexivity. Qed.
Example C73_write_witness :
  segy_write (mkRange KTime 5500000000 5502000000 1000000 2) 2 [[7; 70]; [8; 80]]
  = Ok (mkSegy 5000000000 1000 2 [[7; 8]; [70; 80]]).
Proof. vm_compute. reflexivity. Qed.

(** * C74: Sintela binary *)

(** The rows of all packets in order; the headers are left out. *)
Theorem C74_packets : forall header ns nch ps, 0 <= header -> 0 < ns -> 0 < nch ->
  (forall p, In p ps -> zlen (fst p) = header /\ zlen (snd p) = ns /\ width nch (snd p)) ->
  sintela_data header ns nch (concat (map packet_words ps)) = Ok (mkGrid nch (concat (map snd ps))).
Proof. exact sintela_ok. Qed.
Print Assumptions C74_packets.

(** Only a whole number of packets is read. *)
Theorem C74_whole : forall header ns nch words, 0 <= header -> 0 < ns -> 0 < nch ->
  (exists g, sintela_data header ns nch words = Ok g) -> zlen words mod (header + ns * nch) = 0.
Proof. exact sintela_cut. Qed.
Print Assumptions C74_whole.

Example C74_witness :
  sintela_data 2 2 2 [99; 98; 1; 2; 3; 4; 99; 98; 5; 6; 7; 8] = Ok (mkGrid 2 [[1; 2]; [3; 4]; [5; 6]; [7; 8]]) /\
  sintela_data 2 2 2 [99; 98; 1; 2; 3; 4; 99] = Err ValueError.
Proof. split; vm_compute; reflexivity. Qed.

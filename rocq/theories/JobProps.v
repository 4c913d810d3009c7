(** Property C95: functions mapped over spools. Model: JobModel.v. *)
From Verif Require Import Base BaseFacts CoordModel ArgSort FrameModel ChunkModel SpoolModel SpoolSpec SpoolProofs SpoolProofs4 SpoolProofs5 SpoolProofs6 SpoolProofs7 SpoolProps JobModel JobSpec JobProofs.
From Coq Require Import Strings.String Lia.
Local Open Scope Z_scope.
Local Open Scope list_scope.
Local Open Scope string_scope.

(** Without a client: the values for all entries, in order, but those without a patch. *)
Theorem C95_map : forall P T fetch (func : P -> result T) cpus s size fuel out, spool_map fetch fuel None cpus func s size = Some (Ok out) <-> mapped fetch func s out.
Proof.
  intros P T fetch func cpus s size fuel out. rewrite <- (plain_each fetch func s out : _ <-> mapped _ _ _ _). cbn [spool_map]. split; [intros [= ->]; reflexivity|intros ->; reflexivity].
Qed.
Print Assumptions C95_map.
(** Entries that cannot be put together are errors and not left out. *)
Theorem C95_entries : forall P (fetch : kwargs -> list part -> option (result P)) s i, (forall e, sp_parts s i = Err e -> entry_patch fetch s i = Some (Err e)) /\
  (forall parts, sp_parts s i = Ok parts -> entry_patch fetch s i = fetch (sp_sel s) parts).
Proof. intros P fetch s i. unfold entry_patch. split; intros x ->; reflexivity. Qed.
Print Assumptions C95_entries.
(** With a client the outcome is the same, errors included, whatever the size of the pieces,
    if no two entries share a source. *)
Theorem C95_client : forall P T fetch (func : P -> result T) client cpus s size, NoDup (map fst (sp_src s)) -> NoDup (map n_src (sp_ins s)) -> sourced s ->
  orderly client -> 0 < cpus -> (forall k, size = Some k -> 0 < k) ->
  forall fuel, sp_len s <= Z.of_nat fuel -> spool_map fetch fuel (Some client) cpus func s size = spool_map fetch fuel None cpus func s size.
Proof. exact @client_map. Qed.
Print Assumptions C95_client.
(** No more pieces than processors if no size is given. *)
Theorem C95_pieces : forall s cpus, sourced s -> 0 < cpus -> 0 < sp_len s -> exists pieces,
  (forall fuel, sp_len s <= Z.of_nat fuel -> sp_split fuel s (Some (piece_size (sp_len s) cpus None)) None = Some (Ok pieces)) /\ 0 < zlen pieces <= cpus.
Proof. exact client_pieces. Qed.
Print Assumptions C95_pieces.
(** A size that is not positive never ends. *)
Theorem C95_never_ends : forall P T fetch (func : P -> result T) client cpus s k, k <= 0 -> 0 < sp_len s -> sourced s ->
  forall fuel, spool_map fetch fuel (Some client) cpus func s (Some k) = None.
Proof. exact @client_never. Qed.
Print Assumptions C95_never_ends.

(** Times of the samples of one entry, as in [sp_samples]; entries without samples have no
    patch. *)
Definition times (sel : kwargs) (parts : list part) : option (result (list Z)) :=
  match List.concat (map (load_part "time" tload) parts) with [] => None | l => Some (Ok (map fst l)) end.
Definition count (l : list Z) : result Z := Ok (zlen l).
Definition in_turn {T} (f : spool -> result (list T)) (l : list spool) := map_result f l.
(** Chunks of 15 of three patches of 10 samples share a source: with a client the function
    gets repeated samples. *)
Theorem C95_shared_refuted : exists s, sp_chunk stable_argsort (every 15) "time" three = Ok s /\
  spool_map times 9 None 1 count s None = Some (Ok [15; 15]) /\ spool_map times 9 (Some in_turn) 1 count s None = Some (Ok [20; 20]).
Proof. eexists. split; [vm_compute; reflexivity|]. split; vm_compute; reflexivity. Qed.
Print Assumptions C95_shared_refuted.
(** The size is not the number of processors by default, as the docstring says. *)
Theorem C95_default_size_refuted : exists s cpus pieces, sp_split 9 s (Some (piece_size (sp_len s) cpus None)) None = Some (Ok pieces) /\ cpus = 3 /\ map sp_len pieces = [1; 1; 1].
Proof. exists three, 3. eexists. split; [vm_compute; reflexivity|]. split; [reflexivity|vm_compute; reflexivity]. Qed.
Print Assumptions C95_default_size_refuted.
Example C95_witness : sourced three /\ NoDup (map fst (sp_src three)) /\ NoDup (map n_src (sp_ins three)) /\ orderly (@in_turn Z) /\
  spool_map times 3 (Some in_turn) 2 count three None = Some (Ok [10; 10; 10]) /\
  spool_map times 3 (Some in_turn) 2 (fun l => match l with 0 :: _ => Err ValueError | _ => count l end) three (Some 1) = Some (Err ValueError).
Proof.
  split; [apply dummy_sourced|]. split; [repeat constructor; cbn; lia|]. split; [vm_compute; repeat constructor; cbn; lia|]. split; [intros f l; reflexivity|]. split; vm_compute; reflexivity.
Qed.

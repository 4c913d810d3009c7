(** C43: the order readers are tried in and the detection of formats. *)
From Verif Require Import Base BaseFacts FrameModel RegistryModel RegistrySpec RegistryShipped RegistryProofs RegistryProofs2 RegistryProofs3
  RegistryProofs4 RegistryProofs5 RegistryProofs6 RegistryProofs7 RegistryProofs8.
From Coq Require Import Strings.String Permutation Sorted.
Local Open Scope string_scope.
Local Open Scope list_scope.
Local Open Scope Z_scope.

(** A second reader of the same format (whatever the case) and version is ignored. *)
Theorem C43_register_duplicate : forall w eps order, set_order order -> forall ops x y,
  registered w (after w eps order ops) y -> key w y = key w x ->
  register w (after w eps order ops) x = after w eps order ops.
Proof.
  intros w eps order HO ops x y H K. destruct (after_inv w eps order HO ops) as (R & I & _). exact (register_taken w _ R x y I H K).
Qed.
Print Assumptions C43_register_duplicate.

(** A reader of a new format or version is added, and the others stay. *)
Theorem C43_register_new : forall w eps order, set_order order -> forall ops x,
  (forall y, registered w (after w eps order ops) y -> key w y <> key w x) ->
  forall y, registered w (register w (after w eps order ops) x) y <-> registered w (after w eps order ops) y \/ y = x.
Proof.
  intros w eps order HO ops x H. destruct (after_inv w eps order HO ops) as (R & I & _). exact (register_new w _ R x I H).
Qed.
Print Assumptions C43_register_new.

(** Nothing is registered but readers that were defined or are plugins. *)
Theorem C43_registered_from : forall w eps order, set_order order -> forall ops x,
  registered w (after w eps order ops) x -> plugin eps x \/ exists xs, In (Register xs) ops /\ In x xs.
Proof.
  intros w eps order HO ops x H. destruct (after_inv w eps order HO ops) as (R & I & P). apply P. now apply (inv_registered w _ R x I).
Qed.
Print Assumptions C43_registered_from.

(** A request yields each reader at most once, and only registered ones, in every
    state the manager can be in and whatever order sets iterate in. *)
Theorem C43_no_repeats : forall w eps order, set_order order -> forall ops fmt ver ext t l m',
  (forall x, NoDup (w_exts w x)) ->
  run_all (yield_fiberio w eps order fmt ver ext [] t) (after w eps order ops) = (Ok l, m') ->
  NoDup l /\ forall x, In x l -> registered w m' x.
Proof. intros w eps order HO ops. exact (yield_all w eps order HO ops). Qed.
Print Assumptions C43_no_repeats.

(** With an extension, the readers preferring it come first. *)
Theorem C43_extension_first : forall w eps order, set_order order -> forall ops ext t l m',
  run_all (yield_fiberio w eps order None None (Some ext) [] t) (after w eps order ops) = (Ok l, m') ->
  exists a b, l = a ++ b /\ (forall x, In x a -> In ext (w_exts w x)) /\ (forall x, In x b -> ~ In ext (w_exts w x)).
Proof. intros w eps order HO ops. exact (yield_ext w eps order HO ops). Qed.
Print Assumptions C43_extension_first.

(** With neither format nor extension: first at most one reader per format, none
    older than another reader of that format; then readers for which a newer one of
    the same format is registered. "Newer" is the order of version strings. *)
Theorem C43_newest_first : forall w eps order, set_order order -> forall ops t l m',
  run_all (yield_fiberio w eps order None None None [] t) (after w eps order ops) = (Ok l, m') ->
  exists a b, l = a ++ b /\ NoDup (map (format_of w) a) /\
    (forall x y, In x a -> In y l -> format_of w x = format_of w y -> String.leb (w_ver w y) (w_ver w x) = true) /\
    (forall y, In y b -> exists x, registered w m' x /\ format_of w x = format_of w y /\ w_ver w x <> w_ver w y /\
       String.leb (w_ver w y) (w_ver w x) = true).
Proof. intros w eps order HO ops. exact (yield_ranked w eps order HO ops). Qed.
Print Assumptions C43_newest_first.

(** A format request yields the registered readers of that format, newest first, or
    the one of the given version; it raises when there is none. *)
Theorem C43_format : forall w eps order, set_order order -> forall ops fmt ver ext hint t r m',
  run_all (yield_fiberio w eps order (Some fmt) ver ext hint t) (after w eps order ops) = (r, m') -> fmt <> "" ->
  match r with
  | Ok l => l <> [] /\ NoDup l /\ StronglySorted (newer w) l /\
      (forall x, In x l <-> registered w m' x /\ format_of w x = upper fmt /\ (truthy ver = true -> ver = Some (w_ver w x)))
  | Err e => e = UnknownFiberFormatError /\
      (forall x, registered w m' x -> format_of w x = upper fmt -> truthy ver = true /\ ver <> Some (w_ver w x))
  end.
Proof. intros w eps order HO ops. exact (yield_format w eps order HO ops). Qed.
Print Assumptions C43_format.

(** A version without a format raises. *)
Theorem C43_version_only : forall w eps order ver ext hint t m, ver <> "" ->
  fst (run_all (yield_fiberio w eps order None (Some ver) ext hint t) m) = Err UnknownFiberFormatError /\
  fst (first_of (yield_fiberio w eps order None (Some ver) ext hint t) m) = Err UnknownFiberFormatError.
Proof. intros w eps order ver ext hint t m H. unfold yield_fiberio. destruct ver; [contradiction|]. split; reflexivity. Qed.
Print Assumptions C43_version_only.

(** load_plugins, line 201: the formats it set out to load are no longer in
    unloaded_formats. *)
Theorem C43_load_assertion : forall w eps m fmt f,
  match fmt with Some g => f = g | None => In f (fst (unloaded eps m)) end ->
  fst (unloaded eps m) <> [] ->
  ~ In f (fst (unloaded eps (load_body w eps m fmt))).
Proof. exact load_assertion. Qed.
Print Assumptions C43_load_assertion.

(** The detected format is the answer of the first reader, in the order of the
    request, that recognises the file; if none does, the format is unknown. *)
Theorem C43_detect_first : forall A (answer : Z -> option A) w eps order ext hint t m l m',
  run_all (yield_fiberio w eps order None None ext hint (Some t)) m = (Ok l, m') ->
  match fst (get_format w eps order answer ext None None hint t m) with
  | Ok a => exists l1 x l2, l = l1 ++ x :: l2 /\ answer x = Some a /\ forall z, In z l1 -> answer z = None
  | Err e => e = UnknownFiberFormatError /\ forall z, In z l -> answer z = None
  end.
Proof.
  intros A answer w eps order ext hint t m l m' E. unfold get_format. rewrite (detect_first answer _ _ _ _ E).
  pose proof (find_answer_spec answer l) as S. destruct (find_answer answer l); auto.
Qed.
Print Assumptions C43_detect_first.

(** As long as no readers are defined but the plugins', a request without a format
    yields every plugin for the input type exactly once ... *)
Theorem C43_complete : forall w eps order, set_order order -> coherent w eps -> forall ops ext t,
  Forall (plugins_only eps) ops -> (forall x, NoDup (w_exts w x)) ->
  exists l m', run_all (yield_fiberio w eps order None None ext [] t) (after w eps order ops) = (Ok l, m') /\
    NoDup l /\ forall x, In x l <-> plugin eps x /\ fits w eps t x.
Proof. intros w eps order HO HC ops ext t HP HN. exact (yield_exact w eps order HO HC ops ext t HP HN). Qed.
Print Assumptions C43_complete.

(** ... and a request for a format yields every plugin of the format (and version). *)
Theorem C43_format_complete : forall w eps order, set_order order -> coherent w eps -> forall ops fmt ver ext hint t r m',
  Forall (plugins_only eps) ops ->
  run_all (yield_fiberio w eps order (Some fmt) ver ext hint t) (after w eps order ops) = (r, m') -> fmt <> "" ->
  match r with
  | Ok l => forall x, In x l <-> plugin eps x /\ format_of w x = upper fmt /\ (truthy ver = true -> ver = Some (w_ver w x))
  | Err _ => forall x, plugin eps x -> format_of w x = upper fmt -> truthy ver = true /\ ver <> Some (w_ver w x)
  end.
Proof. intros w eps order HO HC ops. exact (yield_format_complete w eps order HO HC ops). Qed.
Print Assumptions C43_format_complete.

(** Then detection does not depend on earlier use, extension or set order when the
    readers that recognise the file agree. *)
Theorem C43_detect_unique : forall A (answer : Z -> option A) w eps order, set_order order -> coherent w eps ->
  forall ops ext t x a, Forall (plugins_only eps) ops ->
  plugin eps x -> fits w eps (Some t) x -> answer x = Some a ->
  (forall y b, plugin eps y -> fits w eps (Some t) y -> answer y = Some b -> b = a) ->
  fst (get_format w eps order answer ext None None [] t (after w eps order ops)) = Ok a.
Proof. intros A answer w eps order HO HC ops ext t x a. exact (detect_unique w eps order HO HC answer ops ext t x a). Qed.
Print Assumptions C43_detect_unique.
Theorem C43_detect_none : forall A (answer : Z -> option A) w eps order, set_order order -> coherent w eps ->
  forall ops ext t, Forall (plugins_only eps) ops ->
  (forall y, plugin eps y -> fits w eps (Some t) y -> answer y = None) ->
  fst (get_format w eps order answer ext None None [] t (after w eps order ops)) = Err UnknownFiberFormatError.
Proof. intros A answer w eps order HO HC ops ext t. exact (detect_none w eps order HO HC answer ops ext t). Qed.
Print Assumptions C43_detect_none.

(** The readers dascore ships meet the conditions. *)
Theorem C43_shipped_coherent : coherent shipped shipped_eps.
Proof. exact shipped_coherent. Qed.
Print Assumptions C43_shipped_coherent.
Theorem C43_shipped_extensions : forall x, NoDup (w_exts shipped x).
Proof. exact shipped_exts. Qed.
Print Assumptions C43_shipped_extensions.

(** get_fiberio: a format, version and extension not asked for before (in that
    combination) are answered with the first reader the search would try now, or
    None. *)
Theorem C43_get_fresh : forall w eps order ops f v e l m',
  (forall q, In (Get q) ops -> q <> (f, v, e)) ->
  run_all (yield_fiberio w eps order f v e [] None) (after w eps order ops) = (Ok l, m') ->
  fst (get_fiberio w eps order (f, v, e) (after w eps order ops)) = Ok (hd_error l).
Proof. exact get_fresh. Qed.
Print Assumptions C43_get_fresh.

(** And the same request is answered the same way ever after. *)
Theorem C43_get_again : forall w eps order ops ops' q x,
  fst (get_fiberio w eps order q (after w eps order ops)) = Ok x ->
  fst (get_fiberio w eps order q (after w eps order (ops ++ Get q :: ops'))) = Ok x.
Proof. exact get_again. Qed.
Print Assumptions C43_get_again.

(** ** Witnesses *)
Definition as_is (l : list string) : list string := l.
Lemma as_is_order : set_order as_is.
Proof. intros l. apply Permutation_refl. Qed.
(** Defining OptoDAS, asking for SEGY files, then for anything with extension h5. *)
Definition used : list op := [Register optodas_module; Get (Some "segy", None, None); Yield None None (Some "h5") [] (Some "file")].
Example C43_used : Forall (plugins_only shipped_eps) used.
Proof. repeat constructor. exists ("OPTODAS__V8", optodas_module). split; [vm_compute; tauto|reflexivity]. Qed.
Example C43_witness_registered : registered shipped (after shipped shipped_eps as_is used) 13 /\ key shipped 13 = ("OPTODAS", "8").
Proof. split; vm_compute; reflexivity. Qed.
Example C43_witness_extension :
  fst (run_all (yield_fiberio shipped shipped_eps as_is None None (Some "jld2") [] (Some "file")) (after shipped shipped_eps as_is used)) =
  Ok [2; 0; 1; 3; 4; 7; 9; 8; 5; 10; 11; 12; 17; 18; 20; 21; 22; 25; 30; 31; 32; 33; 34; 36; 14; 6; 19; 24; 23; 29; 26; 28; 27; 13; 16; 15].
Proof. vm_compute. reflexivity. Qed.
Example C43_witness_format :
  fst (run_all (yield_fiberio shipped shipped_eps as_is (Some "Segy") None None [] None) empty_mgr) = Ok [30; 29; 26; 28; 27] /\
  fst (run_all (yield_fiberio shipped shipped_eps as_is (Some "Segy") (Some "1.0") None [] None) empty_mgr) = Ok [26] /\
  fst (run_all (yield_fiberio shipped shipped_eps as_is (Some "Segy") (Some "3.0") None [] None) empty_mgr) = Err UnknownFiberFormatError /\
  fst (run_all (yield_fiberio shipped shipped_eps as_is (Some "nope") None None [] None) empty_mgr) = Err UnknownFiberFormatError.
Proof. repeat split; vm_compute; reflexivity. Qed.
Example C43_witness_directory :
  fst (run_all (yield_fiberio shipped shipped_eps as_is None None None [] (Some "directory")) (after shipped shipped_eps as_is used)) = Ok [35].
Proof. vm_compute. reflexivity. Qed.
Example C43_witness_unloaded : fst (unloaded shipped_eps (after shipped shipped_eps as_is [Register optodas_module])) <> [] /\
  In "WAV" (fst (unloaded shipped_eps (after shipped shipped_eps as_is [Register optodas_module]))).
Proof. split; vm_compute; [discriminate|tauto]. Qed.
Example C43_witness_detect : plugin shipped_eps 22 /\ fits shipped shipped_eps (Some "file") 22 /\
  fst (get_format shipped shipped_eps as_is (fun x => if Z.eqb x 22 then Some 1 else None) (Some "h5") None None [] "file"
        (after shipped shipped_eps as_is used)) = Ok 1.
Proof.
  split; [exists ("TDMS__V4713", [22]); split; [vm_compute; tauto|left; reflexivity]|].
  split; [intros _; reflexivity|vm_compute; reflexivity].
Qed.

Example C43_witness_get :
  (forall q, In (Get q) used -> q <> (None, None, Some "jld2")) /\
  fst (get_fiberio shipped shipped_eps as_is (None, None, Some "jld2") (after shipped shipped_eps as_is used)) = Ok (Some 2) /\
  fst (get_fiberio shipped shipped_eps as_is (None, None, None)
    (after shipped shipped_eps as_is (used ++ [Get (None, None, Some "jld2")]))) = Ok (Some 0) /\
  fst (get_fiberio shipped shipped_eps as_is (Some "segy", None, None) (after shipped shipped_eps as_is used)) = Ok (Some 30).
Proof.
  split; [|repeat split; vm_compute; reflexivity]. intros q [H|[H|[H|[]]]]; inversion H. discriminate.
Qed.

(** ** What does not hold *)
(** Versions are compared as strings: asking for OptoDAS, the reader of version 9 is
    tried before those of versions 11 and 10, and get_fiberio("OptoDAS") gives version
    9, although the docstring promises the newest version first. *)
Theorem C43_newest_version_refuted :
  fst (run_all (yield_fiberio shipped shipped_eps as_is (Some "OptoDAS") None None [] None) empty_mgr) = Ok [14; 13; 16; 15] /\
  fst (get_fiberio shipped shipped_eps as_is (Some "OptoDAS", None, None) empty_mgr) = Ok (Some 14) /\
  map (w_ver shipped) [14; 13; 16; 15] = ["9"; "8"; "11"; "10"].
Proof. repeat split; vm_compute; reflexivity. Qed.
Print Assumptions C43_newest_version_refuted.

(** preferred_extensions of the RSF reader is a string, so the reader is filed under
    "r", "s" and "f": for a file x.rsf it is not put first, for a file x.r it is. *)
Theorem C43_rsf_extension_refuted :
  fst (get_fiberio shipped shipped_eps as_is (None, None, Some "rsf") empty_mgr) = Ok (Some 0) /\
  fst (get_fiberio shipped shipped_eps as_is (None, None, Some "r") empty_mgr) = Ok (Some 33) /\
  w_name shipped 33 = "rsf" /\ w_name shipped 0 = "APSensing".
Proof. repeat split; vm_compute; reflexivity. Qed.
Print Assumptions C43_rsf_extension_refuted.

(** A reader passed as hint is yielded a second time in its ordinary place. *)
Theorem C43_hint_repeats_refuted :
  match fst (run_all (yield_fiberio shipped shipped_eps as_is None None (Some "tdms") [("file", 22)] (Some "file")) empty_mgr) with
  | Ok l => firstn 2 l = [22; 22]
  | Err _ => False
  end.
Proof. vm_compute. reflexivity. Qed.
Print Assumptions C43_hint_repeats_refuted.

(** A small world: plugin A (version "1", reader 0); readers 1 (format B) and 2
    (format A, version "2") are defined by the user. *)
Definition small : world :=
  mkWorld (fun x => if Z.eqb x 1 then "B" else "A") (fun x => if Z.eqb x 2 then "2" else "1") (fun _ => []) (fun _ => "file").
Definition small_eps : eps_t := [("A__V1", [0])].

(** A reader defined after the first request is never tried without naming its
    format: the prioritized list is cached. *)
Theorem C43_late_reader_refuted :
  registered small (after small small_eps as_is [Yield None None None [] (Some "file"); Register [1]]) 1 /\
  fst (run_all (yield_fiberio small small_eps as_is None None None [] (Some "file"))
        (after small small_eps as_is [Yield None None None [] (Some "file"); Register [1]])) = Ok [0] /\
  fst (run_all (yield_fiberio small small_eps as_is None None None [] (Some "file"))
        (after small small_eps as_is [Register [1]])) = Ok [0; 1].
Proof. repeat split; vm_compute; reflexivity. Qed.
Print Assumptions C43_late_reader_refuted.

(** Defining one's own version of a plugin format first hides the plugin's versions:
    load_plugins returns early because the format is already known. *)
Theorem C43_shadowed_plugin_refuted :
  fst (run_all (yield_fiberio small small_eps as_is (Some "A") (Some "1") None [] None) (after small small_eps as_is [Register [2]])) =
    Err UnknownFiberFormatError /\
  fst (run_all (yield_fiberio small small_eps as_is None None None [] (Some "file")) (after small small_eps as_is [Register [2]])) = Ok [2] /\
  fst (run_all (yield_fiberio small small_eps as_is (Some "A") (Some "1") None [] None) (after small small_eps as_is [])) = Ok [0].
Proof. repeat split; vm_compute; reflexivity. Qed.
Print Assumptions C43_shadowed_plugin_refuted.

(** get_fiberio keeps answering with the reader it found first, although a newer
    version of the format has been defined since. *)
Theorem C43_stale_answer_refuted :
  fst (get_fiberio small small_eps as_is (Some "A", None, None)
        (after small small_eps as_is [Get (Some "A", None, None); Register [2]])) = Ok (Some 0) /\
  fst (run_all (yield_fiberio small small_eps as_is (Some "A") None None [] None)
        (after small small_eps as_is [Get (Some "A", None, None); Register [2]])) = Ok [2; 0].
Proof. repeat split; vm_compute; reflexivity. Qed.
Print Assumptions C43_stale_answer_refuted.

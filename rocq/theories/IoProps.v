(** Properties C67 and C68: what a scan reports, and that files are closed.
    Model: IoModel.v. Specification vocabulary: IoSpec.v. *)
From Verif Require Import Base BaseFacts IoModel IoSpec IoProofs IoProofs2 IoProofs3 IoProofs4.
From Coq Require Import Strings.String ZifyBool Lia.
Local Open Scope Z_scope.
Local Open Scope list_scope.
Local Open Scope string_scope.

(** * C67: what a scan reports *)

(** A scan of a list of sources reports, in the order of the listing, what the readers
    tell about each item; items without a format, corrupt files, and directories of a
    directory format that did not change are left out. Contents of a directory taken by
    a directory format are not looked at. If there is nothing to report but a package
    was missing for some file, the scan fails. *)
Theorem C67_scan : forall R reads_dirs detect (reader : item R -> outcome Z) scans ext timestamp,
  (forall h i, detect h i = reader i) -> forall ss l,
  listing_in ext timestamp (claims reads_dirs reader) ss l ->
  (forall i, In i l -> dirs_only reads_dirs reader i) ->
  (forall i, In i l -> forall e, ~ ends reads_dirs reader scans timestamp i e) ->
  exists rowss, Forall2 (gives reads_dirs reader scans timestamp) l rowss /\
    ((exists i, In i l /\ lacks_package reads_dirs reader scans i) /\ List.concat rowss = [] ->
      scan reads_dirs detect scans timestamp ext (Again ss) = Raised EMissingDependency) /\
    (~ (exists i, In i l /\ lacks_package reads_dirs reader scans i) \/ List.concat rowss <> [] ->
      scan reads_dirs detect scans timestamp ext (Again ss) = Fine (List.concat rowss)).
Proof. intros R rd detect reader scans ext ts D ss l. exact (scan_listed rd detect reader scans ext ts D ss l). Qed.
Print Assumptions C67_scan.

(** The first item that ends a scan decides about its error. *)
Theorem C67_error : forall R reads_dirs detect (reader : item R -> outcome Z) scans ext timestamp,
  (forall h i, detect h i = reader i) -> forall ss pre i post e,
  listing_in ext timestamp (claims reads_dirs reader) ss (pre ++ i :: post) ->
  (forall j, In j (pre ++ i :: post) -> dirs_only reads_dirs reader j) ->
  (forall j, In j pre -> forall e, ~ ends reads_dirs reader scans timestamp j e) ->
  ends reads_dirs reader scans timestamp i e ->
  scan reads_dirs detect scans timestamp ext (Again ss) = Raised e.
Proof. intros R rd detect reader scans ext ts D ss pre i post e. exact (scan_error rd detect reader scans ext ts D ss pre i post e). Qed.
Print Assumptions C67_error.

(** Every list of sources has one listing. *)
Theorem C67_listing : forall R reads_dirs (reader : item R -> outcome Z) ext timestamp (ss : list (@source R)),
  exists l, forall l', listing_in ext timestamp (claims reads_dirs reader) ss l' <-> l' = l.
Proof. intros R rd reader ext ts ss. exact (listing_unique rd reader ext ts ss). Qed.
Print Assumptions C67_listing.

(** The listing of a path has every item that can be found below it and nothing else. *)
Theorem C67_found : forall R reads_dirs (reader : item R -> outcome Z) ext timestamp p n (l : list (item R)) i,
  listing ext timestamp (claims reads_dirs reader) p n l ->
  (In i l <-> Found ext timestamp (claims reads_dirs reader) p n i).
Proof. intros R rd reader ext ts p n l i. exact (listing_found rd reader ext ts p n l i). Qed.
Print Assumptions C67_found.

(** No item is listed twice. *)
Theorem C67_each_once : forall R reads_dirs (reader : item R -> outcome Z) ext timestamp p n (l : list (item R)),
  well_named n -> listing ext timestamp (claims reads_dirs reader) p n l -> NoDup l.
Proof. intros R rd reader ext ts p n l. exact (listing_once rd reader ext ts p n l). Qed.
Print Assumptions C67_each_once.

(** An iterator of sources is used up when the sources are counted: the scan reports
    nothing. *)
Theorem C67_iterator_refuted : forall R reads_dirs detect (scans : Z -> item R -> @answer R) ext timestamp ss,
  scan reads_dirs detect scans timestamp ext (Once ss) = Fine [].
Proof. reflexivity. Qed.
Print Assumptions C67_iterator_refuted.

(** Below a path that starts with a dot ("." or "..", or "../data") no directory is
    offered to the readers, so directory formats are not found. *)
Theorem C67_dot_refuted : forall R reads_dirs (reader : item R -> outcome Z) ext timestamp p n (l : list (item R)) q m,
  is_hidden p -> listing ext timestamp (claims reads_dirs reader) p n l -> ~ In (IDir q m) l.
Proof. intros R rd reader ext ts p n l q m. exact (listing_hidden rd reader ext ts p n l q m). Qed.
Print Assumptions C67_dot_refuted.

(** Readers that took earlier items are offered first: each source is looked at with the
    last directory format and the last file format found before it. *)
Theorem C67_hints : forall R reads_dirs detect (scans : Z -> item R -> @answer R) ext ss rowss,
  recognised reads_dirs detect scans [] ss rowss -> scan reads_dirs detect scans None ext (Again ss) = Fine (List.concat rowss).
Proof. intros R rd detect scans ext ss rowss. exact (hints_scan rd detect scans ext ss rowss). Qed.
Print Assumptions C67_hints.
(** The rows are the hints here; readers 1 and 2 take directories. *)
Definition h_dirs (r : Z) : bool := (r <? 3)%Z.
Definition h_detect (h : hints) (i : item string) : outcome Z :=
  match i, h with
  | IDir _ _, (None, _) => Fine 1
  | IDir _ _, (Some _, Some 3) => Fine 2
  | IFile _, (None, _) => Raised EValue
  | IFile _, (Some 1, None) => Fine 3
  | IFile _, (Some 2, Some 3) => Fine 4
  | IObject _, (Some 2, Some 4) => Fine 3
  | _, _ => Raised EOs
  end.
Definition h_scans (r : Z) (i : item string) : @answer string :=
  match r with 1 => ARows ["one"] | 2 => ARows ["two"] | 3 => ARows ["three"] | _ => ARows ["four"] end%Z.
Example C67_hints_witness :
  recognised h_dirs h_detect h_scans []
    [SHere "a" (NDir "a" 1 []); SHere "b" (NFile "b" 1); SPatch "p"; SHere "c" (NDir "c" 1 []); SMissing "d"; SThing "e"]
    [["one"]; ["three"]; ["p"]; ["two"]; ["four"]; ["three"]].
Proof.
  assert (H : forall c r, Ascii.eqb c dot = false -> ~ is_hidden (String c r)) by (intros c r E [r' X]; injection X as -> ->; discriminate E).
  assert (Y : forall (P : Z -> Prop) l x, P x -> last_such P (l ++ [x])%list (Some x)) by (intros; apply last_such_yes; assumption).
  eapply re_cons with (hd := None) (hf := None); [constructor; apply H; reflexivity|apply last_such_none|apply last_such_none|reflexivity..|].
  eapply re_cons with (hd := Some 1) (hf := None); [constructor|apply (Y _ []); reflexivity|apply last_such_no; [discriminate|apply last_such_none]|reflexivity..|].
  apply re_patch.
  eapply re_cons with (hd := Some 1) (hf := Some 3); [constructor; apply H; reflexivity|apply last_such_no; [discriminate|apply (Y _ []); reflexivity]|apply (Y _ [1]); reflexivity|reflexivity..|].
  eapply re_cons with (hd := Some 2) (hf := Some 3); [constructor|apply (Y _ [1; 3]); reflexivity|apply last_such_no; [discriminate|apply (Y _ [1]); reflexivity]|reflexivity..|].
  eapply re_cons with (hd := Some 2) (hf := Some 4); [constructor|apply last_such_no; [discriminate|apply (Y _ [1; 3]); reflexivity]|apply (Y _ [1; 3; 2]); reflexivity|reflexivity..|].
  apply re_nil.
Qed.

(** ** Witnesses

    Reader 1 is a directory format that takes "d/box", reader 2 a file format for all
    other files; rows are the paths. "d/bad" is corrupt, "d/odd" has no format. *)
Definition w_dirs (r : Z) : bool := (r =? 1)%Z.
Definition w_reader (i : item string) : outcome Z :=
  match i with
  | IDir p _ => if p =? "d/box" then Fine 1 else Raised EUnknownFormat
  | IFile p => if p =? "gone" then Raised ENotFound else if p =? "d/odd" then Raised EUnknownFormat else Fine 2
  | _ => Raised EUnknownFormat
  end.
Definition w_scans (r : Z) (i : item string) : @answer string :=
  match i with
  | IDir p _ => ARows [p]
  | IFile p => if p =? "d/bad" then ACorrupt EValue else if p =? "d/dep" then AMissing "pkg" else ARows [p]
  | _ => ARows []
  end.
Definition w_tree : node :=
  NDir "d" 5 [NFile "a" 3; NFile ".h" 3; NFile "bad" 3; NDir "box" 9 [NFile "x" 3]; NDir ".git" 1 [NFile "y" 3];
              NDir "sub" 1 [NFile "b" 3; NFile "old" 1]; NFile "odd" 3].
Definition w_listing : list (item string) :=
  [IDir "d" 5; IFile "d/a"; IFile "d/bad"; IDir "d/box" 9; IDir "d/sub" 1; IFile "d/sub/b"; IFile "d/odd"; IPatch "p"; IFile "e"].

Example C67_listing_witness : listing_in None (Some 2) (claims w_dirs w_reader) [SHere "d" w_tree; SPatch "p"; SMissing "e"] w_listing.
Proof.
  apply (listing_in_iff None (Some 2) (claimsb w_dirs w_reader) _ (claimsb_iff w_dirs w_reader)). vm_compute. reflexivity.
Qed.
Example C67_scan_witness :
  (forall i, In i w_listing -> dirs_only w_dirs w_reader i) /\
  (forall i, In i w_listing -> forall e, ~ ends w_dirs w_reader w_scans (Some 2) i e) /\
  scan w_dirs (fun _ => w_reader) w_scans (Some 2) None (Again [SHere "d" w_tree; SPatch "p"; SMissing "e"]) =
    Fine ["d/a"; "d/box"; "d/sub/b"; "p"; "e"] /\
  scan w_dirs (fun _ => w_reader) w_scans (Some 2) None (Again [SHere "d/dep" (NFile "dep" 7)]) = Raised EMissingDependency /\
  scan w_dirs (fun _ => w_reader) w_scans (Some 2) (Some "b") (Again [SHere "d" w_tree]) = Fine ["d/box"; "d/sub/b"].
Proof.
  split; [|split; [|split; [|split]; vm_compute; reflexivity]].
  - intros i I. repeat (destruct I as [<-|I]; [intros io E D; vm_compute in E; try exact Logic.I; try discriminate E; injection E as <-; discriminate D|]).
    destruct I.
  - intros i I e. repeat (destruct I as [<-|I]; [vm_compute; intuition congruence|]). destruct I.
Qed.
Example C67_each_once_witness : well_named w_tree.
Proof.
  assert (F : forall s m, no_slash s -> no_slash (node_name (NFile s m)) /\ well_named (NFile s m)) by (intros; split; [auto|constructor]).
  repeat (constructor; [cbn; repeat constructor; cbn; intuition discriminate|];
    intros e I; repeat (destruct I as [<-|I]; [split; [cbn; intuition discriminate|try constructor]|]); try destruct I;
    try (cbn; repeat constructor; cbn; intuition discriminate)).
  all: cbn; try (repeat constructor; cbn; intuition discriminate).
  all: try (intros e [<-|[<-|[]]]; apply F; cbn; intuition discriminate).
  all: try (intros e [<-|[]]; apply F; cbn; intuition discriminate).
Qed.

(** One path that does not exist ends the scan of all others. *)
Theorem C67_missing_refuted :
  scan w_dirs (fun _ => w_reader) w_scans None None (Again [SHere "d/a" (NFile "a" 3); SMissing "gone"]) = Raised ENotFound.
Proof. reflexivity. Qed.
Print Assumptions C67_missing_refuted.
(** A directory format given for files: the next source is lost, or the scan fails. *)
Theorem C67_directory_format_refuted :
  scan w_dirs (fun _ _ => Fine 1) w_scans None None (Again [SHere "a" (NFile "a" 3); SHere "b" (NFile "b" 3)]) = Fine ["a"] /\
  scan w_dirs (fun _ _ => Fine 1) w_scans None None (Again [SHere "a" (NFile "a" 3)]) = Raised EStopIteration.
Proof. split; reflexivity. Qed.
Print Assumptions C67_directory_format_refuted.
(** A file changed exactly at the time stamp is reported, a directory of a directory
    format is not. *)
Theorem C67_timestamp_refuted :
  scan w_dirs (fun _ => w_reader) w_scans (Some 9) None (Again [SHere "d" (NDir "d" 1 [NFile "f" 9; NDir "box" 9 []])]) = Fine ["d/f"].
Proof. reflexivity. Qed.
Print Assumptions C67_timestamp_refuted.

(** * C68: file handles *)

(** When a manager's block ends, normally or by an exception, every handle that was
    opened in it is closed, and handles that were there before are as they were, except
    the caller's own stream. *)
Theorem C68_closed : forall there opens s b fs o ms fs',
  with_manager there opens s b fs = (o, (ms, fs')) ->
  zlen (f_open fs) <= zlen (f_open fs') /\ new_closed fs fs' /\
  forall h, opened_in fs h -> ~ own_handle s h -> znth (f_open fs') h = znth (f_open fs) h.
Proof. exact with_closed. Qed.
Print Assumptions C68_closed.

(** Asking for a type again gives the same handle and opens nothing, whatever happened
    in between, also in inner blocks; nothing is closed in between. *)
Theorem C68_same : forall there opens s t b ms fs v ms1 fs1 o ms2 fs2,
  ms <> [] -> get_resource there opens s ms fs t = (Fine v, (ms1, fs1)) ->
  run there opens s b ms1 fs1 = (o, (ms2, fs2)) ->
  get_resource there opens s ms2 fs2 t = (Fine v, (ms2, fs2)) /\ old_kept fs1 fs2.
Proof. exact same_handle. Qed.
Print Assumptions C68_same.

(** The handle of a path is open until the outermost block ends. *)
Theorem C68_open : forall there opens p t b ms fs h ms1 fs1 o ms2 fs2,
  ms <> [] -> get_resource there opens (SoPath p) ms fs t = (Fine (VHandle h), (ms1, fs1)) ->
  (forall c, In c ms -> c = []) -> run there opens (SoPath p) b ms1 fs1 = (o, (ms2, fs2)) ->
  znth (f_open fs2) h = Some true.
Proof. exact handle_open. Qed.
Print Assumptions C68_open.

(** A direct call of a reader's method that succeeds closes what it opened and leaves
    the caller's handles alone. *)
Theorem C68_cast : forall there opens A s t g (failed : A) func fs a fs',
  cast_call there opens s t g failed func fs = (Fine a, fs') ->
  (g = true -> forall v, exists a, func v = Fine a) ->
  new_closed fs fs' /\ old_kept fs fs'.
Proof. intros there opens A. exact (cast_closed there opens). Qed.
Print Assumptions C68_cast.

(** A method of a reader whose resource cannot be opened raises what opening raises, only
    get_format says that it is not its format: for a path that cannot be opened, for a
    closed stream, and for things that are not a resource of that kind. *)
Theorem C68_cast_refused : forall there opens A (failed : A) func fs,
  let calls s t e := (exists fs', cast_call there opens s t false failed func fs = (Raised e, fs')) /\
                     (exists fs', cast_call there opens s t true failed func fs = (Fine failed, fs')) in
  (forall p t, (exists w, t = RBinary w \/ t = RText w) \/ (exists k, t = RHdf k) -> opens p t = false -> calls (SoPath p) t EOs) /\
  (forall h, is_open fs h = false -> calls (SoBinary h) (RBinary false) EValue /\ calls (SoText h) (RText false) EValue) /\
  (forall h k w, calls (SoText h) (RBinary w) ENotImplemented /\ calls (SoBinary h) (RHdf k) ENotImplemented /\
     calls (SoBinary h) (RText false) ENotImplemented /\ calls (SoTables h) (RBinary w) ENotImplemented /\ calls (SoTables h) (RText w) ENotImplemented /\
     calls (SoText h) (RHdf k) ENotImplemented) /\
  (forall w k, calls SoObject (RBinary w) ENotImplemented /\ calls SoObject (RText w) ENotImplemented /\ calls SoObject (RHdf k) ENotImplemented /\ calls SoObject RPath EType).
Proof.
  intros there opens A failed func fs calls. unfold calls, cast_call, get_handle, open_path, rewound. split; [|split; [|split]].
  - intros p t T O. destruct T as [[w [->| ->]]|[k ->]]; try destruct w; rewrite O; cbn; split; eauto.
  - intros h O. rewrite O. cbn. repeat split; eauto.
  - intros h k w. destruct w; cbn; repeat split; eauto.
  - intros w k. destruct w; cbn; repeat split; eauto.
Qed.
Print Assumptions C68_cast_refused.
(** Streams that are open are handed on as they are. *)
Theorem C68_cast_stream : forall there opens A (failed : A) func fs h g, is_open fs h = true ->
  forall s t, (s, t) = (SoBinary h, RBinary false) \/ (s, t) = (SoText h, RText false) ->
  forall a, func (VHandle h) = Fine a -> cast_call there opens s t g failed func fs = (Fine a, fs).
Proof.
  intros there opens A failed func fs h g O s t [E|E] a F; injection E as -> ->; unfold cast_call, get_handle, rewound; rewrite O; cbn; rewrite F, Z.eqb_refl; reflexivity.
Qed.
Print Assumptions C68_cast_stream.

Definition w_there (p : string) : bool := p =? "f".
Definition w_opens (p : string) (t : rtype) : bool := match t with RHdf _ => false | _ => p =? "f" end.
Definition w_body : body :=
  BGet (RHdf 0) true (fun _ => BWith (BGet (RBinary false) false (fun _ => BDone))
    (BGet (RBinary false) false (fun _ => BGet (RText false) false (fun _ => BRaise EValue)))).
Example C68_closed_witness :
  with_manager w_there w_opens (SoPath "f") w_body (mkFiles [true] []) =
    (Raised EValue, ([[(RBinary false, VHandle 1); (RText false, VHandle 2)]], mkFiles [true; false; false] [])).
Proof. reflexivity. Qed.
Example C68_same_witness :
  get_resource w_there w_opens (SoPath "f") [[]] (mkFiles [] []) (RBinary false) =
    (Fine (VHandle 0), ([[(RBinary false, VHandle 0)]], mkFiles [true] [])).
Proof. reflexivity. Qed.
Example C68_cast_witness :
  cast_call w_there w_opens (SoPath "f") (RBinary false) false 0 (fun _ => Fine 7) (mkFiles [true] []) = (Fine 7, mkFiles [true; false] []) /\
  cast_call w_there w_opens (SoBinary 0) (RBinary false) false 0 (fun _ => Fine 7) (mkFiles [true] []) = (Fine 7, mkFiles [true] []).
Proof. split; reflexivity. Qed.

(** A stream of the caller is closed with the manager: it cannot be read a second time. *)
Theorem C68_stream_refuted : forall there opens h fs, is_open fs h = true ->
  let b := BGet (RBinary false) false (fun _ => BDone) in
  exists ms fs', with_manager there opens (SoBinary h) b fs = (Fine tt, (ms, fs')) /\ is_open fs' h = false /\
    exists ms' fs'', with_manager there opens (SoBinary h) b fs' = (Raised EValue, (ms', fs'')).
Proof.
  intros there opens h fs O. assert (C : is_open (close fs h) h = false).
  { unfold is_open in *. rewrite znth_close, Z.eqb_refl. destruct (znth (f_open fs) h); reflexivity. }
  unfold with_manager, run, get_resource, lookup, get_handle, rewound. cbn [find option_map]. rewrite O. cbn.
  do 2 eexists. split; [reflexivity|]. split; [exact C|]. rewrite C. cbn. eauto.
Qed.
Print Assumptions C68_stream_refuted.
(** After its block a manager still returns the handle, which is closed. *)
Theorem C68_after_refuted :
  let b := BGet (RBinary false) false (fun _ => BDone) in
  exists ms fs, with_manager w_there w_opens (SoPath "f") b (mkFiles [] []) = (Fine tt, (ms, fs)) /\
    get_resource w_there w_opens (SoPath "f") ms fs (RBinary false) = (Fine (VHandle 0), (ms, fs)) /\ is_open fs 0 = false.
Proof. do 2 eexists. split; [reflexivity|]. split; reflexivity. Qed.
Print Assumptions C68_after_refuted.
(** A text stream cannot be given to a text writer, but a binary one can. *)
Theorem C68_text_writer_refuted : forall there opens h fs,
  get_handle there opens fs (SoText h) (RText true) = (Raised ENotImplemented, fs) /\
  get_handle there opens fs (SoBinary h) (RText true) = (Fine (VHandle h), fs).
Proof. split; reflexivity. Qed.
Print Assumptions C68_text_writer_refuted.
(** A direct call of a reader's method that fails leaves the handle open. *)
Theorem C68_cast_refuted :
  cast_call w_there w_opens (SoPath "f") (RBinary false) false 0 (fun _ => Raised EValue) (mkFiles [] []) = (Raised EValue, mkFiles [true] []) /\
  cast_call w_there w_opens (SoPath "f") (RBinary false) true 0 (fun _ => Raised EValue) (mkFiles [] []) = (Fine 0, mkFiles [true] []).
Proof. split; reflexivity. Qed.
Print Assumptions C68_cast_refuted.
(** Asking for a reader of a path that does not exist makes its parent directories. *)
Theorem C68_reading_makes_directories_refuted :
  get_handle w_there w_opens (mkFiles [] []) (SoPath "a/b/c") (RBinary false) = (Raised EOs, mkFiles [] ["a/b/c"]).
Proof. reflexivity. Qed.
Print Assumptions C68_reading_makes_directories_refuted.

(** C38: what calling a patch function records.
    Model: HistoryModel.v. Specification vocabulary: HistorySpec.v. *)
From Verif Require Import Base BaseFacts FrameModel CmModel AttrsModel AttrsSpec AttrsProofs7 AttrsProofs11
  HistoryModel HistorySpec HistoryProofs2 HistoryProofs3 HistoryProofs4 HistoryProofs5 HistoryProofs6.
From Coq Require Import Strings.String Strings.Ascii Permutation Sorted.
Local Open Scope Z_scope.
Local Open Scope string_scope.

(** ** Patches and functions for the witnesses *)
Definition first_attrs : attrs :=
  mkAttrs [("tag", AStr "a"); ("gauge", ANum 3); ("history", ASeq ["read()"])] "time,distance"
    [("time", mkSumm "datetime64" (ANum 0) (ANum 4) ANone ANone);
     ("distance", mkSumm "int64" (ANum 0) (ANum 9) (ANum 1) (AStr "m"))].
Definition first_patch : hpatch nat := mkH first_attrs ["time"; "distance"] (a_coords first_attrs) 7%nat.
Lemma first_conforms : conforms first_patch.
Proof.
  constructor.
  - apply familyb_ok. vm_compute. reflexivity.
  - apply clearb_ok. vm_compute. reflexivity.
  - discriminate.
  - reflexivity.
  - reflexivity.
  - intros n s [[= <- <-]|[[= <- <-]|[]]]; unfold solid; cbn; repeat split; discriminate.
  - intros n s d f [[= <- <-]|[[= <- <-]|[]]] N; elim N; cbn; tauto.
Qed.
Definition first_state : state nat nat := mkSt [first_patch] 0%nat.
(** def f(patch, a, b=3, *args, c=None, **kwargs) *)
Definition sample_sig : signature :=
  mkSig [("patch", None); ("a", None); ("b", Some (PText "3"))] (Some "args") [("c", Some PNone)] (Some "kwargs").
Definition sample : pfunc := mkF "f" sample_sig (Some ["time"]) None (NamedAttrs ["gauge"]) Full (Some "velocity").
(** It makes a patch with another body, and the world notices. *)
Definition copying : body nat nat := fun i _ _ st =>
  match nth_error (heap st) i with
  | Some p => (Ok (RRef (List.length (heap st))),
               mkSt (heap st ++ [mkH (h_attrs p) (h_dims p) (h_sums p) (S (h_body p))]) (S (world st)))
  | None => (Err Unmodelled, st)
  end.
Definition returning : body nat nat := fun i _ _ st => (Ok (RRef i), st).
Lemma copying_new : makes_new copying.
Proof.
  intros i pos kw st r st' p N C E. unfold copying in E. rewrite N in E.
  assert (Er : r = RRef (List.length (heap st))) by congruence.
  assert (Es : st' = mkSt (heap st ++ [mkH (h_attrs p) (h_dims p) (h_sums p) (S (h_body p))]) (S (world st))) by congruence.
  assert (L : (i < List.length (heap st))%nat) by (apply nth_error_Some; congruence).
  split.
  - intros j q Q. rewrite Es. cbn [heap]. rewrite nth_error_app1; auto. apply nth_error_Some. congruence.
  - exists (List.length (heap st)), (mkH (h_attrs p) (h_dims p) (h_sums p) (S (h_body p))). split; auto. split; [lia|]. split.
    + rewrite Es. cbn [heap]. rewrite nth_error_app2, Nat.sub_diag by lia. reflexivity.
    + split; [|reflexivity]. destruct C. constructor; assumption.
Qed.
Lemma sample_met : requirements_met sample first_patch.
Proof.
  split; [intros x [<-|[]]; now left|]. split; [exact I|]. cbn. intros k [<-|[]]. right. right. discriminate.
Qed.

(** ** The call *)

(** A function that gives back another patch than its argument: the result is that
    patch with its history followed by the entry of this call and with the function's
    data_type; nothing else is different, and no patch there was is changed. *)
Theorem C38_appends : forall (B W : Type) f (b : body B W) i pos kw st st' p j q h e,
  nth_error (heap st) i = Some p -> requirements_met f p -> b i pos kw st = (Ok (RRef j), st') ->
  nth_error (heap st') j = Some q -> j <> i -> conforms q -> history_is q h ->
  entry_of (mkStep f b pos kw) e ->
  exists k r s, call f b i pos kw st = (Ok (RRef k), s) /\ nth_error (heap s) k = Some r /\ conforms r
    /\ history_is r (h ++ e)
    /\ only_attrs q (type_set f ++ match e with [] => [] | _ => [("history", ASeq (h ++ e))] end) r
    /\ keeps st' s /\ world s = world st'
    /\ (type_set f = [] -> e = [] -> k = j /\ s = st')
    /\ (type_set f <> [] \/ e <> [] -> k = List.length (heap st') /\ heap s = (heap st' ++ [r])%list).
Proof. intros B W f b i pos kw st st' p j q h e. exact (call_new f b i pos kw st st' p j q h e). Qed.
Print Assumptions C38_appends.
Example C38_appends_applies : exists st' q r s, nth_error (heap first_state) 0 = Some first_patch
  /\ requirements_met sample first_patch
  /\ copying 0%nat [PText "1"] [("d", PList [PText "2"; PNone])] first_state = (Ok (RRef 1), st')
  /\ nth_error (heap st') 1 = Some q /\ conforms q /\ history_is q ["read()"]
  /\ entry_of (mkStep sample copying [PText "1"] [("d", PList [PText "2"; PNone])]) ["f(a='1',args='()',b='3',d='[2,None]')"]
  /\ call sample copying 0 [PText "1"] [("d", PList [PText "2"; PNone])] first_state = (Ok (RRef 2), s)
  /\ nth_error (heap s) 2 = Some r /\ history_is r ["read()"; "f(a='1',args='()',b='3',d='[2,None]')"]
  /\ value_of (h_attrs r) "data_type" = Some (AStr "velocity") /\ h_body r = 8%nat.
Proof.
  do 4 eexists. split; [reflexivity|]. split; [exact sample_met|]. split; [vm_compute; reflexivity|]. split; [reflexivity|].
  split; [destruct first_conforms; constructor; assumption|]. split; [reflexivity|].
  split; [eexists; split; [vm_compute; reflexivity|reflexivity]|]. split; [vm_compute; reflexivity|]. split; [vm_compute; reflexivity|].
  split; [reflexivity|]. split; reflexivity.
Qed.

(** A function that gives back its argument leaves no entry, unless it sets the data_type. *)
Theorem C38_same : forall (B W : Type) f (b : body B W) i pos kw st st' p,
  nth_error (heap st) i = Some p -> requirements_met f p -> b i pos kw st = (Ok (RRef i), st') -> f_type f = None ->
  nth_error (heap st') i <> None -> call f b i pos kw st = (Ok (RRef i), st').
Proof. intros B W f b i pos kw st st' p. exact (call_same f b i pos kw st st' p). Qed.
Print Assumptions C38_same.
Example C38_same_applies : call (mkF "f" sample_sig None None AnyAttrs Full None) returning 0 [] [] first_state = (Ok (RRef 0), first_state).
Proof. apply C38_same with (p := first_patch); [reflexivity|repeat split|reflexivity|reflexivity|discriminate]. Qed.

(** Results without attributes, and errors, are passed on. *)
Theorem C38_other : forall (B W : Type) f (b : body B W) i pos kw st st' p,
  nth_error (heap st) i = Some p -> requirements_met f p ->
  (b i pos kw st = (Ok ROther, st') -> call f b i pos kw st = (Ok ROther, st'))
  /\ (forall e, b i pos kw st = (Err e, st') -> call f b i pos kw st = (Err e, st')).
Proof. intros B W f b i pos kw st st' p. exact (call_other f b i pos kw st st' p). Qed.
Print Assumptions C38_other.
Example C38_other_applies : call sample (fun _ _ _ st => (Ok ROther, st)) 0 [] [] first_state = (Ok ROther, first_state)
  /\ call sample (fun _ _ _ st => (Err ValueError, st)) 0 [] [] first_state = (Err ValueError, first_state).
Proof.
  split.
  - apply (C38_other nat nat sample _ 0%nat [] [] first_state first_state first_patch eq_refl sample_met). reflexivity.
  - apply (C38_other nat nat sample _ 0%nat [] [] first_state first_state first_patch eq_refl sample_met). reflexivity.
Qed.

(** A patch without what the function requires is refused and the function is not
    called: the state is the one before, whatever the function would have done. *)
Theorem C38_required : forall (B W : Type) f (b : body B W) i pos kw st p,
  nth_error (heap st) i = Some p -> ~ requirements_met f p ->
  exists e, call f b i pos kw st = (Err e, st)
    /\ (~ (provided (f_dims f) (h_dims p) /\ provided (f_coords f) (map fst (h_sums p))) -> e = PatchCoordinateError)
    /\ (provided (f_dims f) (h_dims p) -> provided (f_coords f) (map fst (h_sums p)) ->
        e = PatchAttributeError
        \/ exists l k, f_attrs f = TheseAttrs l /\ In k (map fst l) /\ attr_read (h_attrs p) k = Err e).
Proof. intros B W f b i pos kw st p. exact (call_refused f b i pos kw st p). Qed.
Print Assumptions C38_required.
Example C38_required_applies :
  ~ requirements_met (mkF "f" sample_sig (Some ["time"; "depth"]) None AnyAttrs Full None) first_patch
  /\ ~ requirements_met (mkF "f" sample_sig None None (TheseAttrs [("tag", AStr "b")]) Full None) first_patch
  /\ call (mkF "f" sample_sig None None (TheseAttrs [("tag", AStr "b")]) Full None) copying 0 [] [] first_state
     = (Err PatchAttributeError, first_state).
Proof.
  split; [|split; [|reflexivity]].
  - intros (H & _). specialize (H "depth" ltac:(cbn; tauto)). cbn in H. intuition discriminate.
  - intros (_ & _ & H). destruct (H "tag" (AStr "b") (or_introl eq_refl)) as (w & R & E). cbn in R. injection R as <-. discriminate.
Qed.

(** Any number of calls, each on the result of the one before: the history is that of
    the first patch followed by the entry of every call, in order, and no patch there
    was is changed. *)
Theorem C38_sequence : forall (B W : Type) (l : list (@step B W)), Forall (fun s => makes_new (s_run s)) l ->
  forall i st p h r s, nth_error (heap st) i = Some p -> conforms p -> history_is p h -> calls l i st = (Ok r, s) ->
  exists es k q, Forall2 entry_of l es /\ r = RRef k /\ nth_error (heap s) k = Some q /\ conforms q
    /\ history_is q (h ++ List.concat es) /\ keeps st s.
Proof. intros B W. exact calls_history. Qed.
Print Assumptions C38_sequence.
Example C38_sequence_applies :
  let l := [mkStep sample copying [PText "1"] []; mkStep (mkF "g" sample_sig None None AnyAttrs NameOnly None) copying [] [];
            mkStep (mkF "h" sample_sig None None AnyAttrs NoHistory None) copying [] []] in
  Forall (fun s => makes_new (s_run s)) l /\ exists r s q, calls l 0 first_state = (Ok (RRef r), s) /\ nth_error (heap s) r = Some q
    /\ history_is q ["read()"; "f(a='1',args='()',b='3')"; "g"].
Proof.
  cbv zeta. split; [do 3 (constructor; [exact copying_new|]); constructor|]. do 3 eexists. split; [vm_compute; reflexivity|]. split; [vm_compute; reflexivity|]. reflexivity.
Qed.

(** ** The entry *)

(** An entry is the function's name and, sorted, every argument that is not None once
    with what it received. *)
Theorem C38_entry : forall name g pos kw t, names_apart g -> NoDup (map fst kw) -> call_string name g pos kw = Ok t ->
  exists l a x, t = name ++ "(" ++ str_join "," l ++ ")"
    /\ Sorted (fun s s' => String.leb s s' = true) l /\ Permutation l (map mention (a ++ x))
    /\ NoDup a /\ (forall p v, In (p, v) a <-> argument g pos kw p v)
    /\ NoDup x /\ (forall p v, In (p, v) x <-> extra_argument g kw p v).
Proof. exact entry_text. Qed.
Print Assumptions C38_entry.
Example C38_entry_applies : names_apart sample_sig
  /\ call_string "f" sample_sig [PPatch; PText "it's"; PText "2"; PPatch] [("z", PTuple [PText "1"]); ("c", PText "k")]
     = Ok "f(a=""it's"",args='(Patch...)',b='2',c='k',z='(1)')".
Proof. split; [repeat constructor; cbn; intuition discriminate|vm_compute; reflexivity]. Qed.

(** An entry tells what was called and with which arguments: two calls with the same
    entry are calls of functions with the same name, and give the same arguments
    values with the same texts, whatever quotes, commas, brackets or backslashes those
    contain. *)
Theorem C38_entry_told_apart : forall name name' g g' pos pos' kw kw' t,
  names_apart g -> names_apart g' -> NoDup (map fst kw) -> NoDup (map fst kw') ->
  without "("%char name -> without "("%char name' ->
  (forall p s, given g pos kw p s -> without "="%char p) -> (forall p s, given g' pos' kw' p s -> without "="%char p) ->
  call_string name g pos kw = Ok t -> call_string name' g' pos' kw' = Ok t ->
  name = name' /\ forall p s, given g pos kw p s <-> given g' pos' kw' p s.
Proof. exact told_apart. Qed.
Print Assumptions C38_entry_told_apart.
Lemma without_ok c s : (forall b, In b (String.list_ascii_of_string s) -> b <> c) -> without c s.
Proof.
  intros H a b ->. apply (H c); [|reflexivity]. clear H. induction a as [|x a IH]; cbn; [now left|right; exact IH].
Qed.
(** By place and by name, with texts full of the characters entries are made of. *)
Example C38_entry_told_apart_applies :
  let pos := [PPatch; PText "x',b='y\"; PText """"] in let kw := [("z", PTuple [PText "1"; PNone])] in
  let pos' := [PPatch; PText "x',b='y\"] in let kw' := [("z", PTuple [PText "1"; PNone]); ("b", PText """")] in
  exists t, names_apart sample_sig /\ without "("%char "f" /\ (forall p s, given sample_sig pos kw p s -> without "="%char p)
  /\ (forall p s, given sample_sig pos' kw' p s -> without "="%char p)
  /\ call_string "f" sample_sig pos kw = Ok t /\ call_string "f" sample_sig pos' kw' = Ok t
  /\ t = "f(a=""x',b='y\\"",args='()',b='""',z='(1,None)')".
Proof.
  cbv zeta. eexists. split; [repeat constructor; cbn; intuition discriminate|]. split.
  { apply without_ok. intros b [<-|[]]. discriminate. }
  assert (N : forall pos kw, (forall k, In k (map fst kw) -> k = "z" \/ k = "b") ->
     forall p s, given sample_sig pos kw p s -> without "="%char p).
  { intros pos kw Hk p s (v & [(_ & R & _)|(_ & Ex & _)] & _).
    - assert (In p ["patch"; "a"; "b"; "args"; "c"]) as I.
      { inversion R; subst; cbn in *; try (apply nth_error_In in H; cbn in H; intuition congruence); intuition congruence. }
      cbn in I. destruct I as [<-|[<-|[<-|[<-|[<-|[]]]]]]; apply without_ok; cbn; intros b I; intuition (subst; discriminate).
    - apply (in_map fst) in Ex. apply Hk in Ex. cbn in Ex. destruct Ex as [-> | ->]; apply without_ok; cbn; intros b I; intuition (subst; discriminate). }
  split; [apply N; cbn; intuition congruence|]. split; [apply N; cbn; intuition congruence|].
  split; [vm_compute; reflexivity|]. split; [vm_compute; reflexivity|]. reflexivity.
Qed.

(** The order of the keywords, an argument given by place or by name, and a default
    given or left out make no difference. *)
Theorem C38_entry_keywords : forall name g pos kw kw', NoDup (map fst kw) -> Permutation kw kw' ->
  call_string name g pos kw = call_string name g pos kw'.
Proof. exact entry_keywords. Qed.
Print Assumptions C38_entry_keywords.
Theorem C38_entry_positional : forall name g pos kw x d v, nth_error (g_pos g) (List.length pos) = Some (x, d) ->
  NoDup (map fst (g_pos g) ++ map fst (g_only g)) -> ~ In x (map fst kw) ->
  call_string name g (pos ++ [v]) kw = call_string name g pos ((x, v) :: kw).
Proof. exact entry_positional. Qed.
Print Assumptions C38_entry_positional.
Theorem C38_entry_default : forall name g pos kw x d, In (x, Some d) (skipn (List.length pos) (g_pos g) ++ g_only g) ->
  NoDup (map fst (g_pos g) ++ map fst (g_only g)) -> ~ In x (map fst kw) ->
  call_string name g pos ((x, d) :: kw) = call_string name g pos kw.
Proof. exact entry_default. Qed.
Print Assumptions C38_entry_default.
Example C38_entry_same_applies :
  NoDup (map fst (g_pos sample_sig) ++ map fst (g_only sample_sig))
  /\ nth_error (g_pos sample_sig) 2 = Some ("b", Some (PText "3"))
  /\ In ("b", Some (PText "3")) (skipn 2 (g_pos sample_sig) ++ g_only sample_sig)
  /\ call_string "f" sample_sig [PPatch; PText "1"; PText "3"] [("k", PText "0")] = Ok "f(a='1',args='()',b='3',k='0')"
  /\ call_string "f" sample_sig [PPatch; PText "1"] [("k", PText "0"); ("b", PText "3")] = Ok "f(a='1',args='()',b='3',k='0')"
  /\ call_string "f" sample_sig [PPatch; PText "1"] [("k", PText "0")] = Ok "f(a='1',args='()',b='3',k='0')".
Proof.
  split; [repeat constructor; cbn; intuition discriminate|]. split; [reflexivity|]. split; [now left|].
  split; [vm_compute; reflexivity|]. split; vm_compute; reflexivity.
Qed.

(** ** Where it is not so *)

(** A function with a data_type that gives back its argument: the result is a new patch
    with another data_type and no entry says so (utils/patch.py 282-293). *)
Theorem C38_type_refuted : exists (f : pfunc) r s q, f_mode f = Full /\ conforms first_patch
  /\ requirements_met f first_patch
  /\ call f returning 0 [PText "1"] [] first_state = (Ok (RRef r), s) /\ r <> 0%nat /\ nth_error (heap s) r = Some q
  /\ value_of (h_attrs q) "data_type" <> value_of (h_attrs first_patch) "data_type"
  /\ value_of (h_attrs q) "history" = value_of (h_attrs first_patch) "history".
Proof.
  exists sample. do 3 eexists. split; [reflexivity|]. split; [exact first_conforms|]. split; [exact sample_met|].
  split; [vm_compute; reflexivity|]. split; [discriminate|]. split; [vm_compute; reflexivity|]. split; [discriminate|reflexivity].
Qed.
Print Assumptions C38_type_refuted.

(** Earlier entries are not left alone when the history is one string, which the
    attributes allow (core/attrs.py 121): it is taken apart into characters
    (utils/patch.py 290). *)
Theorem C38_text_refuted : exists (p q : hpatch nat) r s, value_of (h_attrs p) "history" = Some (AStr "read")
  /\ call sample copying 0 [PText "1"] [] (mkSt [p] 0%nat) = (Ok (RRef r), s) /\ nth_error (heap s) r = Some q
  /\ history_is q ["r"; "e"; "a"; "d"; "f(a='1',args='()',b='3')"].
Proof.
  exists (mkH (mkAttrs [("gauge", ANum 3); ("history", AStr "read")] "time,distance" (a_coords first_attrs))
            ["time"; "distance"] (a_coords first_attrs) 7%nat).
  do 3 eexists. split; [reflexivity|]. split; [vm_compute; reflexivity|]. split; [vm_compute; reflexivity|reflexivity].
Qed.
Print Assumptions C38_text_refuted.

(** One call leaves more than one entry when the function calls another patch function
    by its decorated name: roll with update_coord calls update_coords (proc/basic.py
    707); so do whiten (proc/whiten.py 143, 162) and resample (proc/resample.py 248). *)
Theorem C38_nested_refuted : exists (q : hpatch nat) r s,
  call (mkF "roll" (mkSig [("patch", None); ("samples", Some (PText "False")); ("update_coord", Some (PText "False"))] None [] (Some "kwargs"))
            None None AnyAttrs Full None)
       (fun i _ _ st => call (mkF "update_coords" (mkSig [("self", None)] None [] (Some "kwargs")) None None AnyAttrs Full None)
                             copying i [] [("time", PText "[1 2 0]")] st)
       0 [] [("time", PText "2"); ("update_coord", PText "True")] first_state = (Ok (RRef r), s)
  /\ nth_error (heap s) r = Some q
  /\ history_is q ["read()"; "update_coords(time='[1 2 0]')"; "roll(samples='False',time='2',update_coord='True')"].
Proof. do 3 eexists. split; [vm_compute; reflexivity|]. split; [vm_compute; reflexivity|reflexivity]. Qed.
Print Assumptions C38_nested_refuted.

(** Two calls with different arguments leave the same entry. *)
Theorem C38_distinct_refuted : exists v w, v <> w
  /\ call_string "f" sample_sig [PPatch; v] [] = call_string "f" sample_sig [PPatch; w] []
  /\ exists t, call_string "f" sample_sig [PPatch; v] [] = Ok t.
Proof.
  exists (PList [PText "1"; PText "2"]), (PText "[1,2]"). split; [discriminate|]. split; [vm_compute; reflexivity|].
  eexists. vm_compute. reflexivity.
Qed.
Print Assumptions C38_distinct_refuted.

(** A required attribute with a value that the patch does not have at all is no
    PatchAttributeError, which the documentation promises (utils/patch.py 171). *)
Theorem C38_missing_attr_refuted : exists e, e <> PatchAttributeError
  /\ call (mkF "f" sample_sig None None (TheseAttrs [("other", ANum 1)]) Full None) copying 0 [] [] first_state = (Err e, first_state).
Proof. exists AttributeError. split; [discriminate|]. vm_compute. reflexivity. Qed.
Print Assumptions C38_missing_attr_refuted.

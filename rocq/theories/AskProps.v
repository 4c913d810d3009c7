(** C98: arguments that name dimensions. *)
From Verif Require Import Base BaseFacts CmModel AskModel AskSpec AskProofs.
From Coq Require Import Strings.String Lia.
Local Open Scope Z_scope.
Local Open Scope string_scope.
Local Open Scope list_scope.

(** Each dimension that is asked for is in the result with its axis and the value of its
    keyword, and nothing else is. *)
Theorem C98_found : forall V dims (args : list (aval V)) kw multiple extra, NoDup dims -> NoDup (map fst kw) ->
  (exists a, asked args kw a /\ is_dim dims a) -> (multiple = true \/ ~ several dims args kw) -> (extra = true \/ forall a, asked args kw a -> is_dim dims a) ->
  exists out, dim_axis_value dims args kw multiple extra = Ok out /\ out <> [] /\
    (forall d, In d (out_names out) <-> In d dims /\ asked args kw (Name d)) /\
    (forall d ax v, In (d, ax, v) out -> nth_error dims ax = Some d /\ forall x, v = Some x <-> In (d, x) kw /\ ~ name_key d).
Proof. exact @ask_ok. Qed.
Print Assumptions C98_found.
(** Keywords and positional names keep their order. *)
Theorem C98_keywords : forall V dims (kw : list (string * aval V)) (multiple extra : bool), NoDup dims -> NoDup (map fst kw) -> kw <> [] -> (multiple = true \/ zlen kw = 1) ->
  (forall k, In k (map fst kw) -> In k dims /\ ~ name_key k) ->
  exists out, dim_axis_value dims [] kw multiple extra = Ok out /\
    Forall2 (fun e o => fst (fst o) = fst e /\ nth_error dims (snd (fst o)) = Some (fst e) /\ snd o = Some (snd e)) kw out.
Proof. exact @ask_keywords. Qed.
Print Assumptions C98_keywords.
Theorem C98_positional : forall V dims ds (multiple extra : bool), NoDup dims -> ds <> [] -> (multiple = true \/ zlen ds = 1) -> (forall d, In d ds -> In d dims) ->
  exists out, dim_axis_value dims (map (@Name V) ds) [] multiple extra = Ok out /\
    Forall2 (fun d o => fst (fst o) = d /\ nth_error dims (snd (fst o)) = Some d /\ snd o = None) ds out.
Proof. exact @ask_positional. Qed.
Print Assumptions C98_positional.
(** A name under dim, coord, dims or coords counts as one more positional argument. *)
Theorem C98_implicit : forall V dims (args : list (aval V)) k d kw multiple extra, name_key k -> (forall x, In x (map fst kw) -> ~ name_key x) ->
  dim_axis_value dims args ((k, d) :: kw) multiple extra = dim_axis_value dims (args ++ [d]) kw multiple extra.
Proof. exact @ask_implicit. Qed.
Print Assumptions C98_implicit.
(** Without allow_multiple all of the result is one dimension. *)
Theorem C98_single : forall V dims (args : list (aval V)) kw extra out, NoDup dims -> NoDup (map fst kw) -> dim_axis_value dims args kw false extra = Ok out ->
  exists d, In d dims /\ out <> [] /\ forall e, In e out -> fst (fst e) = d.
Proof. exact @ask_single. Qed.
Print Assumptions C98_single.
(** No dimension, or several where one is allowed, and things that are no dimensions are refused. *)
Theorem C98_refused : forall V dims (args : list (aval V)) kw, NoDup dims -> NoDup (map fst kw) ->
  (forall multiple extra, (forall a, asked args kw a -> ~ is_dim dims a) -> dim_axis_value dims args kw multiple extra = Err ParameterError) /\
  (forall extra, several dims args kw -> dim_axis_value dims args kw false extra = Err ParameterError) /\
  (forall multiple, (exists a, asked args kw a /\ is_dim dims a) -> (multiple = true \/ ~ several dims args kw) -> (exists a, asked args kw a /\ ~ is_dim dims a) ->
     dim_axis_value dims args kw multiple false = Err PatchCoordinateError).
Proof.
  intros V dims args kw ND N. split; [intros m x; exact (ask_none dims args kw m x N)|]. split; [intros x; exact (ask_many dims args kw x N)|].
  intros m. exact (ask_extra dims args kw m ND N).
Qed.
Print Assumptions C98_refused.

(** Without allow_multiple the result can still have two entries, of the same dimension. *)
Theorem C98_one_entry_refuted : exists dims args kw out, NoDup dims /\ NoDup (map fst kw) /\ @dim_axis_value Z dims args kw false false = Ok out /\ zlen out = 2.
Proof.
  exists ["time"], [Name "time"], [("time", Thing 3)]. eexists. split; [repeat constructor; cbn; intuition discriminate|]. split; [repeat constructor; cbn; intuition discriminate|]. split; reflexivity.
Qed.
Print Assumptions C98_one_entry_refuted.
(** A dimension called dim (or coord, dims, coords) cannot be given a value. *)
Theorem C98_dim_refuted : exists dims kw, NoDup dims /\ NoDup (map fst kw) /\ In "dim" dims /\ kw = [("dim", Thing 3)] /\ @dim_axis_value Z dims [] kw false false = Err ParameterError.
Proof. exists ["dim"], [("dim", Thing 3)]. split; [repeat constructor; cbn; intuition discriminate|]. split; [repeat constructor; cbn; intuition discriminate|]. split; [left; reflexivity|]. split; reflexivity. Qed.
Print Assumptions C98_dim_refuted.
Example C98_witness : let dims := ["time"; "distance"; "depth"] in NoDup dims /\
  dim_axis_value dims [Name "depth"] [("distance", Thing 3); ("coord", Name "time")] true false = Ok [("depth", 2%nat, None); ("time", 0%nat, None); ("distance", 1%nat, Some (Thing 3))] /\
  dim_axis_value dims [] [("distance", Thing 3); ("size", Thing 4)] false true = Ok [("distance", 1%nat, Some (Thing 3))] /\
  dim_axis_value dims [] [("distance", Thing 3); ("size", Thing 4)] false false = Err PatchCoordinateError /\
  dim_axis_value dims [] [("distance", Thing 3); ("time", Thing 4)] false false = Err ParameterError /\
  @dim_axis_value Z dims [] [("coords", Name "distance"); ("dim", Name "time")] true false = Ok [("time", 0%nat, None); ("distance", 1%nat, None)] /\
  asked [Name "depth"] [("distance", Thing 3); ("coord", Name "time")] (Name "time").
Proof.
  split; [repeat constructor; cbn; intuition discriminate|]. do 5 (split; [reflexivity|]). right. left. exists "coord". split; [right; left; reflexivity|right; left; reflexivity].
Qed.

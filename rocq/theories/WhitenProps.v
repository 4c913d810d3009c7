(** C104: the arguments of whiten. *)
From Verif Require Import Base WhitenModel WhitenSpec WhitenProofs.
From Coq Require Import Strings.String QArith Lqa.
Local Open Scope string_scope.
Local Open Scope list_scope.

(** The arguments are accepted exactly if the keywords mean a dimension of the patch (time if
    there are none, transformed or not), the smoothing is between zero and the largest frequency,
    the water level is a float from zero to one, and the frequencies are two steps apart. *)
Theorem C104_accepted : forall dims kw fmax step smooth water d t, whiten_args dims kw fmax step smooth water = Ok (d, t) <->
  transformed d t /\ good_smoothing fmax smooth water /\ exists r, meant dims kw d r /\ good_range step r.
Proof. exact args_ok. Qed.
Print Assumptions C104_accepted.
(** All other arguments give ParameterError. *)
Theorem C104_refused : forall dims kw fmax step smooth water e, whiten_args dims kw fmax step smooth water = Err e -> e = ParameterError.
Proof. exact args_err. Qed.
Print Assumptions C104_refused.
(** Accepted frequencies increase. *)
Theorem C104_increasing : forall step r, (0 <= step)%Q -> spaced step r -> forall i j x y, (i < j)%nat -> nth_error r i = Some x -> nth_error r j = Some y -> (x + 2 * step <= y)%Q.
Proof. exact spaced_increasing. Qed.
Print Assumptions C104_increasing.
(** The names of transformed dimensions. *)
Theorem C104_names : forall d t, (forward_rename d = t <-> transformed d t) /\ (inverse_rename d = t <-> restored d t).
Proof. intros d t. split; [apply forward_spec|apply inverse_spec]. Qed.
Print Assumptions C104_names.
(** The inverse gives the name back. *)
Theorem C104_name_back : forall d, (forall r, d <> ("ift_ft_" ++ r)%string) -> inverse_rename (forward_rename d) = d.
Proof. exact rename_back. Qed.
Print Assumptions C104_name_back.
(** It does not for every name. *)
Theorem C104_name_back_refuted : exists d, inverse_rename (forward_rename d) <> d.
Proof. exists "ift_ft_time". discriminate. Qed.
Print Assumptions C104_name_back_refuted.
(** A water level from zero to one is refused if it is not a float, and any is accepted without
    smoothing. *)
Theorem C104_water_refuted : whiten_args ["time"] [] 50 1 (Some 2) (Some LOther) = Err ParameterError /\ whiten_args ["time"] [] 50 1 None (Some (LFloat 7)) = Ok ("time", "ft_time").
Proof. split; reflexivity. Qed.
Print Assumptions C104_water_refuted.

Example C104_witness :
  whiten_args ["time"; "distance"] [("distance", Some [1; 4; 10; 20]%Q)] 50 1 (Some 2) (Some (LFloat (1#20))) = Ok ("distance", "ft_distance") /\
  whiten_args ["ft_time"] [("time", None)] 50 1 None None = Ok ("time", "ft_time") /\ whiten_args ["ft_time"] [] 50 1 None None = Ok ("time", "ft_time") /\
  whiten_args ["distance"] [] 50 1 None None = Err ParameterError /\ whiten_args ["time"] [("distance", None)] 50 1 None None = Err ParameterError /\
  whiten_args ["time"; "distance"] [("time", None); ("distance", None)] 50 1 None None = Err ParameterError /\
  whiten_args ["time"] [("time", Some [1; 2]%Q)] 50 1 None None = Err ParameterError /\ whiten_args ["time"] [] 50 1 (Some 50) None = Err ParameterError /\
  whiten_args ["time"] [] 50 1 (Some 0) None = Err ParameterError.
Proof. repeat split; reflexivity. Qed.
Example C104_witness_spaced : spaced 1 [1; 4; 10]%Q /\ forall r, "time" <> ("ift_ft_" ++ r)%string.
Proof. split; [apply range_ok; reflexivity|intros r; discriminate]. Qed.

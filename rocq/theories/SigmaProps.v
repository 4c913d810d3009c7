(** C105: the smoothing of masks. *)
From Verif Require Import Base FrameModel SigmaModel SigmaSpec SigmaProofs.
From Coq Require Import Strings.String QArith Lia.
Local Open Scope string_scope.
Local Open Scope list_scope.

(** The filter gets the axes of the dimensions for which smoothing is asked, in the order of the
    mask's dimensions, and for each the number of samples meant by the value for this dimension.
    This is the only result, and it is given for every parameter which means one. *)
Theorem C105_sigma : forall len count dims axes s ns ax, NoDup dims -> List.length dims = List.length axes -> smooth_sigma len count dims axes s = Ok (ns, ax) <->
  (forall m k, s = PerDim m -> In k (map fst m) -> In k dims) /\ ax = map snd (smoothed s (combine dims axes)) /\
  Forall2 (fun e n => exists v, asked s (fst e) = Some v /\ width len count (fst e) v n) (smoothed s (combine dims axes)) ns.
Proof. exact sigma_ok. Qed.
Print Assumptions C105_sigma.
(** A parameter is refused only for a name which is not one of the mask's dimensions, a float not
    from zero to one, or a quantity without a sample count. *)
Theorem C105_refused : forall len count dims axes s e, NoDup dims -> List.length dims = List.length axes -> smooth_sigma len count dims axes s = Err e ->
  (e = ParameterError /\ exists m k, s = PerDim m /\ In k (map fst m) /\ ~ In k dims) \/
  (e = ParameterError /\ exists d q, In d dims /\ asked s d = Some (VFloat q) /\ ~ (0 <= q /\ q <= 1)%Q) \/
  exists d q, In d dims /\ asked s d = Some (VQuantity q) /\ count d q = Err e.
Proof. exact sigma_err. Qed.
Print Assumptions C105_refused.
(** A fraction is never wider than the dimension. *)
Theorem C105_fraction : forall len count d q n, (0 <= len d)%Z -> width len count d (VFloat q) n -> (0 <= n <= len d)%Z.
Proof. exact fraction_bound. Qed.
Print Assumptions C105_fraction.
(** Numbers of samples are not checked: negative ones are passed on. *)
Theorem C105_negative_refuted : smooth_sigma (fun _ => 10%Z) (fun _ _ => Err ParameterError) ["time"] [0%Z] (One (VInt (-3))) = Ok ([(-3)%Z], [0%Z]).
Proof. reflexivity. Qed.
Print Assumptions C105_negative_refuted.

Example C105_witness :
  let len := fun d => if String.eqb d "time" then 10%Z else 25%Z in
  let count := fun d (q : Q) => if String.eqb d "time" then Ok 4%Z else Err ParameterError in
  smooth_sigma len count ["distance"; "time"] [1; 0]%Z (One (VFloat (1 # 10))) = Ok ([2; 1], [1; 0])%Z /\
  smooth_sigma len count ["distance"; "time"] [1; 0]%Z (PerDim [("time", VInt 3)]) = Ok ([3], [0])%Z /\
  smooth_sigma len count ["distance"; "time"] [1; 0]%Z (PerDim [("time", VQuantity 1); ("distance", VNone)]) = Ok ([0; 4], [1; 0])%Z /\
  smooth_sigma len count ["time"] [0]%Z (PerDim [("distance", VInt 3)]) = Err ParameterError /\
  smooth_sigma len count ["time"] [0]%Z (One (VFloat (11 # 10))) = Err ParameterError /\ smooth_sigma len count ["distance"] [1]%Z (One (VQuantity 1)) = Err ParameterError.
Proof. repeat split; reflexivity. Qed.

(** C106: dimensions and coordinates of short-time Fourier transforms. *)
From Verif Require Import Base FrameModel WhitenModel WhitenSpec StftModel StftSpec StftProofs.
From Coq Require Import Strings.String.
Local Open Scope string_scope.
Local Open Scope list_scope.

(** The transform puts the frequency in the place of the dimension, which becomes the last. *)
Theorem C106_dims : forall A dims (cs : coords A) dim time freq window nd out, stft_coords dims cs dim time freq window = Ok (nd, out) ->
  exists a b f, dims = a ++ dim :: b /\ transformed dim f /\ nd = a ++ f :: b ++ [dim].
Proof. intros A. exact stft_result. Qed.
Print Assumptions C106_dims.
(** Its coordinates: the new ones, the window, the old coordinate of the dimension, and those of
    before which are not along the dimension. *)
Theorem C106_coords : forall A dims (cs : coords A) dim f time freq window nd out, NoDup (map fst cs) -> transformed dim f -> own_names f dim -> stft_coords dims cs dim time freq window = Ok (nd, out) ->
  assoc f out = Some ([f], freq) /\ assoc dim out = Some ([dim], time) /\ assoc "_stft_window" out = Some ([], window) /\ (exists ds old, assoc dim cs = Some (ds, old) /\ assoc "_stft_old_coord" out = Some ([], old)) /\
  forall n x, n <> f -> n <> dim -> n <> "_stft_window" -> n <> "_stft_old_coord" -> assoc n out = Some x <-> assoc n cs = Some x /\ ~ In dim (fst x).
Proof. intros A. exact stft_values. Qed.
Print Assumptions C106_coords.
(** The inverse puts it back in the place of the frequency, in whatever order the dimensions
    are. *)
Theorem C106_inverse_dims : forall A dims (cs : coords A) f t nd out, f <> t -> NoDup dims -> istft_coords dims cs f t = Ok (nd, out) -> inverse_dims dims f t nd.
Proof. intros A. exact istft_dims. Qed.
Print Assumptions C106_inverse_dims.
(** If all coordinates are those of dimensions, the inverse of the transform has the dimensions
    and coordinates of before. *)
Theorem C106_back : forall A dims (cs : coords A) dim f time freq window, plain dims cs -> In dim dims -> assoc dim cs <> None -> transformed dim f -> ~ In f dims -> own_names f dim ->
  (forall n, In n dims -> n <> "_stft_window" /\ n <> "_stft_old_coord") ->
  exists nd out back, stft_coords dims cs dim time freq window = Ok (nd, out) /\ istft_coords nd out f dim = Ok (dims, back) /\ forall n, assoc n back = assoc n cs.
Proof. intros A. exact round_trip. Qed.
Print Assumptions C106_back.
(** With any coordinate which is not that of a dimension, and not dropped by the transform, there
    is no inverse. *)
Theorem C106_extra : forall A dims (cs : coords A) dim f time freq window nd out n ds v, NoDup dims -> NoDup (map fst cs) -> stft_coords dims cs dim time freq window = Ok (nd, out) -> transformed dim f -> own_names f dim ->
  assoc n cs = Some (ds, v) -> ~ In dim ds -> ~ In n dims -> n <> f -> n <> "_stft_window" -> n <> "_stft_old_coord" -> istft_coords nd out f dim = Err CoordError.
Proof. intros A. exact extra_refused. Qed.
Print Assumptions C106_extra.
(** The axis along which the inverse is trimmed is that of the restored dimension exactly if the
    frequency came first. *)
Theorem C106_trim : forall A dims (cs : coords A) f t nd out fa ta, f <> t -> NoDup dims -> istft_coords dims cs f t = Ok (nd, out) -> trimmed_axis dims f = Some fa -> at_axis dims ta t -> at_axis nd fa t <-> (fa < ta)%nat.
Proof. intros A. exact istft_trim_at. Qed.
Print Assumptions C106_trim.

Definition two_dims : coords Z := [("time", (["time"], 1%Z)); ("distance", (["distance"], 2%Z))].
Definition with_latitude : coords Z := two_dims ++ [("latitude", (["distance"], 3%Z))].
(** Not every transform has an inverse: coordinates along other dimensions prevent it. *)
Theorem C106_back_refuted : exists nd out, stft_coords ["time"; "distance"] with_latitude "time" 4%Z 5%Z 6%Z = Ok (nd, out) /\
  assoc "latitude" out = Some (["distance"], 3%Z) /\ istft_coords nd out "ft_time" "time" = Err CoordError.
Proof. do 2 eexists. split; [reflexivity|]. split; reflexivity. Qed.
Print Assumptions C106_back_refuted.
(** After a transposition the wrong axis is trimmed: here that of distance, or one too many. *)
Theorem C106_trim_refuted : exists nd out back, stft_coords ["time"; "distance"] two_dims "time" 4%Z 5%Z 6%Z = Ok (nd, out) /\
  istft_coords ["time"; "ft_time"; "distance"] out "ft_time" "time" = Ok (["time"; "distance"], back) /\ trimmed_axis ["time"; "ft_time"; "distance"] "ft_time" = Some 1%nat /\
  trimmed_axis ["distance"; "time"; "ft_time"] "ft_time" = Some 2%nat.
Proof. do 3 eexists. split; [reflexivity|]. split; [reflexivity|]. split; reflexivity. Qed.
Print Assumptions C106_trim_refuted.

Example C106_witness : stft_coords ["time"; "distance"] two_dims "time" 4%Z 5%Z 6%Z =
    Ok (["ft_time"; "distance"; "time"], [("distance", (["distance"], 2)); ("time", (["time"], 4)); ("ft_time", (["ft_time"], 5)); ("_stft_window", ([], 6)); ("_stft_old_coord", ([], 1))]%Z) /\
  exists back, istft_coords ["ft_time"; "distance"; "time"] [("distance", (["distance"], 2)); ("time", (["time"], 4)); ("ft_time", (["ft_time"], 5)); ("_stft_window", ([], 6)); ("_stft_old_coord", ([], 1))]%Z "ft_time" "time" = Ok (["time"; "distance"], back).
Proof. split; [reflexivity|]. eexists. reflexivity. Qed.
Example C106_witness_plain : plain ["time"; "distance"] two_dims /\ transformed "time" "ft_time" /\ own_names "ft_time" "time" /\ (forall n, In n ["time"; "distance"] -> n <> "_stft_window" /\ n <> "_stft_old_coord").
Proof.
  split; [|split; [right; split; [intros r; discriminate|reflexivity]|split; [split; [discriminate|intros n [->| ->]; split; discriminate]|intros n [<-|[<-|[]]]; split; discriminate]]].
  split; [repeat constructor; cbn; intuition discriminate|]. split; [repeat constructor; cbn; intuition discriminate|]. intros n ds v. unfold two_dims. cbn.
  destruct (String.eqb_spec n "time") as [->|]; [intros [= <- _]; auto|]. destruct (String.eqb_spec n "distance") as [->|]; [intros [= <- _]; auto|discriminate].
Qed.

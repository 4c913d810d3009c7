(** Specification vocabulary for Febus files (C108). *)
From Verif Require Import Base FrameModel FebusModel.
From Coq Require Import Strings.String Strings.Ascii Permutation.
Local Open Scope list_scope.

(** A file of this kind: there is an instrument, sources are called so and have four attributes. *)
Definition fingerprint (f : febus_file) : Prop :=
  f <> [] /\ forall i ss s x, In (i, ss) f -> In (s, x) ss ->
    (exists r, s = ("Source" ++ r)%string) /\ forall a, a = "AmpliPower"%string \/ a = "Hostname"%string \/ a = "WholeExtent"%string \/ a = "SamplingRate"%string -> In a (s_attrs x).
(** The first number of a version. *)
Definition major (v m : string) : Prop := (forall a b, m <> (a ++ String "."%char b)%string) /\ (v = m \/ exists r, v = (m ++ String "."%char r)%string).
(** All sources, in the order in which they are gone through. *)
Definition all_sources (f : febus_file) : list source := flat_map (fun i => map snd (snd i)) f.
(** The same file, with sources in another order. *)
Definition reordered (f g : febus_file) : Prop := Forall2 (fun a b => fst a = fst b /\ Permutation (snd a) (snd b)) f g.
(** A zone of a file, which is not the times. *)
Definition zone_of (f : febus_file) (i s z : string) (ds : list string) : Prop :=
  z <> "time"%string /\ exists ss x, In (i, ss) f /\ In (s, x) ss /\ In (z, ds) (s_zones x).
(** All zones of a file which are not the times, in the order of the file. *)
Definition listed (f : febus_file) : list (string * string * string * list string) :=
  flat_map (fun i => flat_map (fun s => flat_map (fun z => if string_dec (fst z) "time" then [] else [(fst i, fst s, fst z, snd z)]) (s_zones (snd s))) (snd i)) f.

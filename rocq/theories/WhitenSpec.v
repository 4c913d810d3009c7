(** Specification vocabulary for the arguments of whiten (C104). *)
From Verif Require Import Base WhitenModel.
From Coq Require Import Strings.String QArith.
Local Open Scope list_scope.

(** The name of a dimension after a transform. *)
Definition transformed (d t : string) : Prop := d = ("ift_" ++ t)%string \/ ((forall r, d <> ("ift_" ++ r)%string) /\ t = ("ft_" ++ d)%string).
(** The name of a dimension after the inverse. *)
Definition restored (t d : string) : Prop := t = ("ft_" ++ d)%string \/ ((forall r, t <> ("ft_" ++ r)%string) /\ d = ("ift_" ++ t)%string).
(** The dimension and range meant by the keywords, for a patch with some dimensions. *)
Definition meant (dims : list string) (kw : list (string * freqs)) (d : string) (r : freqs) : Prop :=
  (kw = [] /\ (In "time"%string dims \/ In "ft_time"%string dims) /\ d = "time"%string /\ r = None) \/
  (kw = [(d, r)] /\ (In d dims \/ exists t, transformed d t /\ In t dims)).
Definition good_smoothing (fmax : Q) (smooth : option Q) (water : option level) : Prop :=
  forall s, smooth = Some s -> (0 < s /\ s < fmax /\ (water = None \/ exists w, water = Some (LFloat w) /\ 0 <= w /\ w <= 1))%Q.
(** Neighbours in a range are two steps apart or more. *)
Definition spaced (step : Q) (r : list Q) : Prop := forall l x y t, r = l ++ x :: y :: t -> (x + 2 * step <= y)%Q.
Definition good_range (step : Q) (r : freqs) : Prop := forall l, r = Some l -> spaced step l.

(** Model of the arguments of Patch.whiten (dascore/proc/whiten.py) and of names of transformed
    dimensions (dascore/utils/transformatter.py).

    Floats are exact rationals. The largest frequency and the step of the frequencies are
    arguments. Not modelled: the transforms, the taper and the sample count of the smoothing,
    which can refuse arguments too. *)
From Verif Require Import Base FrameModel.
From Coq Require Import Strings.String QArith.
Local Open Scope list_scope.

Fixpoint strip (p s : string) : option string :=
  match p, s with
  | EmptyString, _ => Some s
  | String a p', String b s' => if Ascii.eqb a b then strip p' s' else None
  | String _ _, EmptyString => None
  end.
(** transformatter.py 16-20, 41-42. *)
Definition forward_rename (n : string) : string := match strip "ift_" n with Some r => r | None => ("ft_" ++ n)%string end.
(** transformatter.py 22-26, 41-42. *)
Definition inverse_rename (n : string) : string := match strip "ft_" n with Some r => r | None => ("ift_" ++ n)%string end.
Definition freqs := option (list Q).
(** whiten.py 14-40. *)
Definition whiten_dim (dims : list string) (kw : list (string * freqs)) : result (string * freqs) :=
  match kw with
  | [] => if mem "time" dims || mem "ft_time" dims then Ok ("time"%string, None) else Err ParameterError
  | [(d, r)] => if negb (mem d dims) && negb (mem (forward_rename d) dims) then Err ParameterError else Ok (d, r)
  | _ => Err ParameterError
  end.
(** A water level, which is a float or something else. *)
Inductive level := LFloat (q : Q) | LOther.
Definition qltb (a b : Q) : bool := negb (Qle_bool b a).
(** whiten.py 55-66. *)
Definition check_smooth (fmax smooth : Q) (water : option level) : result unit :=
  if match water with None => false | Some LOther => true | Some (LFloat w) => qltb w 0 || qltb 1 w end then Err ParameterError
  else if Qle_bool smooth 0 then Err ParameterError
  else if Qle_bool fmax smooth then Err ParameterError
  else Ok tt.
Fixpoint diffs (r : list Q) : list Q :=
  match r with
  | x :: ((y :: _) as t) => (y - x)%Q :: diffs t
  | _ => []
  end.
(** whiten.py 69-78. *)
Definition check_range (step : Q) (r : list Q) : result unit := if existsb (fun d => qltb d (step * 2)) (diffs r) then Err ParameterError else Ok tt.
(** whiten.py 140-158: the dimension and the name of its transform. *)
Definition whiten_args (dims : list string) (kw : list (string * freqs)) (fmax step : Q) (smooth : option Q) (water : option level) : result (string * string) :=
  do x <- whiten_dim dims kw;
  do _ <- match smooth with None => Ok tt | Some s => check_smooth fmax s water end;
  do _ <- match snd x with Some ((_ :: _) as r) => check_range step r | _ => Ok tt end;
  Ok (fst x, forward_rename (fst x)).

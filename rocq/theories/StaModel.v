(** Model of the ratio of short-term to long-term averages (dascore/transform/stalta.py).

    Data are exact rationals; [None] is NaN or infinite. Windows are numbers of samples or
    lengths along the dimension. The two averages have the coordinates of the patch (rolling.py
    66-67), so dividing them aligns nothing (utils/patch.py 971-982; C39). *)
From Verif Require Import Base CoordModel NdModel CmModel FrameModel ProcModel BinOpModel.
From Coq Require Import Strings.String QArith.
Local Open Scope Z_scope.
Local Open Scope list_scope.

Fixpoint sum_of (l : list (option Q)) : option Q :=
  match l with
  | [] => Some 0%Q
  | x :: t => match x, sum_of t with Some a, Some s => Some (a + s)%Q | _, _ => None end
  end.
(** The mean of a window; one NaN makes it NaN. *)
Definition mean_of (l : list (option Q)) : option Q :=
  match sum_of l with Some s => Some (s / inject_Z (zlen l))%Q | None => None end.
Definition divide (a b : option Q) : option Q :=
  match a, b with Some x, Some y => if Qeq_bool y 0 then None else Some (x / y)%Q | _, _ => None end.

(** misc.py 603-627, stalta.py 55-58. *)
Definition sta_args (kw : list (string * list (option Z))) : result (string * (Z * Z)) :=
  match kw with
  | [(d, [a; b])] =>
      match a, b with
      | None, None => Err FilterValueError
      | Some sta, Some lta => if lta <=? sta then Err ParameterError else Ok (d, (sta, lta))
      | _, _ => Err TypeError
      end
  | _ => Err FilterValueError
  end.
(** stalta.py 55-63. *)
Definition pt_stalta (p : patch (option Q)) (kw : list (string * list (option Z))) (samples : bool) : result (patch (option Q)) :=
  do a <- sta_args kw;
  let d := fst a in
  do s <- pt_rolling p d (fst (snd a)) None None false samples None mean_of None;
  do l <- pt_rolling p d (snd (snd a)) None None false samples None mean_of None;
  do b <- nd_map2 divide (p_data s) (p_data l);
  Ok (mkPatch (p_cm s) b).

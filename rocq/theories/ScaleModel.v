(** Model of demean, demedian, normalize and standardize (dascore/proc/basic.py).

    Simplifications: data are exact rationals, [None] is NaN; complex data, infinities and
    axes without samples are left out; the decorator (history, attributes) is left out. *)
From Verif Require Import Base NdModel FrameModel CmModel CalcModel MoveModel.
From Coq Require Import Strings.String QArith Qabs.
Local Open Scope Z_scope.
Local Open Scope list_scope.

(** What numpy's nan functions reduce over. *)
Definition present (l : list (option Q)) : list Q := flat_map (fun v => match v with Some x => [x] | None => [] end) l.
(** Nothing but NaN reduces to NaN, and with it all elements are NaN. *)
Definition with_present (f : list Q -> Q -> Q) (l : list (option Q)) : list (option Q) :=
  match present l with
  | [] => map (fun _ => None) l
  | v => map (option_map (f v)) l
  end.
(** basic.py 959-961. *)
Definition demean_line : list (option Q) -> list (option Q) := with_present (fun v x => x - qmean v)%Q.
(** basic.py 896-898. *)
Definition demedian_line : list (option Q) -> list (option Q) := with_present (fun v x => x - bn_median v)%Q.
(** basic.py 400: divisors of zero become one. *)
Definition nonzero (d : Q) : Q := if Qeq_bool d 0 then 1%Q else d.

Section Root.
(** [root] is the square root. *)
Context (root : Q -> Q).
(** basic.py 381-400; [None] is a norm that is not supported. The sum over nothing but NaN
    is zero, the largest of them NaN. *)
Definition normalize_line (norm : string) : option (list (option Q) -> list (option Q)) :=
  (if String.eqb norm "l1" then Some (fun l => let d := qsum (map Qabs (present l)) in map (option_map (fun x => x / nonzero d)) l)
   else if String.eqb norm "l2" then Some (fun l => let d := root (qsum (map (fun x => Qabs x * Qabs x) (present l))) in map (option_map (fun x => x / nonzero d)) l)
   else if String.eqb norm "max" then Some (with_present (fun v x => x / nonzero (qgreatest (map Qabs v))))
   else if String.eqb norm "bit" then Some (map (option_map (fun x => x / nonzero (Qabs x))))
   else None)%Q.
(** basic.py 442-444; a deviation of zero makes everything 0 / 0. *)
Definition standardize_line (l : list (option Q)) : list (option Q) :=
  match present l with
  | [] => map (fun _ => None) l
  | v => let m := qmean v in
         let s := root (qmean (map (fun x => (x - m) * (x - m)) v))%Q in
         if Qeq_bool s 0 then map (fun _ => None) l else map (option_map (fun x => (x - m) / s)%Q) l
  end.
(** basic.py 892-901, 955-964, 379-401 and 440-445. *)
Definition per_line (f : list (option Q) -> list (option Q)) (dim : string) (p : patch (option Q)) : result (patch (option Q)) :=
  do ax <- get_axis (p_cm p) dim;
  do b <- opt_result (along f ax (p_data p));
  new_patch (p_cm p) b.
(** basic.py 905-964. *)
Definition pt_demean := per_line demean_line.
(** basic.py 842-901. *)
Definition pt_demedian := per_line demedian_line.
(** basic.py 405-445. *)
Definition pt_standardize := per_line standardize_line.
(** basic.py 341-401. *)
Definition pt_normalize (dim norm : string) (p : patch (option Q)) : result (patch (option Q)) :=
  do _ <- get_axis (p_cm p) dim;
  match normalize_line norm with
  | Some f => per_line f dim p
  | None => Err ValueError
  end.
End Root.

(** Specification vocabulary for ratios of averages (C100). *)
From Verif Require Import Base CoordModel NdModel CmModel FrameModel CmSpec ProcModel ProcSpec StaModel.
From Coq Require Import Strings.String QArith.
Local Open Scope Z_scope.
Local Open Scope list_scope.

(** The last [w] samples up to and including position [pos] along the dimension are the numbers [vs]. *)
Definition last_samples (p : patch (option Q)) (dim : string) (pos : string -> Z) (w : Z) (vs : list (option Q)) : Prop :=
  zlen vs = w /\ forall i, 0 <= i < w -> znth vs i = data_at p (at_dim pos dim (pos dim - (w - 1) + i)).
(** What a patch has to be for windows of so many samples. *)
Record rollable (p : patch (option Q)) (dim : string) (r : crange) (samples : bool) (sta lta ws wl : Z) : Prop :=
  { rb_wf : wf_patch p; rb_names : plain_names (p_cm p); rb_dim : In dim (cm_dims (p_cm p));
    rb_coord : assoc dim (cm_coords (p_cm p)) = Some (M1 (CRange r)); rb_step : samples = true \/ 0 < r_step r;
    rb_sta : counts r samples sta ws; rb_lta : counts r samples lta wl; rb_some : 1 <= ws; rb_order : sta < lta;
    rb_fits : roller_fits p (get_engine None 1 (nd_shape (p_data p))) (r_len r) }.
Definition same_value (a b : option Q) : Prop :=
  match a, b with Some x, Some y => (x == y)%Q | None, None => True | _, _ => False end.
Definition scaled_by (c : Q) (a : option Q) : option Q := match a with Some x => Some (c * x)%Q | None => None end.
(** [p'] is [p] with all data multiplied by [c]. *)
Definition multiplied (c : Q) (p p' : patch (option Q)) : Prop :=
  p_cm p' = p_cm p /\ forall pos, match data_at p pos, data_at p' pos with Some a, Some b => same_value b (scaled_by c a) | None, None => True | _, _ => False end.

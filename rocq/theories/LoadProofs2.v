(** Reading with keywords: selecting while reading. *)
From Verif Require Import Base BaseFacts CoordModel CoordSpec CoordProofs CoordProofs2 NdModel NdSpec NdProofs FrameModel FrameSpec FrameProofs5 ChunkModel CmModel CmSpec CmProofs CmProofs2 CmProofs3 CmProofs4 CmProofs5
  AttrsModel AttrsSpec AttrsProofs AttrsProofs2 AttrsProofs8 HistoryModel HistoryProofs HistoryProofs4
  DasdaeModel DasdaeSpec DasdaeProofs DasdaeProofs2 DasdaeProofs3 DasdaeProofs4 DasdaeProofs5 LoadModel LoadSpec LoadProofs.
From Coq Require Import Strings.String Strings.Ascii.
From Coq Require Import ZifyBool Lia.
Local Open Scope Z_scope.
Local Open Scope list_scope.

Section Sel.
Context {A : Type}.
Implicit Types p q : dpatch A.

(** The pieces of a group from which a patch is read. *)
Record parts (g : group A) (p : dpatch A) (a : attrs) : Prop :=
  { pa_attrs : get_attrs g = Ok a;
    pa_dims : get_dims g = Ok (cm_dims (dp_cm p));
    pa_coords : get_coords g (cm_dims (dp_cm p)) a = Ok (dp_cm p, dp_units p);
    pa_data : g_data g = Some (p_data (dp_patch p));
    pa_vals : a_vals a = a_vals (dp_attrs p);
    pa_adims : a_dims a = a_dims (dp_attrs p) }.

Lemma make_ok p a us cm' (data' : nd A) : storable p -> NoDup (map fst (a_vals a)) ->
  (forall k, In k (map fst (a_vals a)) <-> In k (map fst (a_vals (dp_attrs p)))) -> a_dims a = a_dims (dp_attrs p) ->
  wf_patch (mkPatch cm' data') -> cm_dims cm' = cm_dims (dp_cm p) ->
  (forall n, In n (map fst (cm_coords cm')) <-> In n (map fst (cm_coords (dp_cm p)))) ->
  make_patch cm' us data' a = Ok (mkD (mkPatch cm' data') us (mkAttrs (a_vals a) (a_dims a) (cm_sums cm' us))).
Proof.
  intros S Na Va Da W Dc Nc. set (b := mkAttrs (a_vals a) (a_dims a) (cm_sums cm' us)).
  assert (T : tidy (dp_attrs p)) by (apply (st_family _ S); now left).
  assert (Bd : a_dims b = a_dims (dp_attrs p)) by exact Da.
  assert (Nm : forall n, In n (names_of b) <-> In n (names_of (dp_attrs p))).
  { intros n. unfold names_of. rewrite !in_app_iff. cbn [b a_coords]. rewrite sums_keys, Nc, (st_sums _ S), sums_keys. unfold dim_tuple. now rewrite Bd. }
  assert (Tb : tidy b).
  { constructor; cbn [b a_vals a_coords].
    - exact Na.
    - rewrite sums_keys. apply (wf_ckeys _ (wp_cm _ W)).
    - rewrite !Va. apply (t_own _ T).
    - intros Z. exfalso. apply (st_some _ S). now rewrite <- Bd.
    - rewrite !Nm. apply (t_names _ T).
    - intros n s I. unfold cm_sums in I. apply in_map_iff in I. destruct I as ((j & m) & [= _ <-] & _). apply summ_tidy. }
  assert (Ap : forall k, In k (map fst (a_vals b)) -> apart (names_of b) k).
  { intros k K. apply (apart_ext (names_of (dp_attrs p))); [intros n; symmetry; apply Nm|]. apply (proj2 (st_family _ S) (dp_attrs p) (dp_attrs p)); [now left|now left|now apply Va]. }
  assert (Fb : family [b]) by (split; [intros x [<-|[]]; exact Tb|intros x y k [<-|[]] [<-|[]] K; now apply Ap]).
  assert (Db : dim_tuple b = cm_dims cm') by (unfold dim_tuple; rewrite Bd; fold (dim_tuple (dp_attrs p)); rewrite (st_dims _ S); now symmetry).
  assert (U : attrs_update a (mkDict [] (Some (CMan (cm_dims cm') (map (fun e => (fst e, summ_dict (snd e))) (cm_sums cm' us))))) = Ok b).
  { rewrite <- Db. apply (attrs_update_man b Fb). rewrite Bd. apply (st_some _ S). }
  unfold make_patch. rewrite U. cbn [bind]. rewrite Db. rewrite (proj2 (strs_eqb_eq _ _) eq_refl).
  destruct (new_patch_ok cm' data') as (En & _); [apply (wp_cm _ W)|apply (wp_nd _ W)|apply (wp_some _ W)|apply (wp_shape _ W)|].
  rewrite En. reflexivity.
Qed.

Lemma parts_of g p0 : storable p0 -> geq g (fresh p0) -> exists p a, read_patch g = Ok p /\ storable p /\ parts g p a.
Proof.
  intros S G. destruct (read_fresh p0 S) as (p & E & B & Sp & _ & _ & _). exists p.
  rewrite <- (read_patch_ext _ _ G) in E.
  destruct (get_attrs_fresh p0 S) as (a & Ea & Sa & Na & Ka). exists a. split; [exact E|]. split; [exact Sp|].
  destruct G as [Na' Nb Nc Nd Ga Gr Gd].
  assert (Eg : get_attrs g = Ok a).
  { rewrite <- Ea. unfold get_attrs. f_equal. unfold get_attr_dict. rewrite (keys_with_ext _ _ _ Na' Nb Ga). apply fold_left_ext. intros x y. now rewrite Ga. }
  assert (Ed : get_dims g = Ok (cm_dims (dp_cm p0))) by (rewrite <- (get_dims_fresh p0 S); unfold get_dims; now rewrite Ga).
  unfold read_patch in E. rewrite Eg in E. cbn [bind] in E. rewrite Ed in E. cbn [bind] in E.
  destruct (get_coords g (cm_dims (dp_cm p0)) a) as [(cm & us)|] eqn:Ec; cbn [bind] in E; [|discriminate].
  rewrite Gd in E. cbn [fresh g_data] in E.
  assert (Dp : cm_dims (dp_cm p0) = cm_dims (dp_cm p)) by (symmetry; apply (rb_dims _ _ B)).
  assert (Sh : exists a', p = mkD (mkPatch cm (p_data (dp_patch p0))) us a').
  { unfold make_patch in E. destruct (attrs_update _ _) as [a'|]; cbn [bind] in E; [|discriminate]. destruct (strs_eqb _ _); [|discriminate].
    destruct (new_patch cm (p_data (dp_patch p0))) as [pp|] eqn:En; cbn [bind] in E; [|discriminate]. injection E as <-. exists a'. f_equal.
    unfold new_patch in En. destruct (cm_shape cm) as [s|]; cbn [bind] in En; [|discriminate]. destruct (zlist_eqb s _); [|discriminate]. now injection En. }
  destruct Sh as (a' & Ep).
  assert (M : make_patch cm us (p_data (dp_patch p0)) a = Ok (mkD (mkPatch cm (p_data (dp_patch p0))) us (mkAttrs (a_vals a) (a_dims a) (cm_sums cm us)))).
  { apply (make_ok p0); auto.
    - apply (sa_dims _ _ Sa).
    - pose proof (rb_wf _ _ B) as W. now rewrite Ep in W.
    - rewrite Dp, Ep. reflexivity.
    - intros n. pose proof (rb_coords _ _ B n) as C. rewrite Ep in C. unfold dp_cm in *. cbn [dp_patch p_cm] in C.
      rewrite <- !assoc_In. destruct (assoc n (cm_coords (p_cm (dp_patch p0)))), (assoc n (cm_coords cm)); split; intros (x & X); try discriminate; eauto; contradiction. }
  rewrite M in E. injection E as E. rewrite <- E in *. constructor; unfold dp_cm; cbn [dp_patch dp_units dp_attrs p_cm p_data a_vals a_dims]; auto.
  - rewrite Ed. f_equal. exact Dp.
  - replace (cm_dims cm) with (cm_dims (dp_cm p0)) by exact Dp. exact Ec.
Qed.

(** ** Selecting *)
Lemma bound_ok v o : limit v o -> bound v = Ok o.
Proof. intros [(-> & ->)|(z & -> & ->)]; reflexivity. Qed.
Lemma range_sel c r ps : range_of c r ps -> exists s, sel_of r = Ok s /\ asks c false false s ps.
Proof.
  destruct r as [[]|lo hi]; cbn [range_of]; try contradiction.
  - intros ->. exists SelAll. split; [reflexivity|]. cbn [asks]. auto.
  - intros (l & h & L & H & Q). exists (SelPair l h). cbn [sel_of]. rewrite (bound_ok _ _ L), (bound_ok _ _ H). cbn [bind]. split; [reflexivity|].
    cbn [asks andb negb]. auto.
Qed.
Lemma selectable_spec p n r : selectable (dp_cm p) (n, r) = true <-> exists d, ranges_over p n d.
Proof.
  unfold selectable, ranges_over. cbn [fst]. destruct (assoc n (cm_dmap (dp_cm p))) as [ds|]; [|split; [discriminate|intros (d & D); discriminate]].
  destruct ds as [|d [|d' ds]].
  - split; [discriminate|intros (d & D); discriminate].
  - split; [intros _; now exists d|reflexivity].
  - unfold zlen. cbn [List.length]. split; [lia|intros (x & D); discriminate].
Qed.
Lemma NoDup_map_inj' {X Y} (f : X -> Y) l : (forall x y, In x l -> In y l -> f x = f y -> x = y) -> NoDup l -> NoDup (map f l).
Proof.
  induction l as [|x l IH]; intros H N; [constructor|]. apply NoDup_cons_iff in N as (Nx & N). cbn [map]. constructor.
  - intros I. apply in_map_iff in I as (y & E & I). apply Nx. rewrite (H x y); auto; [now left|now right].
  - apply IH; [|exact N]. intros y z I J. apply H; now right.
Qed.
Lemma choose_positions p kw : NoDup (map fst kw) ->
  (forall n r c, In (n, r) kw -> (exists d, ranges_over p n d) -> assoc n (cm_coords (dp_cm p)) = Some (M1 c) -> exists ps, range_of c r ps) ->
  exists psf, forall n r c, In (n, r) kw -> (exists d, ranges_over p n d) -> assoc n (cm_coords (dp_cm p)) = Some (M1 c) -> range_of c r (psf n).
Proof.
  induction kw as [|(k & r) kw IH]; intros N H; [exists (fun _ => []); intros n r c []|].
  cbn [map fst] in N. apply NoDup_cons_iff in N as (Nk & N). destruct IH as (psf & P); [exact N|intros n r0 c I; apply H; now right|].
  assert (X : exists ps, forall c, (exists d, ranges_over p k d) -> assoc k (cm_coords (dp_cm p)) = Some (M1 c) -> range_of c r ps).
  { destruct (selectable (dp_cm p) (k, r)) eqn:Sl.
    - apply selectable_spec in Sl. destruct (assoc k (cm_coords (dp_cm p))) as [[c| |]|] eqn:E; try (exists []; intros; discriminate).
      destruct (H k r c (or_introl eq_refl) Sl E) as (ps & R). exists ps. intros c' _ Q. now injection Q as <-.
    - exists []. intros c D. apply (proj2 (selectable_spec p k r)) in D. congruence. }
  destruct X as (ps & X). exists (fun n => if String.eqb n k then ps else psf n). intros n r0 c [Q|I] D E.
  - injection Q as <- <-. rewrite String.eqb_refl. now apply X.
  - destruct (String.eqb_spec n k) as [->|Nn]; [exfalso; apply Nk; apply in_map_iff; exists (k, r0); auto|]. now apply (P n r0 c).
Qed.

(** A dimension's coordinate has one axis. *)
Lemma over_1d p n d : storable p -> ranges_over p n d -> exists c, assoc n (cm_coords (dp_cm p)) = Some (M1 c).
Proof.
  intros S D. destruct (con_coord _ (wf_con _ (wp_cm _ (st_patch _ S))) n [d] D) as (m & E & Id & Sh). fold (dp_cm p) in E.
  pose proof (wf_vals _ (wp_cm _ (st_patch _ S)) n m E) as W. exists (match m with M1 c => c | _ => CPart 0 end). rewrite E. f_equal.
  destruct Sh as [Q|F]; [discriminate|]. inversion F as [|? ? ? ? F1 F2 Z1 Z2]. inversion F2. subst.
  destruct m as [c|k b|s]; [reflexivity| |]; exfalso; cbn [m_shape wf_mcoord] in *.
  - destruct W as (_ & W & _). rewrite <- Z2 in W. now apply W.
  - destruct W as (_ & W). rewrite <- Z2 in W. now apply W.
Qed.
Theorem select_read g p a kw : storable p -> parts g p a -> can_select kw p ->
  exists q, read_patch_kw g a kw = Ok q /\ selected kw p q.
Proof.
  intros S P C.
  pose proof (st_patch _ S) as Wp.
  destruct (choose_positions p kw (cs_keys _ _ C)) as (psf & Psf).
  { intros n r c I (d & D) E. now apply (cs_range _ _ C n r d c). }
  set (names := map fst (filter (selectable (dp_cm p)) kw)).
  assert (Nm : restricted kw p names).
  { intros n. unfold names. rewrite in_map_iff. split.
    - intros ((k & r) & <- & I). apply filter_In in I as (I & Sl). cbn [fst]. apply selectable_spec in Sl. split; [apply in_map_iff; exists (k, r); auto|exact Sl].
    - intros (I & D). apply in_map_iff in I as ((k & r) & <- & I). cbn [fst] in *. exists (k, r). split; [reflexivity|]. apply filter_In. split; [exact I|]. now apply selectable_spec. }
  assert (Mk : forall cm' (data' : nd A), wf_patch (mkPatch cm' data') -> cm_aligned (dp_cm p) cm' (pick0 (dp_cm p)) (own0 (dp_cm p)) \/ (exists pick own, cm_aligned (dp_cm p) cm' pick own) ->
    make_patch cm' (dp_units p) data' a = Ok (mkD (mkPatch cm' data') (dp_units p) (mkAttrs (a_vals a) (a_dims a) (cm_sums cm' (dp_units p))))).
  { intros cm' data' W Al. assert (Al' : exists pick own, cm_aligned (dp_cm p) cm' pick own) by (destruct Al; eauto). destruct Al' as (pick & own & Ad & _ & Ac).
    assert (T : tidy (dp_attrs p)) by (apply (st_family _ S); now left).
    apply (make_ok p); auto.
    - rewrite (pa_vals _ _ _ P). apply (t_keys _ T).
    - rewrite (pa_vals _ _ _ P). reflexivity.
    - apply (pa_adims _ _ _ P).
    - intros n. specialize (Ac n). rewrite <- !assoc_In. destruct (assoc n (cm_coords (dp_cm p))), (assoc n (cm_coords cm')); split; intros (x & X); try discriminate; eauto; contradiction. }
  assert (Sl : forall cm' (data' : nd A) pick own, CmSpec.aligned (dp_patch p) (mkPatch cm' data') pick own -> picks_kw (dp_cm p) psf names pick own ->
    make_patch cm' (dp_units p) data' a = Ok (mkD (mkPatch cm' data') (dp_units p) (mkAttrs (a_vals a) (a_dims a) (cm_sums cm' (dp_units p)))) /\
    selected kw p (mkD (mkPatch cm' data') (dp_units p) (mkAttrs (a_vals a) (a_dims a) (cm_sums cm' (dp_units p))))).
  { intros cm' data' pick own Al Pk. split; [apply Mk; [apply Al|right; exists pick, own; apply Al]|].
    exists psf, names, pick, own. split; [exact Nm|]. split; [intros n r c I In1 E; apply (Psf n r c I); [now apply Nm|exact E]|].
    split; [exact Al|]. split; [exact Pk|]. cbn [dp_units dp_attrs a_vals a_dims a_coords]. split; [reflexivity|]. split; [apply (pa_vals _ _ _ P)|]. split; [apply (pa_adims _ _ _ P)|reflexivity]. }
  unfold read_patch_kw. rewrite (pa_dims _ _ _ P). cbn [bind]. rewrite (pa_coords _ _ _ P). cbn [bind]. rewrite (pa_data _ _ _ P).
  assert (Z : kw = [] \/ kw <> []) by (destruct kw; [now left|right; discriminate]). destruct Z as [Z|Z].
  { rewrite Z. destruct (Sl (dp_cm p) (p_data (dp_patch p)) (pick0 (dp_cm p)) (own0 (dp_cm p))) as (M & Sd).
    - unfold dp_cm. destruct (dp_patch p) as [cm0 d0] eqn:Edp. apply aligned_self; auto.
    - unfold picks_kw, names. rewrite Z. cbn [filter map]. split; [intros n d []|]. split; [intros n []|]. auto.
    - rewrite Z in Sd. eauto. }
  assert (Hm : forall X (x y : X), match kw with [] => x | _ => y end = y) by (intros; destruct kw; [contradiction|reflexivity]). rewrite Hm.
  assert (Se : exists sel, sel_kwargs (dp_cm p) kw = Ok sel /\ map fst sel = names /\
     forall n s, In (n, s) sel -> exists c, assoc n (cm_coords (dp_cm p)) = Some (M1 c) /\ asks c false false s (psf n)).
  { unfold sel_kwargs, names.
    assert (G : forall l, (forall k r, In (k, r) l -> In (k, r) kw /\ exists d, ranges_over p k d) ->
      exists sel, map_result (fun e => do s <- sel_of (snd e); Ok (fst e, s)) l = Ok sel /\ map fst sel = map fst l /\
       forall n s, In (n, s) sel -> exists c, assoc n (cm_coords (dp_cm p)) = Some (M1 c) /\ asks c false false s (psf n)).
    { induction l as [|(k & r) l IH]; intros H; [exists []; split; [reflexivity|split; [reflexivity|intros n s []]]|].
      destruct IH as (sel & E & M & Q); [intros k0 r0 I; apply H; now right|]. destruct (H k r (or_introl eq_refl)) as (I & d & D).
      destruct (over_1d p k d S D) as (c & Ec). destruct (range_sel c r (psf k)) as (s & Es & As); [apply (Psf k r c I); eauto|].
      exists ((k, s) :: sel). cbn [map_result fst snd]. rewrite Es. cbn [bind]. rewrite E. cbn [bind]. split; [reflexivity|]. split; [cbn [map fst]; now rewrite M|].
      intros n s0 [X|X]; [injection X as <- <-; eauto|now apply Q]. }
    apply G. intros k r I. apply filter_In in I as (I & Sb). split; [exact I|]. now apply selectable_spec in Sb. }
  destruct Se as (sel & Es & Ms & Qs). rewrite Es. cbn [bind].
  destruct (cm_select_one (dp_patch p) false false (fun c s => c_sel c false false s) psf sel Wp (cs_plain _ _ C)) as (cm' & b & pick & own & E & Al & Pk).
  { unfold separate. rewrite Ms. assert (ND : NoDup names) by (apply (NoDup_map_filter fst (selectable (dp_cm p)) kw), (cs_keys _ _ C)).
    apply NoDup_map_inj'; [|exact ND].
    intros x y Ix Iy Q. apply Nm in Ix as (Ix & dx & Dx), Iy as (Iy & dy & Dy). apply (cs_one _ _ C x y dx); auto.
    unfold dims_of in Q. fold (dp_cm p) in Q. unfold ranges_over in *. rewrite Dx, Dy in Q. congruence. }
  { intros (n & s) I. destruct (Qs n s I) as (c & Ec & As). exists c. split; [exact Ec|]. cbn [fst snd]. apply c_sel_answers; [|exact As].
    apply (wf_vals _ (wp_cm _ Wp) n _ Ec). }
  fold (dp_cm p) in E. rewrite E. cbn [bind fst snd]. rewrite Ms in Pk. destruct (Sl cm' b pick own Al Pk) as (M & Sd). rewrite M. eauto.
Qed.
End Sel.

(** The keywords a row of a file's contents becomes. *)
From Verif Require Import Base BaseFacts CoordModel NdModel FrameModel FrameSpec FrameProofs FrameProofs5 ChunkModel CmModel CmSpec CmProofs CmProofs5
  AttrsModel AttrsSpec AttrsProofs AttrsProofs2 AttrsProofs7 AttrsProofs8 AttrsProofs9 AttrsProofs10 DasdaeModel DasdaeSpec DasdaeProofs HistoryProofs6 LoadModel LoadSpec LoadProofs.
From Coq Require Import Strings.String Strings.Ascii Permutation.
Local Open Scope Z_scope.
Local Open Scope list_scope.

Lemma contains_occurs w k : contains w k <-> occurs w k.
Proof. reflexivity. Qed.
Lemma us_free n w : ~ contains "_" n -> ~ contains (String "_" w) n.
Proof. intros N (a & b & E). apply N. exists a, (w ++ b)%string. exact E. Qed.
Lemma app_us_cases n a r s : ~ contains "_" n -> (n ++ String "_" r)%string = (a ++ String "_" s)%string ->
  (a = n /\ s = r) \/ exists t, r = (t ++ String "_" s)%string.
Proof.
  revert a. induction n as [|c n IH]; intros a N E.
  - destruct a as [|c a]; cbn in E; [left; split; congruence|]. right. exists a. congruence.
  - destruct a as [|c' a]; cbn in E.
    + exfalso. apply N. exists EmptyString, n. cbn. congruence.
    + injection E as <- E. destruct (IH a) as [(-> & ->)|H]; [|exact E|auto|auto]. intros (x & y & X). apply N. exists (String c x), y. cbn. now rewrite X.
Qed.
Lemma us_split n m a b : ~ contains "_" n -> ~ contains "_" m -> (n ++ String "_" a)%string = (m ++ String "_" b)%string -> n = m /\ a = b.
Proof.
  intros N M. apply HistoryProofs6.name_cut; intros x y E; [apply N|apply M]; exists x, y; exact E.
Qed.
Lemma nodup_suffix n l : NoDup l -> NoDup (map (append n) l).
Proof. intros ND. apply FinFun.Injective_map_NoDup; [|exact ND]. intros a b. apply append_inj. Qed.
Lemma strip_min n : ~ contains "_" n -> str_replace "_min" EmptyString (n ++ "_min")%string = n.
Proof.
  intros N. pose proof (FrameProofs.replace_first "_min" EmptyString n EmptyString) as R. change ("_min" ++ "")%string with "_min"%string in R. rewrite R; [|discriminate|].
  - cbn [append]. change (str_replace "_min" EmptyString EmptyString) with EmptyString. apply append_nil_r'.
  - intros a b E. change ("_min" ++ b)%string with (String "_" ("min" ++ b)) in E. apply app_us_cases in E as [(-> & _)|(t & E)]; [apply le_n| |exact N].
    exfalso. destruct t as [|? [|? [|? t]]]; cbn in E; try discriminate. destruct t; discriminate.
Qed.
Lemma strip_max n : ~ contains "_" n -> str_replace "_max" EmptyString (n ++ "_max")%string = n.
Proof.
  intros N. pose proof (FrameProofs.replace_first "_max" EmptyString n EmptyString) as R. change ("_max" ++ "")%string with "_max"%string in R. rewrite R; [|discriminate|].
  - cbn [append]. change (str_replace "_max" EmptyString EmptyString) with EmptyString. apply append_nil_r'.
  - intros a b E. change ("_max" ++ b)%string with (String "_" ("max" ++ b)) in E. apply app_us_cases in E as [(-> & _)|(t & E)]; [apply le_n| |exact N].
    exfalso. destruct t as [|? [|? [|? t]]]; cbn in E; try discriminate. destruct t; discriminate.
Qed.
Lemma field_suffix n f w : ~ contains "_" n -> ~ contains "_" f -> str_suffix (String "_" w) (n ++ String "_" f)%string = String.eqb f w.
Proof.
  intros N Nf. destruct (String.eqb_spec f w) as [->|D].
  - apply str_suffix_spec. now exists n.
  - destruct (str_suffix _ _) eqn:E; [|reflexivity]. exfalso. apply str_suffix_spec in E. destruct E as (t & E). apply app_us_cases in E as [(_ & E)|(u & E)]; [congruence| |exact N].
    apply Nf. exists u, w. exact E.
Qed.

Lemma fields_us f : In f ["dtype"; "min"; "max"; "step"; "units"]%string -> ~ contains "_" f.
Proof. intros [<-|[<-|[<-|[<-|[<-|[]]]]]] C; apply str_contains_spec in C; discriminate. Qed.

(** What the summary of one coordinate adds. *)
Lemma add_ends n s m : ~ contains "_" n -> ~ In n (map fst m) ->
  fold_left add_end (flat_pairs (n, s)) m = m ++ [(n, RPair (s_min s) (s_max s))].
Proof.
  intros N I. unfold flat_pairs, summ_dict, flat_summ. cbn [fst snd map fold_left s_dtype s_min s_max s_step s_units].
  assert (Sf : forall f w, In f ["dtype"; "min"; "max"; "step"; "units"]%string -> str_suffix (String "_" w) (n ++ "_" ++ f)%string = String.eqb f w).
  { intros f w F. cbn [append]. apply field_suffix; [exact N|now apply fields_us]. }
  assert (E1 : forall m' f v, In f ["dtype"; "step"; "units"]%string -> add_end m' ((n ++ "_" ++ f)%string, v) = m').
  { intros m' f v F. unfold add_end. cbn [fst]. rewrite !Sf by (cbn in F |- *; tauto). destruct F as [<-|[<-|[<-|[]]]]; reflexivity. }
  rewrite (E1 m "dtype"%string) by (cbn; tauto).
  assert (E2 : add_end m ((n ++ "_" ++ "min")%string, s_min s) = m ++ [(n, RPair (s_min s) ANone)]).
  { unfold add_end. cbn [fst snd]. rewrite Sf by (cbn; tauto). change (String.eqb "min" "min") with true. cbv iota. change (n ++ "_" ++ "min")%string with (n ++ "_min")%string. rewrite strip_min by exact N.
    apply assoc_None in I. rewrite I. cbn [set_end]. apply assoc_set_new. now apply assoc_None. }
  rewrite E2.
  assert (E3 : add_end (m ++ [(n, RPair (s_min s) ANone)]) ((n ++ "_" ++ "max")%string, s_max s) = m ++ [(n, RPair (s_min s) (s_max s))]).
  { unfold add_end. cbn [fst snd]. rewrite !Sf by (cbn; tauto). change (String.eqb "max" "min") with false. change (String.eqb "max" "max") with true. cbv iota.
    change (n ++ "_" ++ "max")%string with (n ++ "_max")%string. rewrite strip_max by exact N.
    assert (Ea : assoc n (m ++ [(n, RPair (s_min s) ANone)]) = Some (RPair (s_min s) ANone)).
    { rewrite assoc_app. apply assoc_None in I. rewrite I. cbn. now rewrite String.eqb_refl. }
    rewrite Ea. cbn [set_end]. rewrite assoc_set_app by exact I. cbn [assoc_set]. now rewrite String.eqb_refl. }
  rewrite E3, !E1 by (cbn; tauto). reflexivity.
Qed.

Lemma add_all_ends l : forall m, NoDup (map fst m ++ map fst l) -> (forall n, In n (map fst l) -> ~ contains "_" n) ->
  fold_left add_end (flat_map flat_pairs l) m = m ++ map (fun e => (fst e, RPair (s_min (snd e)) (s_max (snd e)))) l.
Proof.
  induction l as [|(n & s) l IH]; intros m ND U; cbn [flat_map map fold_left]; [now rewrite app_nil_r|]. rewrite fold_left_app, add_ends.
  - rewrite IH.
    + rewrite <- app_assoc. reflexivity.
    + rewrite map_app, <- app_assoc. exact ND.
    + intros k I. apply U. now right.
  - apply U. now left.
  - cbn [map fst] in ND. apply NoDup_remove_2 in ND. intros I. apply ND. apply in_app_iff. now left.
Qed.
Lemma add_none l : forall m, (forall k v, In (k, v) l -> whole_key k = true) -> fold_left add_end l m = m.
Proof.
  induction l as [|(k & v) l IH]; intros m H; [reflexivity|]. cbn [fold_left]. assert (E : add_end m (k, v) = m).
  { specialize (H k v (or_introl eq_refl)). unfold whole_key in H. apply andb_true_iff in H as (H1 & H2). apply negb_true_iff in H1, H2. unfold add_end. cbn [fst]. now rewrite H1, H2. }
  rewrite E. apply IH. intros j w I. apply (H j w). now right.
Qed.

Lemma dump_nodup a : tidy a -> NoDup (map fst (d_vals (dump a))).
Proof.
  intros T. unfold dump. cbn [d_vals]. rewrite !map_app, map_map. cbn [fst map].
  rewrite (map_ext (fun x : string * scal => fst x) fst) by reflexivity.
  assert (K : forall e, In e (filter (fun e => negb (has_key (fst e) field_defaults)) (a_vals a)) -> ~ In (fst e) (map fst field_defaults) /\ In (fst e) (map fst (a_vals a))).
  { intros e I. apply filter_In in I as (I & H). split; [|now apply in_map]. intros J. apply negb_true_iff in H. apply has_key_false in H. contradiction. }
  apply NoDup_app'.
  - apply nodupb_ok. reflexivity.
  - apply NoDup_app'; [apply NoDup_map_filter, (t_keys _ T)|repeat constructor; auto|]. intros x I [<-|[]]. apply in_map_iff in I. destruct I as (e & E & I). apply K in I as (_ & I). rewrite E in I.
    exact (proj1 (t_own _ T) I).
  - intros x I J. apply in_app_iff in J as [J|[<-|[]]].
    + apply in_map_iff in J. destruct J as (e & <- & J). apply K in J as (J & _). contradiction.
    + apply in_map_iff in I. destruct I as (e & E & I). revert E I. clear. intros E I. assert (H : In "dims"%string (map fst field_defaults)) by (rewrite <- E; now apply in_map).
      apply mem_In' in H. discriminate.
Qed.

(** The names of a row. *)
Record clean_row (a : attrs) : Prop :=
  { cr_tidy : tidy a;
    cr_names : forall n, In n (map fst (a_coords a)) -> ~ contains "_" n;
    cr_keys : forall k, attr_value a k <> None -> (forall n, In n (map fst (a_coords a)) -> ~ starts n k) /\ whole_key k = true }.
Definition kept_pairs (e : string * summ) : sdict :=
  [((fst e ++ "_dtype")%string, AStr (s_dtype (snd e))); ((fst e ++ "_step")%string, s_step (flat_summ (snd e))); ((fst e ++ "_units")%string, s_units (snd e))].
Lemma convert_eq a : clean_row a ->
  convert_row (contents_row a)
  = map (fun e => (fst e, RVal (snd e))) (del "history"%string (d_vals (dump a)) ++ flat_map kept_pairs (a_coords a))
    ++ map (fun e => (fst e, RPair (s_min (snd e)) (s_max (snd e)))) (a_coords a)
  /\ NoDup (map fst (convert_row (contents_row a))).
Proof.
  intros [T U K].
  assert (Kd : forall k, In k (map fst (d_vals (dump a))) -> (forall n, In n (map fst (a_coords a)) -> ~ starts n k) /\ whole_key k = true).
  { intros k I. apply K. apply assoc_In in I. destruct I as (v & I). rewrite dump_value in I by exact T. congruence. }
  assert (Kdel : forall k, In k (map fst (del "history"%string (d_vals (dump a)))) -> In k (map fst (d_vals (dump a)))).
  { intros k I. apply in_map_iff in I. destruct I as (e & <- & I). apply filter_In in I as (I & _). now apply in_map. }
  unfold contents_row. rewrite flat_dump_eq; [|apply (t_coords _ T)|exact U|intros n k I J; right; now apply (Kd k)].
  assert (Ed : del "history"%string (d_vals (dump a) ++ flat_map flat_pairs (a_coords a)) = del "history"%string (d_vals (dump a)) ++ flat_map flat_pairs (a_coords a)).
  { unfold del. rewrite filter_app. f_equal. apply AttrsProofs10.filter_all. intros (k & v) I. cbn [fst]. apply in_flat_map in I. destruct I as ((n & s) & _ & I). unfold flat_pairs in I.
    apply in_map_iff in I. destruct I as (x & E & _). injection E as <- _. apply negb_true_iff, String.eqb_neq. intros H.
    assert (C : contains "_" "history") by (exists n, (fst x); exact H). apply str_contains_spec in C. discriminate. }
  rewrite Ed. unfold convert_row.
  assert (W : filter (fun e : string * scal => whole_key (fst e)) (del "history"%string (d_vals (dump a)) ++ flat_map flat_pairs (a_coords a))
    = del "history"%string (d_vals (dump a)) ++ flat_map kept_pairs (a_coords a)).
  { rewrite filter_app. f_equal.
    - apply AttrsProofs10.filter_all. intros (k & v) I. apply (Kd k), Kdel. apply in_map_iff. exists (k, v). auto.
    - assert (G : forall l, (forall n, In n (map fst l) -> ~ contains "_" n) -> filter (fun e : string * scal => whole_key (fst e)) (flat_map flat_pairs l) = flat_map kept_pairs l); [|now apply G].
      induction l as [|(n & s) l IH]; intros Ul; [reflexivity|]. cbn [flat_map]. rewrite filter_app, IH by (intros m I; apply Ul; now right). f_equal.
      assert (Sf : forall f w, In f ["dtype"; "min"; "max"; "step"; "units"]%string -> str_suffix (String "_" w) (n ++ "_" ++ f)%string = String.eqb f w).
      { intros f w F. cbn [append]. apply field_suffix; [apply Ul; now left|now apply fields_us]. }
      unfold flat_pairs, summ_dict, kept_pairs, flat_summ. cbn [fst snd map filter s_dtype s_min s_max s_step s_units]. unfold whole_key. rewrite !Sf by (cbn; tauto). reflexivity. }
  rewrite W. rewrite fold_left_app, (add_none (del "history"%string (d_vals (dump a)))).
  2:{ intros k v I. apply (Kd k), Kdel. apply in_map_iff. exists (k, v). auto. }
  rewrite add_all_ends; [|apply (t_coords _ T)|exact U]. cbn [app].
  match goal with |- put_all ?new ?old = _ /\ _ => assert (ND : NoDup (map fst old ++ map fst new)) end; [|rewrite (put_fresh _ _ ND); split; [reflexivity|now rewrite map_app]].
  rewrite !map_map. cbn [fst]. rewrite (map_ext (fun x : string * scal => fst x) fst) by reflexivity. rewrite (map_ext (fun x : string * summ => fst x) fst) by reflexivity.
  rewrite map_app, <- app_assoc. apply NoDup_app'.
  - apply NoDup_map_filter. now apply dump_nodup.
  - apply NoDup_app'.
    + assert (G : forall l, NoDup (map fst l) -> (forall n, In n (map fst l) -> ~ contains "_" n) -> NoDup (map fst (flat_map kept_pairs l))); [|apply G; [apply (t_coords _ T)|exact U]].
      induction l as [|(n & s) l IH]; intros ND Ul; [constructor|]. cbn [flat_map map fst] in *. apply NoDup_cons_iff in ND as (Ni & ND). rewrite map_app. apply NoDup_app'.
      * unfold kept_pairs. cbn [map fst]. apply (nodup_suffix n ["_dtype"; "_step"; "_units"]%string). apply nodupb_ok. reflexivity.
      * apply IH; [exact ND|]. intros m I. apply Ul. now right.
      * intros x I J. unfold kept_pairs in I. cbn [map fst In] in I. assert (Hx : exists f, x = (n ++ String "_" f)%string) by (destruct I as [<-|[<-|[<-|[]]]]; eexists; reflexivity).
        destruct Hx as (f & ->). apply in_map_iff in J. destruct J as (e & E & J). apply in_flat_map in J. destruct J as ((m & s') & Im & J). assert (Hm : In m (map fst l)) by (apply in_map_iff; exists (m, s'); auto).
        unfold kept_pairs in J. cbn [fst snd In] in J. assert (He : exists h, fst e = (m ++ String "_" h)%string) by (destruct J as [<-|[<-|[<-|[]]]]; eexists; reflexivity).
        destruct He as (h & He). rewrite He in E. apply us_split in E as (-> & _); [contradiction| |]; apply Ul; [now right|now left].
    + apply (t_coords _ T).
    + intros x I J. apply in_map_iff in I. destruct I as (e & <- & I). apply in_flat_map in I. destruct I as ((n & s) & _ & I). apply (U _ J). unfold kept_pairs in I. cbn [fst snd In] in I.
      destruct I as [<-|[<-|[<-|[]]]]; cbn [fst]; eexists n, _; reflexivity.
  - intros x I J. apply Kdel in I. destruct (Kd x I) as (Ns & _). apply in_app_iff in J as [J|J].
    + apply in_map_iff in J. destruct J as (e & <- & J). apply in_flat_map in J. destruct J as ((n & s) & Hn & J). apply (Ns n); [apply in_map_iff; exists (n, s); auto|]. unfold kept_pairs in J. cbn [fst snd In] in J.
      destruct J as [<-|[<-|[<-|[]]]]; cbn [fst]; eexists; reflexivity.
    + apply (Ns x J). exists EmptyString. now rewrite append_nil_r'.
Qed.

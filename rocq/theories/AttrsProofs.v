(** Strings, dict equality, and what PatchAttrs keeps of a plain dict. *)
From Verif Require Import Base BaseFacts CoordModel FrameModel FrameProofs5 ChunkModel CmModel CmProofs AttrsModel AttrsSpec.
From Coq Require Import Strings.String Strings.Ascii.
Local Open Scope Z_scope.

(** ** Strings *)
Lemma str_prefix_starts c : forall k, str_prefix c k = true <-> starts c k.
Proof.
  induction c as [|a c IH]; intros k.
  - split; [intros _; now exists k|reflexivity].
  - destruct k as [|b k]; cbn.
    + split; [discriminate|intros [r R]; discriminate].
    + rewrite Bool.andb_true_iff, Ascii.eqb_eq, IH. split.
      * intros (-> & r & ->). now exists r.
      * intros [r R]. injection R as -> ->. split; [reflexivity|now exists r].
Qed.
Lemma str_contains_spec w : forall k, str_contains w k = true <-> contains w k.
Proof.
  induction k as [|b k IH].
  - cbn. rewrite Bool.orb_false_r, str_prefix_starts. split.
    + intros [r R]. exists EmptyString, r. exact R.
    + intros (a & r & R). destruct a; [now exists r|discriminate].
  - change (str_contains w (String b k)) with (str_prefix w (String b k) || str_contains w k)%bool.
    rewrite Bool.orb_true_iff, str_prefix_starts, IH. split.
    + intros [[r R]|(a & r & R)]; [now exists EmptyString, r|].
      exists (String b a), r. cbn. now rewrite R.
    + intros (a & r & R). destruct a as [|c a]; [left; now exists r|].
      cbn in R. injection R as -> R. right. now exists a, r.
Qed.
Lemma str_drop_app c r : str_drop (String.length c) (c ++ r)%string = r.
Proof. induction c as [|a c IH]; [now destruct r|exact IH]. Qed.
Lemma append_assoc' (a b c : string) : ((a ++ b) ++ c = a ++ (b ++ c))%string.
Proof. induction a; cbn; congruence. Qed.
Lemma append_nil_r' (a : string) : (a ++ "" = a)%string.
Proof. induction a; cbn; congruence. Qed.
Lemma contains_app w a b : contains w b -> contains w (a ++ b)%string.
Proof. intros (x & y & ->). exists (a ++ x)%string, y. now rewrite append_assoc'. Qed.
Lemma contains_trans v w k : contains v w -> contains w k -> contains v k.
Proof.
  intros (a & b & ->) (x & y & ->). exists (x ++ a)%string, (b ++ y)%string.
  now rewrite !append_assoc'.
Qed.

Lemma str_split_cons c s : exists h t, str_split c s = h :: t.
Proof.
  induction s as [|a s (h & t & IH)]; cbn; [eauto|].
  destruct (Ascii.eqb a c); [eauto|]. rewrite IH. eauto.
Qed.
Lemma str_split_single c s : (forall a b, s <> (a ++ String c b)%string) -> str_split c s = [s].
Proof.
  induction s as [|a s IH]; cbn; [reflexivity|]. intros N.
  destruct (Ascii.eqb_spec a c) as [E|NE]; [subst; elim (N EmptyString s); reflexivity|].
  rewrite IH; [reflexivity|]. intros x y E. apply (N (String a x) y). cbn. now rewrite E.
Qed.
Lemma str_split_head c s h w t : str_split c s = h :: w :: t -> exists r, s = (h ++ String c (w ++ r))%string.
Proof.
  revert h w t. induction s as [|a s IH]; cbn; intros h w t E; [discriminate|].
  destruct (Ascii.eqb_spec a c) as [->|NE].
  - injection E as <- E. assert (G : forall s w t, str_split c s = w :: t -> exists r, s = (w ++ r)%string).
    { clear. induction s as [|a s IH]; cbn; intros w t E.
      - injection E as <- <-. now exists EmptyString.
      - destruct (Ascii.eqb a c); [injection E as <- <-; now eexists|].
        destruct (str_split c s) as [|h' r'] eqn:S.
        + injection E as <- <-. now eexists.
        + injection E as <- <-. destruct (IH h' r' eq_refl) as [r ->]. now exists r. }
    destruct (G _ _ _ E) as [r ->]. now exists r.
  - destruct (str_split c s) as [|h' r'] eqn:S; [discriminate|].
    injection E as <- ->. destruct (IH h' w t eq_refl) as [r ->]. exists r. reflexivity.
Qed.
Lemma word1_contains k : word1 k <> EmptyString -> contains ("_" ++ word1 k)%string k.
Proof.
  unfold word1, split_us. intros N. destruct (str_split "_" k) as [|h [|w t]] eqn:S; cbn in *; try (now elim N).
  destruct (str_split_head _ _ _ _ _ S) as [r R]. exists h, r. rewrite R at 1. reflexivity.
Qed.

(** ** Values and dicts *)
Lemma scal_eqb_spec a b : scal_eqb a b = true <-> a = b /\ a <> ANull.
Proof.
  destruct a, b; cbn; try (split; [discriminate|intros (E & N); congruence]).
  - split; [intros _; split; congruence|reflexivity].
  - rewrite Z.eqb_eq. split; [intros ->; split; congruence|intros (E & _); congruence].
  - rewrite String.eqb_eq. split; [intros ->; split; congruence|intros (E & _); congruence].
  - rewrite strs_eqb_eq. split; [intros ->; split; congruence|intros (E & _); congruence].
Qed.

Definition rel_opt {A} (R : A -> A -> bool) (u v : option A) : Prop :=
  match u, v with Some x, Some y => R x y = true | None, None => True | _, _ => False end.
Lemma dict_eqb_spec {A} (R : A -> A -> bool) a b : NoDup (map fst a) -> NoDup (map fst b) ->
  dict_eqb R a b = true <-> forall k, rel_opt R (assoc k a) (assoc k b).
Proof.
  intros Na Nb. unfold dict_eqb. rewrite Bool.andb_true_iff, Z.eqb_eq, forallb_forall. split.
  - intros (L & F) k.
    assert (I : incl (map fst a) (map fst b)).
    { intros n H. apply in_map_iff in H. destruct H as ((n' & v) & <- & H).
      specialize (F _ H). cbn in F. destruct (assoc n' b) eqn:E; [|discriminate].
      apply assoc_In. eauto. }
    assert (I' : incl (map fst b) (map fst a)).
    { apply NoDup_length_incl; [exact Na| |exact I]. rewrite !map_length. unfold zlen in L. lia. }
    destruct (assoc k a) as [v|] eqn:E.
    + specialize (F _ (assoc_in _ _ _ E)). cbn in F. destruct (assoc k b); [exact F|discriminate].
    + destruct (assoc k b) as [w|] eqn:E'; [|exact Logic.I].
      apply assoc_None in E. elim E. apply I'. apply assoc_In. eauto.
  - intros F.
    assert (I : incl (map fst a) (map fst b)).
    { intros n H. apply assoc_In in H. destruct H as [v E]. specialize (F n). rewrite E in F. cbn in F.
      destruct (assoc n b) eqn:E'; [|contradiction]. apply assoc_In. eauto. }
    assert (I' : incl (map fst b) (map fst a)).
    { intros n H. apply assoc_In in H. destruct H as [v E]. specialize (F n). rewrite E in F. cbn in F.
      destruct (assoc n a) eqn:E'; [|contradiction]. apply assoc_In. eauto. }
    split.
    + pose proof (NoDup_incl_length Na I). pose proof (NoDup_incl_length Nb I').
      rewrite !map_length in *. unfold zlen. lia.
    + intros (n & v) H. cbn. specialize (F n).
      destruct (assoc n a) as [v'|] eqn:E.
      * assert (v' = v). { apply assoc_in in E. clear -Na H E.
          induction a as [|(m & u) t IH]; [contradiction|]. cbn in Na. inversion Na; subst.
          destruct H as [H|H], E as [E|E].
          - congruence.
          - injection H as -> ->. elim H2. apply in_map_iff. now exists (n, v').
          - injection E as -> ->. elim H2. apply in_map_iff. now exists (n, v).
          - auto. }
        subst v'. cbn in F. destruct (assoc n b); [exact F|contradiction].
      * apply assoc_None in E. elim E. apply in_map_iff. now exists (n, v).
Qed.

Lemma assoc_del {A} k n (l : list (string * A)) :
  assoc n (del k l) = if String.eqb n k then None else assoc n l.
Proof.
  unfold del. rewrite (assoc_filter (fun x => negb (String.eqb k x))).
  rewrite (String.eqb_sym n k). now destruct (String.eqb k n).
Qed.
Lemma del_id {A} k (l : list (string * A)) : ~ In k (map fst l) -> del k l = l.
Proof.
  unfold del. induction l as [|(m & v) l IH]; cbn [filter map fst]; [reflexivity|]. intros N.
  destruct (String.eqb_spec k m) as [->|]; [elim N; now left|]. cbn [negb]. rewrite IH; [reflexivity|].
  intros H. apply N. now right.
Qed.
Lemma has_key_spec {A} k (l : list (string * A)) : has_key k l = true <-> In k (map fst l).
Proof. apply mem_In'. Qed.
Lemma has_key_false {A} k (l : list (string * A)) : has_key k l = false <-> ~ In k (map fst l).
Proof. apply mem_false. Qed.

(** ** PatchAttrs from a plain dict *)
Definition dict_names (o : adict) : list string :=
  map fst (coords_of o)
  ++ match assoc "dims"%string (d_vals o) with Some (AStr s) => str_split ","%char s | Some (ASeq l) => l | _ => [] end.
Record plain_dict (o : adict) : Prop :=
  { p_keys : NoDup (map fst (d_vals o));
    p_apart : forall k, In k (map fst (d_vals o)) -> k <> "dims"%string -> apart (dict_names o) k;
    p_coords : ~ In "coords"%string (map fst (d_vals o));
    p_man : forall d c, d_coords o <> Some (CMan d c);
    p_dims : assoc "dims"%string (d_vals o) = None
             \/ (exists s, s <> EmptyString /\ assoc "dims"%string (d_vals o) = Some (AStr s))
             \/ exists l, l <> [] /\ assoc "dims"%string (d_vals o) = Some (ASeq l);
    p_names : ~ In "dims"%string (dict_names o) /\ ~ In "coords"%string (dict_names o);
    p_full : forall n m, In (n, m) (coords_of o) -> has_key "min"%string m = true /\ has_key "max"%string m = true }.

Lemma add_word_words p w m : forall x ws, In (x, ws) (add_word p w m) ->
  forall v, In v ws -> v = w \/ exists x' ws', In (x', ws') m /\ In v ws'.
Proof.
  unfold add_word. intros x ws H v V. destruct (assoc p m) as [us|] eqn:E.
  - assert (G : (x = p /\ ws = us ++ [w]) \/ In (x, ws) m).
    { clear V. revert H. generalize (us ++ [w]) as nw. intros nw H. clear E.
      induction m as [|(a & b) m IH]; cbn in H.
      - destruct H as [H|[]]. injection H as -> ->. now left.
      - destruct (String.eqb_spec p a) as [->|].
        + destruct H as [H|H]; [injection H as -> ->; now left|right; now right].
        + destruct H as [H|H]; [right; now left|]. destruct (IH H) as [K|K]; [now left|right; now right]. }
    destruct G as [(-> & ->)|G].
    + apply in_app_iff in V. destruct V as [V|[<-|[]]]; [|now left].
      right. exists p, us. split; [now apply assoc_in|exact V].
    + right. eauto.
  - apply in_app_iff in H. destruct H as [H|[H|[]]]; [right; eauto|].
    injection H as <- <-. destruct V as [<-|[]]. now left.
Qed.
Lemma potential_words keys : forall x ws, In (x, ws) (potential_keys keys) ->
  forall v, In v ws -> exists k, In k keys /\ v = word1 k.
Proof.
  unfold potential_keys.
  assert (G : forall l m, (forall x ws, In (x, ws) m -> forall v, In v ws -> exists k, In k (keys) /\ v = word1 k) ->
     incl l keys ->
     forall x ws, In (x, ws) (fold_left (fun m k => if coord_str k then add_word (word0 k) (word1 k) m else m) l m) ->
     forall v, In v ws -> exists k, In k keys /\ v = word1 k).
  { induction l as [|k l IH]; cbn [fold_left]; intros m M I x ws H v V; [eauto|].
    refine (IH _ _ _ x ws H v V).
    - destruct (coord_str k); [|exact M]. intros x' ws' H' v' V'.
      destruct (add_word_words _ _ _ _ _ H' _ V') as [->|(x2 & ws2 & H2 & V2)]; [exists k; split; [apply I; now left|reflexivity]|eauto].
    - intros y Y. apply I. now right. }
  intros x ws H v V. refine (G keys [] _ _ x ws H v V); [intros ? ? []|apply incl_refl].
Qed.
Lemma no_min_word k : ~ contains "_min" k -> word1 k <> "min"%string.
Proof.
  intros N E. apply N. assert (C := word1_contains k). rewrite E in C. cbn in C. apply C. discriminate.
Qed.
Lemma from_keys_nil keys : (forall k, In k keys -> word1 k <> "min"%string) ->
  filter (fun e => meets_required ["min"; "max"]%string true (snd e)) (potential_keys keys) = [].
Proof.
  intros N. assert (G : forall e, In e (potential_keys keys) -> meets_required ["min"; "max"]%string true (snd e) = false).
  { intros (x & ws) H. cbn [snd]. destruct ws as [|w ws]; [reflexivity|].
    unfold meets_required. cbn [negb andb orb]. unfold subset. cbn [forallb].
    destruct (mem "min" (w :: ws)) eqn:M; [|reflexivity]. apply mem_In' in M.
    destruct (potential_words _ _ _ H _ M) as (k & K & W). symmetry in W. elim (N k K W). }
  revert G. induction (potential_keys keys) as [|e t IH]; cbn [filter]; intros G; [reflexivity|].
  rewrite (G e (or_introl eq_refl)). apply IH. intros x X. apply G. now right.
Qed.

Lemma coord_str_word k : coord_str k = true -> exists a b, k = (a ++ String "_" b)%string.
Proof.
  unfold coord_str. rewrite existsb_exists. intros (f & _ & C). apply str_contains_spec in C.
  destruct C as (a & b & ->). cbn. eauto.
Qed.
Lemma flat_info_nil o dim :
  (forall k, In k (map fst (d_vals o)) -> k <> "dims"%string -> ~ starts dim k /\ k <> ("d_" ++ dim)%string) ->
  flat_info o dim = [].
Proof.
  intros N. unfold flat_info.
  assert (E : assoc ("d_" ++ dim)%string (d_vals o) = None).
  { apply assoc_None. intros H. assert (("d_" ++ dim)%string <> "dims"%string) by (cbn; congruence).
    destruct (N _ H H0) as (_ & Q). now apply Q. }
  rewrite E.
  assert (G : forall l, incl l (d_vals o) ->
    fold_left (fun m e => if coord_str_for dim (fst e) then assoc_set (word1 (fst e)) (snd e) m else m) l [] = []).
  { induction l as [|(k & v) l IH]; cbn [fold_left fst]; intros I; [reflexivity|].
    assert (F : coord_str_for dim k = false).
    { unfold coord_str_for. destruct (str_prefix dim k) eqn:P; [|reflexivity]. cbn [andb].
      apply str_prefix_starts in P. destruct (string_dec k "dims") as [->|NK].
      - destruct (coord_str _) eqn:C; [|reflexivity]. apply coord_str_word in C. destruct C as (a & b & C).
        exfalso. destruct P as [r P]. rewrite P in C. rewrite str_drop_app in C. subst r.
        assert (X : contains "_" "dims") by (exists (dim ++ a)%string, b; rewrite append_assoc'; exact P).
        apply str_contains_spec in X. discriminate X.
      - destruct (N k) as (Q & _); [apply in_map_iff; exists (k, v); split; [reflexivity|apply I; now left]|exact NK|].
        now elim Q. }
    rewrite F. apply IH. intros x X. apply I. now right. }
  apply G. apply incl_refl.
Qed.

Lemma del_all (v : sdict) l : (forall k, In k l -> ~ In k (map fst v)) -> fold_left (fun v f => del f v) l v = v.
Proof.
  induction l as [|k l IH]; cbn [fold_left]; intros N; [reflexivity|].
  rewrite del_id; [apply IH; intros x X; apply N; now right|apply N; now left].
Qed.
Lemma fold_del_map (g : string -> string) l : forall v : sdict,
  fold_left (fun v f => del (g f) v) l v = fold_left (fun v f => del f v) (map g l) v.
Proof. induction l as [|f l IH]; intros v; cbn [fold_left map]; [reflexivity|apply IH]. Qed.
Lemma pop_keys_id out v :
  (forall c, In c (map fst out) -> forall k, In k (map fst v) -> k <> "dims"%string -> ~ starts c k /\ k <> ("d_" ++ c)%string) ->
  pop_keys out v = v.
Proof.
  unfold pop_keys. induction out as [|(c & m) out IH]; cbn [fold_left fst snd map]; intros N; [reflexivity|].
  assert (E : fold_left (fun v f => del (c ++ "_" ++ f)%string v) (map fst m) v = v).
  { rewrite (fold_del_map (fun f => c ++ "_" ++ f)%string). apply del_all.
    intros k K H. apply in_map_iff in K. destruct K as (f & <- & F).
      destruct (string_dec (c ++ "_" ++ f) "dims") as [D|D].
      + assert (X : contains "_" "dims") by (exists c, f; now rewrite D).
        apply str_contains_spec in X. discriminate X.
      + destruct (N c (or_introl eq_refl) _ H D) as (S & _). apply S. eexists. reflexivity. }
  cbv zeta. rewrite E.
  assert (E2 : (if has_key "step"%string m then del ("d_" ++ c)%string v else v) = v).
  { destruct (has_key "step"%string m); [|reflexivity]. apply del_id. intros H.
    assert (("d_" ++ c)%string <> "dims"%string) by (cbn; congruence).
    destruct (N c (or_introl eq_refl) _ H H0) as (_ & Q). now apply Q. }
  rewrite E2. apply IH. intros c' C' k K. apply N; [now right|exact K].
Qed.

Lemma mk_attrs_plain o : plain_dict o -> forall cs,
  map_result (fun e => do s <- mk_summ (snd e); Ok (fst e, s)) (coords_of o) = Ok cs ->
  mk_attrs o = Ok (mkAttrs (del "dims"%string (d_vals o))
                           (match assoc "dims"%string (d_vals o) with
                            | Some (AStr s) => s | Some (ASeq l) => str_join "," l
                            | _ => str_join "," (map fst cs) end) cs).
Proof.
  intros P cs CS.
  assert (W : forall k, In k (map fst (d_vals o)) -> word1 k <> "min"%string).
  { intros k K. destruct (string_dec k "dims") as [->|N]; [discriminate|].
    apply no_min_word. apply (p_apart _ P _ K N). }
  assert (NI : nested_info ["min"; "max"]%string o = coords_of o).
  { unfold nested_info, coords_of. pose proof (p_full _ P) as F. unfold coords_of in F.
    destruct (d_coords o) as [c|]; [|reflexivity].
    revert F. generalize (coval_dict c) as l. induction l as [|(n & m) l IH]; cbn [filter snd]; intros F; [reflexivity|].
    assert (M : meets_required ["min"; "max"]%string false (map fst m) = true).
    { destruct (F n m (or_introl eq_refl)) as (A & B). unfold has_key in A, B. unfold meets_required.
      destruct (map fst m) as [|x t] eqn:E; [discriminate A|]. cbn [negb andb orb]. unfold subset. cbn [forallb].
      now rewrite A, B. }
    rewrite M, IH; [reflexivity|]. intros n' m' H. apply (F n' m'). now right. }
  assert (PK : pop_keys (coords_of o) (d_vals o) = d_vals o).
  { apply pop_keys_id. intros c C k K N. destruct (p_apart _ P _ K N) as (_ & Q). apply Q.
    unfold dict_names. apply in_app_iff. now left. }
  unfold mk_attrs, given_dims, separate, info_dims.
  assert (NM : match d_coords o with Some (CMan dims _) => False | _ => True end).
  { destruct (d_coords o) as [[|]|] eqn:E; try exact Logic.I. elim (p_man _ P _ _ E). }
  assert (E2 : forall X, match d_coords o with
     | Some (CMan dims _) => Ok dims | _ => X end = (X : result (list string))).
  { intros X. destruct (d_coords o) as [[|]|]; tauto. }
  destruct (p_dims _ P) as [D|D'].
  - rewrite D.
    assert (E1 : match d_coords o with Some (CMan dims _) => Ok (Some dims) | _ => Ok None end = (Ok None : result (option (list string)))).
    { destruct (d_coords o) as [[|]|]; tauto. }
    rewrite E1. cbn [bind].
    rewrite E2. rewrite (from_keys_nil _ W). cbn [map bind].
    cbn [fold_left]. rewrite NI, PK. rewrite CS. cbn [bind]. rewrite D. reflexivity.
  - assert (DD : exists v h t, assoc "dims"%string (d_vals o) = Some v
       /\ (match v with AStr s => Ok (Some (str_split ","%char s)) | ASeq l => Ok (Some l) | ANone => Ok None | _ => Err Unmodelled end
           = (Ok (Some (h :: t)) : result (option (list string))))
       /\ (forall X, match v with
           | ANone => Ok X
           | AStr s => if String.eqb s EmptyString then Ok X else Ok (str_split ","%char s)
           | ASeq [] => Ok X | ASeq l => Ok l
           | _ => Err Unmodelled end = (Ok (h :: t) : result (list string)))
       /\ incl (h :: t) (dict_names o)
       /\ match v with AStr s => Ok s | ASeq l => Ok (str_join "," l) | _ => Err TypeError end
          = Ok (match v with AStr s => s | ASeq l => str_join "," l | _ => str_join "," (map fst cs) end)).
    { destruct D' as [(s & Ns & D)|(l & Nl & D)].
      - destruct (str_split_cons "," s) as (h & t & S). exists (AStr s), h, t. split; [exact D|]. cbn iota. rewrite S. split; [reflexivity|].
        split; [intros X; destruct (String.eqb_spec s EmptyString); [contradiction|reflexivity]|]. split; [|reflexivity].
        unfold dict_names. rewrite D, S. apply incl_appr, incl_refl.
      - destruct l as [|h t]; [congruence|]. exists (ASeq (h :: t)), h, t. split; [exact D|]. split; [reflexivity|].
        split; [reflexivity|]. split; [|reflexivity]. unfold dict_names. rewrite D. apply incl_appr, incl_refl. }
    destruct DD as (v & h & t & D & G1 & G2 & DN & G3). rewrite D.
    assert (G1' : match v with
       | ANone => Ok None | AStr s => Ok (Some (str_split ","%char s)) | ASeq l => Ok (Some l) | _ => Err Unmodelled end
           = (Ok (Some (h :: t)) : result (option (list string)))) by (rewrite <- G1; now destruct v).
    rewrite G1'. cbn [bind]. rewrite E2.
    match goal with |- context [match v with ANone => Ok ?X | _ => _ end] => specialize (G2 X) end.
    assert (G2' : forall X Y, (match v with
           | ANone => Ok X
           | AStr s => if String.eqb s EmptyString then Ok X else Ok (str_split ","%char s)
           | ASeq [] => Ok X | ASeq l => Ok l
           | _ => Err Unmodelled end = (Ok Y : result (list string))) ->
        match v with ANone => Ok X | ANull => Err Unmodelled | ANum _ => Err Unmodelled
           | AStr s => if String.eqb s EmptyString then Ok X else Ok (str_split ","%char s)
           | ASeq l => match l with [] => Ok X | _ :: _ => Ok l end end = Ok Y) by (intros X Y; now destruct v as [| | | |[|]]).
    rewrite (G2' _ _ G2). cbn [bind].
    assert (SS : strs_eqb (h :: t) (h :: t) = true) by now apply strs_eqb_eq.
    assert (NE : forall d, In d (h :: t) -> forall k, In k (map fst (d_vals o)) -> k <> "dims"%string ->
       ~ starts d k /\ k <> ("d_" ++ d)%string).
    { intros d H k K N. destruct (p_apart _ P _ K N) as (_ & Q). apply Q. now apply DN. }
    rewrite SS. cbn [negb].
    set (keys := map fst (d_vals o) ++ match d_coords o with Some _ => ["coords"%string] | None => [] end).
    assert (SB : subset (h :: t) keys = false).
    { unfold subset. cbn [forallb]. destruct (mem h keys) eqn:M; [|reflexivity]. exfalso. apply mem_In' in M.
      destruct (p_names _ P) as (N1 & N2). assert (H : In h (dict_names o)) by (apply DN; now left).
      unfold keys in M. apply in_app_iff in M. destruct M as [M|M].
      - destruct (string_dec h "dims") as [->|N]; [contradiction|].
        destruct (NE h (or_introl eq_refl) h M N) as (Q & _). apply Q. exists EmptyString. now rewrite append_nil_r'.
      - destruct (d_coords o); [|contradiction]. destruct M as [<-|[]]. contradiction. }
    rewrite SB. cbn [bind].
    assert (FL : fold_left (add_flat ["min"; "max"]%string o) (h :: t) (nested_info ["min"; "max"]%string o) = coords_of o).
    { rewrite NI. generalize (coords_of o) as out. revert NE. generalize (h :: t) as l. clear.
      induction l as [|d l IH]; intros NE out; cbn [fold_left]; [reflexivity|].
      unfold add_flat at 2. rewrite flat_info_nil; [|intros k K N'; apply (NE d (or_introl eq_refl) k K N')].
      cbn [map meets_required]. apply IH. intros x X. apply NE. now right. }
    rewrite FL, PK.
    assert (HK : has_key "dims"%string (d_vals o) = true).
    { apply has_key_spec. apply assoc_In. eauto. }
    rewrite HK. rewrite CS. cbn [bind]. rewrite D.
    destruct v; try discriminate G1; reflexivity.
Qed.

Lemma value_assoc a k : value_of a k = match assoc k (a_vals a) with Some v => Some v | None => default_of k end.
Proof.
  unfold value_of. induction (a_vals a) as [|(m & u) t IH]; cbn [find assoc fst]; [reflexivity|].
  destruct (String.eqb_spec k m) as [->|N]; [now rewrite ?String.eqb_refl|]. rewrite ?(proj2 (String.eqb_neq _ _) (not_eq_sym N)). exact IH.
Qed.

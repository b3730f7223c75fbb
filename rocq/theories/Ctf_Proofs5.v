(** * The order of fields *)

From Coq Require Import String Permutation.
From Verif Require Import Base Load_Model Load_Spec Load_Proofs Load_Proofs2 Load_Proofs3 Load_Proofs4
  Ctf_Model Ctf_Spec Ctf_Proofs Ctf_Proofs2 Ctf_Proofs3 Ctf_Proofs4.
Local Open Scope bool_scope.
Local Open Scope list_scope.

Definition orel {A} (R : A -> A -> Prop) (o o' : option A) : Prop :=
  match o, o' with
  | Some x, Some y => R x y
  | None, None => True
  | _, _ => False
  end.

Lemma orel_eq {A} (o o' : option A) : orel eq o o' <-> o = o'.
Proof. destruct o, o'; cbn; split; congruence || tauto. Qed.

Lemma orel_bnd {A B} (R : A -> A -> Prop) (Q : B -> B -> Prop) o o' f f' :
  orel R o o' -> (forall x y, R x y -> orel Q (f x) (f' y)) -> orel Q (obnd o f) (obnd o' f').
Proof. destruct o, o'; cbn; try contradiction; auto. Qed.

(** A relation that the steps of [reordered] respect *)
Lemma on_fields (P : fields -> fields -> Prop) :
  (forall l, P l l) -> (forall a b c, P a b -> P b c -> P a c) ->
  (forall pre k v v' post, reordered v v' -> P (pre ++ (k, v) :: post) (pre ++ (k, v') :: post)) ->
  (forall pre a b post, exchangeable (fst a) (fst b) -> P (pre ++ a :: b :: post) (pre ++ b :: a :: post)) ->
  forall d d', reordered d d' -> forall l, d = DObj l -> exists l', d' = DObj l' /\ P l l'.
Proof.
  intros Hr Ht Hf Hs d d' H.
  induction H as [d|d d' d'' H1 IH1 H2 IH2|pre v v' post H IH|pre k v v' post H IH|pre a b post E]; intros l El.
  - exists l. auto.
  - destruct (IH1 l El) as [l1 [-> P1]]. destruct (IH2 l1 eq_refl) as [l2 [-> P2]]. eauto.
  - discriminate.
  - injection El as <-. eauto.
  - injection El as <-. eauto.
Qed.

Definition shuffled (l l' : fields) : Prop := reordered (DObj l) (DObj l').

Lemma on_shuffled (P : fields -> fields -> Prop) :
  (forall l, P l l) -> (forall a b c, P a b -> P b c -> P a c) ->
  (forall pre k v v' post, reordered v v' -> P (pre ++ (k, v) :: post) (pre ++ (k, v') :: post)) ->
  (forall pre a b post, exchangeable (fst a) (fst b) -> P (pre ++ a :: b :: post) (pre ++ b :: a :: post)) ->
  forall l l', shuffled l l' -> P l l'.
Proof.
  intros Hr Ht Hf Hs l l' H. destruct (on_fields P Hr Ht Hf Hs _ _ H l eq_refl) as [m [E HP]].
  injection E as ->. exact HP.
Qed.

(** What kind of document it is, and scalars *)
Lemma scalar_same d d' : reordered d d' ->
  match d with
  | DArr _ => exists l', d' = DArr l'
  | DObj _ => exists l', d' = DObj l'
  | _ => d' = d
  end.
Proof.
  induction 1 as [d|d d' d'' H1 IH1 H2 IH2|pre v v' post H IH|pre k v v' post H IH|pre a b post E].
  - destruct d as [| | | |l|l]; eauto.
  - destruct d as [|b|n|s|l|l]; [rewrite IH1 in IH2; exact IH2|rewrite IH1 in IH2; exact IH2
      |rewrite IH1 in IH2; exact IH2|rewrite IH1 in IH2; exact IH2| |];
      destruct IH1 as [l' E]; rewrite E in IH2; exact IH2.
  - eauto.
  - eauto.
  - eauto.
Qed.

Lemma lookup_swap k pre (a b : str * doc) post : fst a <> fst b ->
  lookup k (pre ++ a :: b :: post) = lookup k (pre ++ b :: a :: post).
Proof.
  intros N. induction pre as [|[x y] pre IH]; cbn [app lookup].
  - destruct a as [ka va], b as [kb vb]. cbn [fst] in N.
    destruct (str_eqb_spec ka k) as [->|]; destruct (str_eqb_spec kb k) as [->|]; try reflexivity.
    contradiction.
  - now rewrite IH.
Qed.

Lemma lookup_rel k l l' : shuffled l l' -> orel reordered (lookup k l) (lookup k l').
Proof.
  apply (on_shuffled (fun l l' => orel reordered (lookup k l) (lookup k l'))).
  - intros m. destruct (lookup k m); cbn; [constructor|exact I].
  - intros a b c H1 H2. destruct (lookup k a), (lookup k b), (lookup k c); cbn in *; try tauto.
    eapply r_trans; eassumption.
  - intros pre k' v v' post H. induction pre as [|[x y] pre IH]; cbn [app lookup].
    + destruct (str_eqb k' k); [exact H|]. destruct (lookup k post); cbn; [constructor|exact I].
    + destruct (str_eqb x k); [constructor|exact IH].
  - intros pre a b post [N _]. rewrite (lookup_swap k pre a b post N).
    destruct (lookup k _); cbn; [constructor|exact I].
Qed.

(** Number of fields of a name *)
Definition count (k : str) (l : fields) : nat := length (filter (fun e => str_eqb (fst e) k) l).
Lemma count_app k a b : count k (a ++ b) = count k a + count k b.
Proof. unfold count. rewrite filter_app, app_length. reflexivity. Qed.
Lemma count_cons k e l : count k (e :: l) = (if str_eqb (fst e) k then 1 else 0) + count k l.
Proof. unfold count. cbn [filter]. destruct (str_eqb (fst e) k); reflexivity. Qed.

Lemma single_count l k : single l k <-> count k l <= 1.
Proof.
  split.
  - intros S. destruct (filter (fun e => str_eqb (fst e) k) l) as [|[k1 v] [|[k2 w] r]] eqn:E;
      unfold count; rewrite E; cbn [length]; [lia|lia|]. exfalso.
    destruct (filter_split _ _ [] _ _ E) as [p [q [-> [_ E2]]]].
    destruct (filter_split _ _ [] _ _ E2) as [p' [q' [-> _]]].
    assert (I1 : In (k1, v) (filter (fun e => str_eqb (fst e) k) (p ++ (k1, v) :: p' ++ (k2, w) :: q'))).
    { rewrite E. now left. }
    assert (I2 : In (k2, w) (filter (fun e => str_eqb (fst e) k) (p ++ (k1, v) :: p' ++ (k2, w) :: q'))).
    { rewrite E. right. now left. }
    apply filter_In in I1, I2. destruct I1 as [_ I1], I2 as [_ I2]. cbn in I1, I2.
    apply str_eqb_eq in I1, I2. subst k1 k2. exact (S p v p' w q' eq_refl).
  - intros L pre v mid w post ->. rewrite count_app, count_cons, count_app, count_cons in L. cbn [fst] in L.
    assert (R : str_eqb k k = true) by now apply str_eqb_eq. rewrite R in L. lia.
Qed.

Lemma count_rel k l l' : shuffled l l' -> count k l = count k l'.
Proof.
  apply (on_shuffled (fun l l' => count k l = count k l')).
  - reflexivity.
  - intros a b c; congruence.
  - intros pre k' v v' post _. rewrite !count_app, !count_cons. reflexivity.
  - intros pre a b post _. rewrite !count_app, !count_cons. lia.
Qed.
Lemma single_rel k l l' : shuffled l l' -> (single l k <-> single l' k).
Proof. intros H. rewrite !single_count, (count_rel k l l' H). reflexivity. Qed.

Lemma others_rel names l l' : shuffled l l' -> shuffled (others names l) (others names l').
Proof.
  apply (on_shuffled (fun l l' => shuffled (others names l) (others names l'))); unfold shuffled.
  - constructor.
  - intros a b c. apply r_trans.
  - intros pre k v v' post H. unfold others. rewrite !filter_app. cbn [filter fst].
    destruct (negb (known names k)); constructor. exact H.
  - intros pre a b post E. unfold others. rewrite !filter_app. cbn [filter].
    destruct (negb (known names (fst a))), (negb (known names (fst b))); try constructor. exact E.
Qed.

(** Deserialisation of a struct *)
Lemma visit_total names l :
  visit names [] [] l = Some (filter (fun e => known names (fst e)) l, others names l)
  \/ visit names [] [] l = None.
Proof.
  destruct (visit names [] [] l) as [[s r]|] eqn:E; [left|now right].
  apply visit_spec in E. destruct E as [-> [-> _]]. reflexivity.
Qed.
Lemma visit_rel names l l' : shuffled l l' ->
  (visit names [] [] l = Some (filter (fun e => known names (fst e)) l, others names l)
   /\ visit names [] [] l' = Some (filter (fun e => known names (fst e)) l', others names l'))
  \/ (visit names [] [] l = None /\ visit names [] [] l' = None).
Proof.
  intros H.
  destruct (visit_total names l) as [E|E], (visit_total names l') as [E'|E']; auto; exfalso.
  - assert (F : visit names [] [] l' = Some (filter (fun e => known names (fst e)) l', others names l')).
    { apply visit_spec in E. destruct E as [_ [_ S]]. apply visit_spec. repeat split.
      intros k Hk. apply (single_rel k l l' H). now apply S. }
    congruence.
  - assert (F : visit names [] [] l = Some (filter (fun e => known names (fst e)) l, others names l)).
    { apply visit_spec in E'. destruct E' as [_ [_ S]]. apply visit_spec. repeat split.
      intros k Hk. apply (single_rel k l l' H). now apply S. }
    congruence.
Qed.

(** Two readings that agree up to [R] on documents that differ in order *)
Definition agree {A} (R : A -> A -> Prop) (c c' : doc -> option A) : Prop :=
  forall v v', reordered v v' -> orel R (c v) (c' v').

Lemma required_rel {A} (R : A -> A -> Prop) c c' k l l' :
  agree R c c' -> shuffled l l' -> orel R (required c k l) (required c' k l').
Proof.
  intros Ag H. unfold required. eapply orel_bnd; [exact (lookup_rel k l l' H)|]. exact Ag.
Qed.
Lemma optional_rel {A} (R : A -> A -> Prop) c c' k l l' :
  agree R c c' -> shuffled l l' -> orel (orel R) (optional c k l) (optional c' k l').
Proof.
  intros Ag H. unfold optional. pose proof (lookup_rel k l l' H) as L.
  destruct (lookup k l) as [v|], (lookup k l') as [v'|]; cbn in L; try contradiction; [|exact I].
  pose proof (scalar_same _ _ L) as S. pose proof (Ag _ _ L) as C.
  assert (X : orel (orel R) (option_map Some (c v)) (option_map Some (c' v'))).
  { destruct (c v), (c' v'); cbn in *; auto. }
  destruct v; try (subst v'; try exact X; exact I); destruct S as [m ->]; exact X.
Qed.

Lemma within_agree lo hi : agree eq (within lo hi) (within lo hi).
Proof.
  intros v v' H. apply orel_eq. apply scalar_same in H.
  destruct v; try (now subst); destruct H as [m ->]; reflexivity.
Qed.
Lemma i32_agree : agree eq as_i32 as_i32. Proof. apply within_agree. Qed.
Lemma i64_agree : agree eq as_i64 as_i64. Proof. apply within_agree. Qed.
Lemma text_agree : agree eq as_text as_text.
Proof.
  intros v v' H. apply orel_eq. apply scalar_same in H.
  destruct v; try (now subst); destruct H as [m ->]; reflexivity.
Qed.
Lemma categories_agree : agree eq as_categories as_categories.
Proof.
  intros v v' H. apply orel_eq. unfold as_categories. pose proof (text_agree v v' H) as E.
  apply orel_eq in E. now rewrite E.
Qed.
Lemma frame_agree : agree eq as_frame_id as_frame_id.
Proof.
  intros v v' H. apply orel_eq. apply scalar_same in H.
  destruct v; try (now subst); destruct H as [m ->]; reflexivity.
Qed.
Lemma time_agree time : agree eq (as_time time) (as_time time).
Proof.
  intros v v' H. apply orel_eq. apply scalar_same in H.
  destruct v; try (now subst); destruct H as [m ->]; reflexivity.
Qed.

(** Lists *)
Lemma on_items (P : list doc -> list doc -> Prop) :
  (forall l, P l l) -> (forall a b c, P a b -> P b c -> P a c) ->
  (forall pre v v' post, reordered v v' -> P (pre ++ v :: post) (pre ++ v' :: post)) ->
  forall d d', reordered d d' -> forall l, d = DArr l -> exists l', d' = DArr l' /\ P l l'.
Proof.
  intros Hr Ht Hf d d' H.
  induction H as [d|d d' d'' H1 IH1 H2 IH2|pre v v' post H IH|pre k v v' post H IH|pre a b post E]; intros l El.
  - exists l. auto.
  - destruct (IH1 l El) as [l1 [-> P1]]. destruct (IH2 l1 eq_refl) as [l2 [-> P2]]. eauto.
  - injection El as <-. eauto.
  - discriminate.
  - discriminate.
Qed.
Lemma items_rel l l' : reordered (DArr l) (DArr l') -> Forall2 reordered l l'.
Proof.
  intros H. destruct (on_items (Forall2 reordered)) with (4 := H) (l := l) as [m [E F]]; try reflexivity.
  - intros x. induction x; constructor; [constructor|assumption].
  - intros a b c H1. revert c. induction H1; intros c H2; inversion H2; subst; constructor; eauto.
    eapply r_trans; eassumption.
  - intros pre v v' post Hv. apply Forall2_app.
    + induction pre; constructor; [constructor|assumption].
    + constructor; [exact Hv|]. induction post; constructor; [constructor|assumption].
  - injection E as ->. exact F.
Qed.
Lemma all_some_rel {A} (R : A -> A -> Prop) c c' l l' :
  agree R c c' -> Forall2 reordered l l' -> orel (Forall2 R) (all_some c l) (all_some c' l').
Proof.
  intros Ag F. induction F as [|v v' l l' H F IH]; cbn [all_some]; [constructor|].
  eapply orel_bnd; [exact (Ag v v' H)|]. intros x y Hxy. eapply orel_bnd; [exact IH|].
  intros xs ys Hs. now constructor.
Qed.
Lemma list_agree {A} (R : A -> A -> Prop) c c' : agree R c c' -> agree (Forall2 R) (as_list c) (as_list c').
Proof.
  intros Ag v v' H. pose proof (scalar_same _ _ H) as S.
  destruct v; try (subst v'; exact I).
  - destruct S as [m ->]. cbn [as_list]. apply all_some_rel; [exact Ag|now apply items_rel].
  - destruct S as [m ->]. exact I.
Qed.

(** Stack traces *)
Lemma stack_rel id inline l l' :
  In (id, inline) [(of_string "sf", of_string "stack"); (of_string "esf", of_string "estack")] ->
  shuffled l l' -> stack_trace id inline l = stack_trace id inline l'.
Proof.
  intros Hin.
  assert (Find : forall (e : str * doc) (r : fields),
    find (fun e => known [id; inline] (fst e)) (e :: r) =
    if known [id; inline] (fst e) then Some e else find (fun e => known [id; inline] (fst e)) r)
    by reflexivity.
  apply (on_shuffled (fun l l' => stack_trace id inline l = stack_trace id inline l')).
  - reflexivity.
  - intros a b c; congruence.
  - intros pre k v v' post H. unfold stack_trace.
    induction pre as [|e pre IH]; cbn [app]; rewrite !Find; cbn [fst].
    + destruct (known [id; inline] k); [|reflexivity].
      pose proof (frame_agree v v' H) as E. apply orel_eq in E. rewrite E.
      pose proof (list_agree eq as_text as_text text_agree v v' H) as L.
      destruct (as_list as_text v), (as_list as_text v'); cbn in L; try contradiction; reflexivity.
    + destruct (known [id; inline] (fst e)); [reflexivity|exact IH].
  - intros pre a b post [N E]. unfold stack_trace.
    induction pre as [|e pre IH]; cbn [app]; rewrite !Find.
    + destruct (known [id; inline] (fst a)) eqn:Ka; destruct (known [id; inline] (fst b)) eqn:Kb; try reflexivity.
      exfalso. apply known_In in Ka, Kb. destruct (E id inline Hin) as [E1 E2].
      destruct Ka as [Ka|[Ka|[]]], Kb as [Kb|[Kb|[]]]; try (apply N; congruence); auto.
    + destruct (known [id; inline] (fst e)); [reflexivity|exact IH].
Qed.

(** Values and maps *)
Lemma final_swap pre (a b : str * doc) post k v : fst a <> fst b ->
  final (pre ++ a :: b :: post) k v -> final (pre ++ b :: a :: post) k v.
Proof.
  intros N H. apply (proj2 (collect_in _ k v)) in H. apply collect_in.
  revert H.
  assert (G : forall m (q : fields), sorted m ->
    sorted (fold_left (fun m e => put (fst e) (snd e) m) q m)).
  { intros m q S. revert m S. induction q as [|e q IH]; intros m S; [exact S|]. cbn. apply IH. now apply put_sorted. }
  unfold collect. rewrite !fold_left_app. cbn [fold_left].
  set (m := fold_left (fun m e => put (fst e) (snd e) m) pre []).
  assert (Sm : sorted m) by (apply G; constructor).
  replace (put (fst b) (snd b) (put (fst a) (snd a) m)) with (put (fst a) (snd a) (put (fst b) (snd b) m));
    [auto|].
  apply sorted_unique; [now apply put_sorted, put_sorted|now apply put_sorted, put_sorted|].
  intros x y. rewrite !put_in by (try apply put_sorted; exact Sm).
  split; intros [[-> ->]|[Nx [[-> ->]|[Ny Hm]]]]; auto.
Qed.

Lemma exchangeable_sym a b : exchangeable a b -> exchangeable b a.
Proof.
  intros [N E]. split; [auto|]. intros id inline H. destruct (E id inline H) as [E1 E2]. tauto.
Qed.
Lemma reordered_sym d d' : reordered d d' -> reordered d' d.
Proof.
  induction 1 as [d|d d' d'' H1 IH1 H2 IH2|pre v v' post H IH|pre k v v' post H IH|pre a b post E].
  - constructor.
  - eapply r_trans; eassumption.
  - now constructor.
  - now constructor.
  - constructor. now apply exchangeable_sym.
Qed.

Lemma value_rel ident d d' : reordered d d' -> to_value ident d = to_value ident d'.
Proof.
  induction 1 as [d|d d' d'' H1 IH1 H2 IH2|pre v v' post H IH|pre k v v' post H IH|pre a b post E].
  - reflexivity.
  - congruence.
  - cbn [to_value]. rewrite !map_app. cbn [map]. now rewrite IH.
  - cbn [to_value]. rewrite !map_app. cbn [map fst snd]. now rewrite IH.
  - cbn [to_value]. f_equal. rewrite !collect_map. f_equal.
    apply sorted_unique; [apply collect_sorted|apply collect_sorted|].
    intros k v. destruct E as [N _]. split; intros Hin; apply collect_in; apply collect_in in Hin.
    + now apply final_swap.
    + apply final_swap; auto.
Qed.
Lemma pairs_rel ident l l' : shuffled l l' -> collect (pairs ident l) = collect (pairs ident l').
Proof. intros H. apply (value_rel ident) in H. cbn [to_value] in H. now injection H. Qed.

Section WithNumbers.
  Variable time : number -> Z.
  Variable ident : number -> N.
  Variable iter iter' : args -> args.
  Hypothesis iter_perm : forall l, Permutation l (iter l).
  Hypothesis iter_perm' : forall l, Permutation l (iter' l).

  Lemma to_map_rel l l' : shuffled l l' -> same_map (to_map ident iter l) (to_map ident iter' l').
  Proof.
    intros H. pose proof (to_map_mapping ident iter iter_perm l) as M.
    split; [exact (mapping_distinct ident _ _ M)|].
    unfold to_map. fold (pairs ident l). fold (pairs ident l'). rewrite <- (pairs_rel ident l l' H).
    exact (perm_trans (Permutation_sym (iter_perm _)) (iter_perm' _)).
  Qed.
  Lemma map_agree : agree same_map (as_map ident iter) (as_map ident iter').
  Proof.
    intros v v' H. pose proof (scalar_same _ _ H) as S.
    destruct v; try (subst v'; exact I); destruct S as [m ->]; [exact I|]. cbn. now apply to_map_rel.
  Qed.

  Ltac both H := let E := fresh "E" in let E' := fresh "E" in
    destruct H as [[E E']|[E E']]; rewrite E, E'; cbn [obnd]; [|exact I].
  Ltac req ag S := eapply orel_bnd; [rewrite !required_seen by yin; apply (required_rel _ _ _ _ _ _ ag S)|].
  Ltac opt ag S := eapply orel_bnd; [rewrite !optional_seen by yin; apply (optional_rel _ _ _ _ _ _ ag S)|].

  Lemma oeq {A} (o o' : option A) : orel eq o o' -> o = o'. Proof. apply orel_eq. Qed.

  Lemma duration_rel l l' : shuffled l l' ->
    orel same_de (to_duration_event time ident iter l) (to_duration_event time ident iter' l').
  Proof.
    intros S. unfold to_duration_event.
    both (visit_rel [nm "pid"; nm "tid"; nm "ts"; nm "name"; nm "cat"; nm "tts"; nm "args"] l l' S).
    req i32_agree S. intros pid ? <-. req i32_agree S. intros tid ? <-.
    req (time_agree time) S. intros ts ? <-. opt text_agree S. intros name name' Hn. apply oeq in Hn. subst name'.
    opt categories_agree S. intros cat cat' Hn. apply oeq in Hn. subst cat'.
    opt (time_agree time) S. intros tts tts' Hn. apply oeq in Hn. subst tts'.
    opt map_agree S. intros a a' Ha. cbn [orel]. unfold same_de.
    cbn [de_pid de_tid de_ts de_name de_cat de_tts de_args de_stack].
    repeat (split; [reflexivity|]). split.
    - apply stack_rel; [now left|]. now apply others_rel.
    - destruct a, a'; cbn in Ha; try contradiction; exact Ha.
  Qed.

  Lemma complete_rel l l' : shuffled l l' ->
    orel same_event (to_complete_event time ident iter l) (to_complete_event time ident iter' l').
  Proof.
    intros S. unfold to_complete_event. both (visit_rel [nm "dur"; nm "tdur"] l l' S).
    req (time_agree time) S. intros dur ? <-.
    opt (time_agree time) S. intros tdur tdur' Hn. apply oeq in Hn. subst tdur'.
    eapply orel_bnd; [apply duration_rel; now apply others_rel|]. intros d d' Hd. cbn [orel].
    unfold nm. rewrite (stack_rel (of_string "esf") (of_string "estack") _ _ (or_intror (or_introl eq_refl))
      (others_rel [of_string "dur"; of_string "tdur"] _ _ S)).
    now constructor.
  Qed.

  Lemma options_rel l l' : shuffled l l' -> to_options time l = to_options time l'.
  Proof.
    intros S. apply orel_eq. unfold to_options. both (visit_rel [nm "cat"; nm "ts"; nm "tts"] l l' S).
    opt categories_agree S. intros cat cat' Hn. apply oeq in Hn. subst cat'.
    opt (time_agree time) S. intros ts ts' Hn. apply oeq in Hn. subst ts'.
    opt (time_agree time) S. intros tts tts' Hn. apply oeq in Hn. subst tts'. reflexivity.
  Qed.

  Lemma args_agree {A} name (c : doc -> option A) : agree eq c c ->
    agree (fun x y => fst x = fst y /\ same_map (snd x) (snd y))
      (to_args ident iter name c) (to_args ident iter' name c).
  Proof.
    intros Ag v v' H. pose proof (scalar_same _ _ H) as S.
    destruct v; try (subst v'; exact I); destruct S as [m ->]; [exact I|]. cbn [to_args].
    both (visit_rel [name] l m H). rewrite !required_seen by (now left).
    eapply orel_bnd; [apply (required_rel _ _ _ _ _ _ Ag H)|]. intros x ? <-. cbn.
    split; [reflexivity|]. apply to_map_rel. now apply others_rel.
  Qed.

  Lemma metadata_rel {A} arg (c : doc -> option A) owner other l l' : agree eq c c -> shuffled l l' ->
    orel (fun x y => match x, y with
                     | (a, b, c, d, e), (a', b', c', d', e') =>
                         a = a' /\ b = b' /\ same_map c c' /\ d = d' /\ e = e'
                     end)
      (to_metadata time ident iter arg c owner other l) (to_metadata time ident iter' arg c owner other l').
  Proof.
    intros Ag S. unfold to_metadata. both (visit_rel [owner; nm "args"; other] l l' S).
    rewrite !required_seen by (cbn [In]; auto). rewrite !optional_seen by (cbn [In]; auto).
    eapply orel_bnd; [apply (required_rel _ _ _ _ _ _ i32_agree S)|]. intros x ? <-.
    eapply orel_bnd; [apply (required_rel _ _ _ _ _ _ (args_agree arg c Ag) S)|].
    intros [a m] [a' m'] [Ea Em]. cbn [fst snd] in *. subst a'.
    eapply orel_bnd; [apply (optional_rel _ _ _ _ _ _ i32_agree S)|]. intros y y' Hy. apply oeq in Hy. subst y'.
    rewrite (options_rel _ _ (others_rel [owner; nm "args"; other] _ _ S)).
    destruct (to_options time _); cbn; auto.
  Qed.

  Lemma tag_rel tag l l' : shuffled l l' ->
    orel (fun x y => reordered (fst x) (fst y) /\ shuffled (snd x) (snd y)) (take_tag tag l) (take_tag tag l').
  Proof.
    intros S.
    assert (Q : forall m v r, take_tag tag m = Some (v, r) -> lookup tag m = Some v /\ r = others [tag] m).
    { intros m v r H. apply tag_iff in H. destruct H as [[S1 Hin] ->].
      split; [now apply lookup_single|reflexivity]. }
    assert (Q' : forall m v, single m tag -> lookup tag m = Some v -> take_tag tag m = Some (v, others [tag] m)).
    { intros m v S1 L. apply tag_iff. split; [split; [exact S1|now apply lookup_in]|reflexivity]. }
    assert (Q1 : forall m v r, take_tag tag m = Some (v, r) -> single m tag).
    { intros m v r H. apply tag_iff in H. apply H. }
    pose proof (lookup_rel tag l l' S) as L.
    destruct (take_tag tag l) as [[v r]|] eqn:E.
    - destruct (Q _ _ _ E) as [Lv ->]. rewrite Lv in L.
      destruct (lookup tag l') as [v'|] eqn:Lv'; [|contradiction]. cbn in L.
      rewrite (Q' l' v'); [|apply (single_rel tag l l' S); eapply Q1; exact E|exact Lv'].
      cbn. split; [exact L|now apply others_rel].
    - destruct (take_tag tag l') as [[v' r']|] eqn:E'; [|exact I].
      destruct (Q _ _ _ E') as [Lv' ->]. rewrite Lv' in L.
      destruct (lookup tag l) as [v|] eqn:Lv; [|contradiction].
      rewrite (Q' l v) in E; [discriminate|apply (single_rel tag l l' S); eapply Q1; exact E'|exact Lv].
  Qed.

  Lemma metadata_event_rel l l' : shuffled l l' ->
    orel same_event (to_metadata_event time ident iter l) (to_metadata_event time ident iter' l').
  Proof.
    intros S. unfold to_metadata_event. eapply orel_bnd; [apply tag_rel; exact S|].
    intros [v r] [v' r'] [Hv Hr]. cbn [fst snd] in *.
    assert (K : metadata_kind v' = metadata_kind v).
    { apply scalar_same in Hv. destruct v; try (now subst); destruct Hv as [m ->]; reflexivity. }
    rewrite K. destruct (metadata_kind v) as [[|[|[|[|[|n]]]]]|]; try exact I;
      (eapply orel_bnd; [apply metadata_rel; [first [exact text_agree | exact i64_agree]|exact Hr]|]);
      intros [[[[a b] c] d] e] [[[[a' b'] c'] d'] e'] [<- [<- [Hm [<- <-]]]]; cbn; now constructor.
  Qed.

  Lemma event_agree : agree same_event (to_event time ident iter) (to_event time ident iter').
  Proof.
    intros v v' H. pose proof (scalar_same _ _ H) as S.
    destruct v; try (subst v'; exact I); destruct S as [m ->]; [exact I|]. cbn [to_event].
    eapply orel_bnd; [apply tag_rel; exact H|]. intros [t r] [t' r'] [Ht Hr]. cbn [fst snd] in *.
    apply scalar_same in Ht. destruct t; try (subst t'; try exact I); try (destruct Ht as [q ->]; exact I).
    pose proof (duration_rel _ _ Hr) as D.
    destruct (str_eqb s (nm "B")).
    { destruct (to_duration_event time ident iter r), (to_duration_event time ident iter' r');
        cbn in *; try contradiction; [now constructor|exact I]. }
    destruct (str_eqb s (nm "E")).
    { destruct (to_duration_event time ident iter r), (to_duration_event time ident iter' r');
        cbn in *; try contradiction; [now constructor|exact I]. }
    destruct (str_eqb s (nm "X")); [now apply complete_rel|].
    destruct (str_eqb s (nm "M")); [now apply metadata_event_rel|exact I].
  Qed.

  (** Unused fields *)
  Lemma strict_rel names : agree shuffled (strict names) (strict names).
  Proof.
    intros v v' H. pose proof (scalar_same _ _ H) as S. destruct v; try (subst v'; exact I);
      destruct S as [m ->]; cbn [strict].
    - pose proof (items_rel _ _ H) as F. assert (L : length m = length l) by (symmetry; eapply Forall2_length; exact F).
      rewrite L. destruct (Nat.eqb (length l) (length names)); [|exact I]. cbn. clear L H. revert names.
      assert (G : forall names (pre : fields), shuffled (pre ++ combine names l) (pre ++ combine names m)).
      { induction F as [|a b l m Hab F IH]; intros [|n names] pre; cbn [combine]; try constructor.
        unfold shuffled. eapply r_trans; [apply r_field; exact Hab|].
        specialize (IH names (pre ++ [(n, b)])). rewrite <- !app_assoc in IH. exact IH. }
      intros names. exact (G names []).
    - destruct (visit_rel names l m H) as [[E E']|[E E']]; rewrite E, E'; [|exact I].
      pose proof (others_rel names l m H) as O.
      assert (Len : length (others names l) = length (others names m)).
      { revert O. apply (on_shuffled (fun l l' => length l = length l')); [reflexivity|congruence| |];
          intros; rewrite !app_length; reflexivity. }
      destruct (others names l), (others names m); try discriminate Len; [|exact I]. cbn.
      revert H. apply (on_shuffled (fun l l' => shuffled (filter (fun e => known names (fst e)) l)
        (filter (fun e => known names (fst e)) l'))); unfold shuffled.
      + constructor.
      + intros a b c. apply r_trans.
      + intros pre k v v' post Hv. rewrite !filter_app. cbn [filter fst].
        destruct (known names k); constructor. exact Hv.
      + intros pre a b post Hs. rewrite !filter_app. cbn [filter].
        destruct (known names (fst a)), (known names (fst b)); try constructor. exact Hs.
  Qed.

  Lemma frame_struct_agree : agree eq as_stack_frame as_stack_frame.
  Proof.
    intros v v' H. unfold as_stack_frame. eapply orel_bnd; [apply strict_rel; exact H|].
    intros l l' S.
    eapply orel_bnd; [apply (required_rel _ _ _ _ _ _ text_agree S)|]. intros ? ? _.
    eapply orel_bnd; [apply (required_rel _ _ _ _ _ _ text_agree S)|]. intros ? ? _.
    eapply orel_bnd; [apply (optional_rel _ _ _ _ _ _ frame_agree S)|]. intros ? ? _. reflexivity.
  Qed.
  Lemma sample_agree : agree eq (as_sample time) (as_sample time).
  Proof.
    intros v v' H. unfold as_sample. eapply orel_bnd; [apply strict_rel; exact H|].
    intros l l' S.
    eapply orel_bnd; [apply (optional_rel _ _ _ _ _ _ i32_agree S)|]. intros ? ? _.
    eapply orel_bnd; [apply (required_rel _ _ _ _ _ _ i32_agree S)|]. intros ? ? _.
    eapply orel_bnd; [apply (required_rel _ _ _ _ _ _ (time_agree time) S)|]. intros ? ? _.
    eapply orel_bnd; [apply (required_rel _ _ _ _ _ _ text_agree S)|]. intros ? ? _.
    eapply orel_bnd; [apply (required_rel _ _ _ _ _ _ frame_agree S)|]. intros ? ? _.
    eapply orel_bnd; [apply (required_rel _ _ _ _ _ _ i64_agree S)|]. intros ? ? _. reflexivity.
  Qed.

  Lemma all_some_app {A B} (f : A -> option B) l m :
    all_some f (l ++ m) = obnd (all_some f l) (fun x => obnd (all_some f m) (fun y => Some (x ++ y))).
  Proof.
    induction l as [|a l IH]; cbn [app all_some].
    - cbn [obnd]. destruct (all_some f m); reflexivity.
    - rewrite IH. destruct (f a); cbn [obnd]; [|reflexivity].
      destruct (all_some f l); cbn [obnd]; [|reflexivity]. destruct (all_some f m); reflexivity.
  Qed.
  Lemma frames_agree : agree eq as_stack_frames as_stack_frames.
  Proof.
    intros v v' H. pose proof (scalar_same _ _ H) as S.
    destruct v; try (subst v'; exact I); destruct S as [m ->]; [exact I|]. cbn [as_stack_frames].
    apply orel_eq. revert H.
    apply (on_shuffled (fun l m => option_map (fun _ => tt) (all_some (fun e => as_stack_frame (snd e)) l)
      = option_map (fun _ => tt) (all_some (fun e => as_stack_frame (snd e)) m))).
    - reflexivity.
    - congruence.
    - intros pre k v v' post Hv. rewrite !all_some_app. cbn [all_some snd].
      pose proof (frame_struct_agree _ _ Hv) as E. apply orel_eq in E. rewrite E. reflexivity.
    - intros pre a b post _. rewrite !all_some_app. cbn [all_some].
      destruct (all_some _ pre); cbn [obnd]; [|reflexivity].
      destruct (as_stack_frame (snd a)), (as_stack_frame (snd b)); cbn [obnd]; try reflexivity;
      destruct (all_some _ post); reflexivity.
  Qed.
  Lemma time_unit_agree : agree eq as_time_unit as_time_unit.
  Proof.
    intros v v' H. pose proof (scalar_same _ _ H) as S. apply orel_eq.
    destruct v; try (subst v'; reflexivity); destruct S as [m ->]; [reflexivity|].
    unfold as_time_unit.
    replace (match m with [(s, DNull)] => Some s | _ => None end)
      with (match l with [(s, DNull)] => Some s | _ => None end); [reflexivity|].
    revert H. apply (on_shuffled (fun l m => match l with [(s, DNull)] => Some s | _ => None end
      = match m with [(s, DNull)] => Some s | _ => None end)).
    - reflexivity.
    - congruence.
    - intros [|[x y] pre] k v v' post Hv; cbn [app].
      + destruct post as [|e post]; [|destruct v, v'; reflexivity].
        apply scalar_same in Hv. destruct v; try (now subst); destruct Hv as [q ->]; reflexivity.
      + destruct pre; reflexivity || (destruct y; reflexivity).
    - intros [|[x y] pre] [ka va] [kb vb] post _; cbn [app].
      + destruct va, vb; reflexivity.
      + destruct pre; destruct y; reflexivity.
  Qed.

  Lemma unused {A} (o o' : option A) : orel eq o o' -> is_none o = is_none o'.
  Proof. intros H. apply orel_eq in H. now subst. Qed.

  Theorem document_rel d d' : reordered d d' ->
    orel same_data (to_trace_data time ident iter d) (to_trace_data time ident iter' d').
  Proof.
    intros H. pose proof (scalar_same _ _ H) as S.
    destruct d; try (subst d'; exact I); destruct S as [m ->]; [exact I|]. unfold to_trace_data.
    both (visit_rel [nm "traceEvents"; nm "displayTimeUnit"; nm "systemTraceEvents";
                     nm "powerTraceAsString"; nm "stackFrames"; nm "samples";
                     nm "controllerTraceDataKey"] l m H).
    req (list_agree _ _ _ event_agree) H. intros ev ev' Hev.
    eapply (orel_bnd eq).
    { rewrite !lookup_seen by yin. pose proof (lookup_rel (nm "displayTimeUnit") l m H) as L.
      destruct (lookup (nm "displayTimeUnit") l), (lookup (nm "displayTimeUnit") m); cbn in L; try contradiction;
        [now apply time_unit_agree|reflexivity]. }
    intros u ? <-.
    opt text_agree H. intros f1 f1' H1. apply unused in H1. rewrite H1.
    opt text_agree H. intros f2 f2' H2. apply unused in H2. rewrite H2.
    opt frames_agree H. intros f3 f3' H3. apply unused in H3. rewrite H3.
    opt (list_agree _ _ _ sample_agree) H. intros f4 f4' H4.
    assert (E4 : is_none f4 = is_none f4') by (destruct f4, f4'; cbn in H4; tauto || reflexivity). rewrite E4.
    opt text_agree H. intros f5 f5' H5. apply unused in H5. rewrite H5.
    split; [reflexivity|]. split; [|exact Hev]. cbn [td_extra]. apply to_map_rel. now apply others_rel.
  Qed.

  Theorem reordered_outcome us up al d d' : reordered d d' ->
    (forall ct, from_document time ident iter us up al d = Loaded ct <->
                from_document time ident iter' us up al d' = Loaded ct)
    /\ (from_document time ident iter us up al d = Panicked <->
        from_document time ident iter' us up al d' = Panicked)
    /\ (from_document time ident iter us up al d = CtfError <->
        from_document time ident iter' us up al d' = CtfError).
  Proof.
    intros H. pose proof (document_rel d d' H) as R. unfold from_document.
    destruct (to_trace_data time ident iter d) as [td|], (to_trace_data time ident iter' d') as [td'|];
      cbn in R; try contradiction.
    - destruct (same_from_data us up al _ _ R) as [H1 H2].
      destruct (same_from_data us up al _ _ (same_sym _ _ R)) as [H3 H4].
      destruct (from_data us up al td) as [c|e|], (from_data us up al td') as [c'|e'|];
        repeat split; intros; try discriminate;
        try (specialize (H1 _ eq_refl); congruence); try (specialize (H3 _ eq_refl); congruence);
        try (specialize (H2 eq_refl); congruence); try (specialize (H4 eq_refl); congruence); congruence.
    - repeat split; intros; auto; discriminate.
  Qed.
End WithNumbers.

(** * Unknown and duplicate fields; panics *)

From Coq Require Import String Permutation.
From Verif Require Import Base Load_Model Load_Spec Load_Proofs Load_Proofs2 Load_Proofs3 Load_Proofs4
  Ctf_Model Ctf_Spec Ctf_Proofs Ctf_Proofs2 Ctf_Proofs3 Ctf_Proofs4 Ctf_Proofs5.
Local Open Scope bool_scope.
Local Open Scope list_scope.

Lemma lookup_put {V} k' k (v : V) : forall m,
  lookup k' (put k v m) = if str_eqb k k' then Some v else lookup k' m.
Proof.
  induction m as [|[a b] r IH]; cbn [put lookup]; [reflexivity|].
  destruct (str_eqb_spec a k) as [->|N]; cbn [lookup].
  - destruct (str_eqb k k'); reflexivity.
  - destruct (str_ltb k a); cbn [lookup]; [reflexivity|]. rewrite IH.
    destruct (str_eqb_spec a k') as [->|]; [|reflexivity].
    destruct (str_eqb_spec k k') as [->|]; [contradiction|reflexivity].
Qed.

Section Insertion.
  Variable k : str.
  Variable v : doc.
  (** [l] is [l'] with one more field. *)
  Definition ins (l l' : fields) : Prop := exists pre post, l = pre ++ (k, v) :: post /\ l' = pre ++ post.

  Lemma ins_lookup k' l l' : ins l l' -> k' <> k -> lookup k' l = lookup k' l'.
  Proof.
    intros [pre [post [-> ->]]] N. induction pre as [|[a b] pre IH]; cbn [app lookup].
    - destruct (str_eqb_spec k k') as [->|]; [contradiction|reflexivity].
    - now rewrite IH.
  Qed.
  Lemma ins_single k' l l' : ins l l' -> k' <> k -> (single l k' <-> single l' k').
  Proof.
    intros [pre [post [-> ->]]] N. rewrite !single_count, !count_app, count_cons. cbn [fst].
    destruct (str_eqb_spec k k') as [->|]; [contradiction|reflexivity].
  Qed.
  Lemma ins_others names l l' : ins l l' -> ~ In k names -> ins (others names l) (others names l').
  Proof.
    intros [pre [post [-> ->]]] N. apply known_not in N. unfold others. rewrite !filter_app. cbn [filter fst].
    rewrite N. cbn [negb]. eexists _, _. split; reflexivity.
  Qed.

  Lemma ins_visit names l l' : ins l l' -> ~ In k names ->
    (visit names [] [] l = Some (filter (fun e => known names (fst e)) l, others names l)
     /\ visit names [] [] l' = Some (filter (fun e => known names (fst e)) l', others names l'))
    \/ (visit names [] [] l = None /\ visit names [] [] l' = None).
  Proof.
    intros H N.
    assert (D : forall k', In k' names -> k' <> k) by congruence.
    destruct (visit_total names l) as [E|E], (visit_total names l') as [E'|E']; auto; exfalso.
    - assert (F : visit names [] [] l' = Some (filter (fun e => known names (fst e)) l', others names l')).
      { apply visit_spec in E. destruct E as [_ [_ S]]. apply visit_spec. repeat split.
        intros k' Hk. apply (ins_single k' l l' H (D k' Hk)). now apply S. }
      congruence.
    - assert (F : visit names [] [] l = Some (filter (fun e => known names (fst e)) l, others names l)).
      { apply visit_spec in E'. destruct E' as [_ [_ S]]. apply visit_spec. repeat split.
        intros k' Hk. apply (ins_single k' l l' H (D k' Hk)). now apply S. }
      congruence.
  Qed.
  Lemma ins_required {A} (c : doc -> option A) k' l l' : ins l l' -> k' <> k ->
    required c k' l = required c k' l'.
  Proof. intros H N. unfold required. now rewrite (ins_lookup k' l l' H N). Qed.
  Lemma ins_optional {A} (c : doc -> option A) k' l l' : ins l l' -> k' <> k ->
    optional c k' l = optional c k' l'.
  Proof. intros H N. unfold optional. now rewrite (ins_lookup k' l l' H N). Qed.
  Lemma ins_tag tag l l' : ins l l' -> tag <> k ->
    match take_tag tag l, take_tag tag l' with
    | Some (t, r), Some (t', r') => t = t' /\ ins r r'
    | None, None => True
    | _, _ => False
    end.
  Proof.
    intros H N. assert (Nk : ~ In k [tag]) by (intros [F|[]]; contradiction).
    assert (Q : forall m t r, take_tag tag m = Some (t, r) ->
                  single m tag /\ lookup tag m = Some t /\ r = others [tag] m).
    { intros m t r E. apply tag_iff in E. destruct E as [[S1 Hin] ->].
      split; [exact S1|]. split; [now apply lookup_single|reflexivity]. }
    assert (Q' : forall m t, single m tag -> lookup tag m = Some t -> take_tag tag m = Some (t, others [tag] m)).
    { intros m t S1 L. apply tag_iff. split; [split; [exact S1|now apply lookup_in]|reflexivity]. }
    pose proof (ins_lookup tag l l' H N) as L. pose proof (ins_single tag l l' H N) as S.
    destruct (take_tag tag l) as [[t r]|] eqn:E.
    - destruct (Q _ _ _ E) as [S1 [L1 ->]]. rewrite (Q' l' t); [|now apply S|congruence].
      split; [reflexivity|now apply ins_others].
    - destruct (take_tag tag l') as [[t' r']|] eqn:E'; [|exact I].
      destruct (Q _ _ _ E') as [S1 [L1 ->]]. rewrite (Q' l t') in E; [discriminate|now apply S|congruence].
  Qed.
End Insertion.

(** Names of the fields that an event may have *)
Definition event_names : list str :=
  [of_string "ph"; of_string "pid"; of_string "tid"; of_string "ts"; of_string "name"; of_string "cat";
   of_string "tts"; of_string "args"; of_string "dur"; of_string "tdur"].
Definition stack_names : list str :=
  [of_string "sf"; of_string "stack"; of_string "esf"; of_string "estack"].

Section WithNumbers.
  Variable time : number -> Z.
  Variable ident : number -> N.
  Variable iter : args -> args.

  Section OneField.
  Variable k : str.
  Variable v : doc.
  Hypothesis fresh : ~ In k event_names.
  (** Nothing to do with stack traces *)
  Variable ok : fields -> Prop.
  Hypothesis ok_others : forall names l, ok l -> ok (others names l).
  Hypothesis ok_stack : forall id inline l l',
    In (id, inline) [(of_string "sf", of_string "stack"); (of_string "esf", of_string "estack")] ->
    ok l -> ins k v l l' -> stack_trace id inline l = stack_trace id inline l'.

  Lemma not_k s : known event_names s = true -> s <> k.
  Proof. intros H ->. apply fresh. now apply known_In. Qed.
  Lemma not_in names : forallb (known event_names) names = true -> ~ In k names.
  Proof. intros H Hin. rewrite forallb_forall in H. apply fresh. apply known_In. now apply H. Qed.
  Ltac nk := apply not_k; vm_compute; reflexivity.
  Ltac nks := apply not_in; vm_compute; reflexivity.
  Ltac both H := let E := fresh "E" in let E' := fresh "E" in
    destruct H as [[E E']|[E E']]; rewrite E, E'; cbn [obnd]; [|reflexivity].

  Lemma ins_duration l l' : ok l -> ins k v l l' ->
    to_duration_event time ident iter l = to_duration_event time ident iter l'.
  Proof.
    intros O H. unfold to_duration_event.
    both (ins_visit k v [nm "pid"; nm "tid"; nm "ts"; nm "name"; nm "cat"; nm "tts"; nm "args"] l l' H ltac:(nks)).
    rewrite !required_seen by yin. rewrite !optional_seen by yin.
    rewrite !(ins_required k v _ _ l l' H) by nk. rewrite !(ins_optional k v _ _ l l' H) by nk.
    set (names := [nm "pid"; nm "tid"; nm "ts"; nm "name"; nm "cat"; nm "tts"; nm "args"]).
    rewrite (ok_stack (nm "sf") (nm "stack") (others names l) (others names l'));
      [reflexivity|now left|now apply ok_others|apply ins_others; [exact H|nks]].
  Qed.
  Lemma ins_complete l l' : ok l -> ins k v l l' ->
    to_complete_event time ident iter l = to_complete_event time ident iter l'.
  Proof.
    intros O H. unfold to_complete_event.
    both (ins_visit k v [nm "dur"; nm "tdur"] l l' H ltac:(nks)).
    rewrite required_seen, required_seen by yin. rewrite optional_seen, optional_seen by yin.
    rewrite (ins_required k v _ _ l l' H) by nk. rewrite (ins_optional k v _ _ l l' H) by nk.
    set (names := [nm "dur"; nm "tdur"]).
    assert (I1 : ins k v (others names l) (others names l')) by (apply ins_others; [exact H|nks]).
    rewrite (ins_duration _ _ (ok_others names l O) I1).
    rewrite (ok_stack (nm "esf") (nm "estack") _ _ (or_intror (or_introl eq_refl)) (ok_others names l O) I1).
    reflexivity.
  Qed.
  Lemma ins_options l l' : ins k v l l' -> to_options time l = to_options time l'.
  Proof.
    intros H. unfold to_options. both (ins_visit k v [nm "cat"; nm "ts"; nm "tts"] l l' H ltac:(nks)).
    rewrite !optional_seen by yin. rewrite !(ins_optional k v _ _ l l' H) by nk. reflexivity.
  Qed.
  Lemma ins_metadata {A} arg (c : doc -> option A) owner other l l' : known event_names owner = true ->
    known event_names other = true -> ins k v l l' ->
    to_metadata time ident iter arg c owner other l = to_metadata time ident iter arg c owner other l'.
  Proof.
    intros K1 K2 H. unfold to_metadata.
    assert (N : ~ In k [owner; nm "args"; other]).
    { apply not_in. cbn [forallb]. rewrite K1, K2. reflexivity. }
    both (ins_visit k v [owner; nm "args"; other] l l' H N).
    rewrite !required_seen by (cbn [In]; auto). rewrite !optional_seen by (cbn [In]; auto).
    rewrite (ins_required k v _ owner l l' H) by (now apply not_k).
    rewrite (ins_required k v _ (nm "args") l l' H) by nk.
    rewrite (ins_optional k v _ other l l' H) by (now apply not_k).
    rewrite (ins_options _ _ (ins_others k v _ _ _ H N)). reflexivity.
  Qed.
  Lemma ins_metadata_event l l' : ins k v l l' ->
    to_metadata_event time ident iter l = to_metadata_event time ident iter l'.
  Proof.
    intros H. unfold to_metadata_event.
    pose proof (ins_tag k v (nm "name") l l' H ltac:(nk)) as T.
    destruct (take_tag (nm "name") l) as [[t r]|], (take_tag (nm "name") l') as [[t' r']|];
      try contradiction; [|reflexivity].
    destruct T as [<- Hr]. cbn [obnd].
    destruct (metadata_kind t) as [[|[|[|[|[|n]]]]]|]; try reflexivity;
      first [ rewrite (ins_metadata _ _ (nm "pid") (nm "tid") r r' eq_refl eq_refl Hr)
            | rewrite (ins_metadata _ _ (nm "tid") (nm "pid") r r' eq_refl eq_refl Hr) ]; reflexivity.
  Qed.
  Lemma ins_event l l' : ok l -> ins k v l l' ->
    to_event time ident iter (DObj l) = to_event time ident iter (DObj l').
  Proof.
    intros O H. cbn [to_event].
    pose proof (ins_tag k v (nm "ph") l l' H ltac:(nk)) as T.
    destruct (take_tag (nm "ph") l) as [[t r]|] eqn:E, (take_tag (nm "ph") l') as [[t' r']|] eqn:E';
      try contradiction; [|reflexivity].
    destruct T as [<- Hr]. cbn [obnd].
    assert (Or : ok r) by (apply tag_iff in E; destruct E as [_ ->]; now apply ok_others).
    destruct t; try reflexivity.
    rewrite (ins_duration r r' Or Hr), (ins_complete r r' Or Hr), (ins_metadata_event r r' Hr). reflexivity.
  Qed.
  End OneField.

  (** Fields that are nothing known *)
  Lemma unknown_ignored pre k v post : ~ In k (event_names ++ stack_names) ->
    to_event time ident iter (DObj (pre ++ (k, v) :: post)) = to_event time ident iter (DObj (pre ++ post)).
  Proof.
    intros N. apply (ins_event k v) with (ok := fun _ => True).
    - intros F. apply N. apply in_or_app. now left.
    - auto.
    - intros id inline l l' Hin _ [p [q [-> ->]]]. unfold stack_trace.
      replace (find (fun e => known [id; inline] (fst e)) (p ++ (k, v) :: q))
        with (find (fun e => known [id; inline] (fst e)) (p ++ q)); [reflexivity|].
      assert (Kf : known [id; inline] k = false).
      { apply known_not. intros F. apply N. apply in_or_app. right.
        destruct Hin as [E|[E|[]]]; injection E as <- <-; destruct F as [<-|[<-|[]]]; yin. }
      induction p as [|e p IH]; cbn [app find fst]; [now rewrite Kf|].
      destruct (known [id; inline] (fst e)); [reflexivity|exact IH].
    - exact I.
    - exists pre, post. auto.
  Qed.

  (** Fields that look like a stack trace, and are not *)
  Lemma malformed_ignored pre k v post :
    (k = of_string "sf" \/ k = of_string "esf") /\ ~ frame_id v \/
    (k = of_string "stack" \/ k = of_string "estack") /\ ~ texts v ->
    (forall k', In k' stack_names -> absent pre k' /\ absent post k') ->
    to_event time ident iter (DObj (pre ++ (k, v) :: post)) = to_event time ident iter (DObj (pre ++ post)).
  Proof.
    intros Hk Ab.
    assert (As : forall k', In k' stack_names -> absent (pre ++ post) k').
    { intros k' H' w Hw. apply in_app_or in Hw. destruct (Ab k' H') as [A1 A2].
      destruct Hw as [Hw|Hw]; [exact (A1 w Hw)|exact (A2 w Hw)]. }
    apply (ins_event k v) with
      (ok := fun l => forall k' w, In k' stack_names -> In (k', w) l -> k' = k /\ w = v).
    - intros F. destruct Hk as [[[-> | ->] _]|[[-> | ->] _]]; revert F; nin.
    - intros names l H k' w Hk' Hin. apply (H k' w Hk'). unfold others in Hin. apply filter_In in Hin. apply Hin.
    - intros id inline l l' Hin O [p [q [-> ->]]].
      assert (Fr : k = id -> as_frame_id v = None).
      { intros ->. destruct (as_frame_id v) eqn:E; [|reflexivity]. exfalso.
        assert (F : frame_id v) by (apply frame_id_iff; congruence).
        destruct Hk as [[_ N]|[[N|N] _]]; [contradiction| |];
          destruct Hin as [G|[G|[]]]; injection G as <- <-; discriminate. }
      assert (Tx : k = inline -> as_list as_text v = None).
      { intros ->. destruct (as_list as_text v) eqn:E; [|reflexivity]. exfalso.
        assert (F : texts v) by (apply texts_iff; congruence).
        destruct Hk as [[[N|N] _]|[_ N]]; [| |contradiction];
          destruct Hin as [G|[G|[]]]; injection G as <- <-; discriminate. }
      assert (Id : In id stack_names /\ In inline stack_names).
      { destruct Hin as [G|[G|[]]]; injection G as <- <-; split; yin. }
      assert (None' : stack_trace id inline (p ++ (k, v) :: q) = None).
      { unfold stack_trace. destruct (find _ _) as [[kk vv]|] eqn:E; [|reflexivity].
        apply find_some in E. destruct E as [E K]. cbn [fst] in K. apply known_In in K.
        assert (Kk : kk = k /\ vv = v).
        { apply O; [|exact E]. destruct K as [<-|[<-|[]]]; apply Id. }
        destruct Kk as [-> ->]. destruct (str_eqb_spec k id) as [E1|N1]; [now rewrite (Fr E1)|].
        destruct K as [K|[K|[]]]; [congruence|]. now rewrite (Tx (eq_sym K)). }
      rewrite None'. symmetry.
      unfold stack_trace. destruct (find _ (p ++ q)) as [[kk vv]|] eqn:E; [|reflexivity].
      apply find_some in E. destruct E as [E K]. cbn [fst] in K. apply known_In in K.
      assert (Kk : kk = k /\ vv = v).
      { apply O; [destruct K as [<-|[<-|[]]]; apply Id|].
        apply in_app_or in E. apply in_or_app. destruct E as [E|E]; [now left|right; now right]. }
      destruct Kk as [-> ->]. destruct (str_eqb_spec k id) as [E1|N1]; [now rewrite (Fr E1)|].
      destruct K as [K|[K|[]]]; [congruence|]. now rewrite (Tx (eq_sym K)).
    - intros k' w Hk' Hin. apply in_app_or in Hin.
      destruct (Ab k' Hk') as [A1 A2].
      destruct Hin as [Hin|[E|Hin]]; [exfalso; exact (A1 w Hin)|now injection E|exfalso; exact (A2 w Hin)].
    - exists pre, post. auto.
  Qed.

  (** One event for another *)
  Variable us : Z.
  Variable up al : chr -> bool.

  Lemma visit_names names l l' :
    (forall k, count k l = count k l') ->
    (visit names [] [] l = None <-> visit names [] [] l' = None).
  Proof.
    intros C. assert (S : forall k, single l k <-> single l' k) by (intros k; rewrite !single_count, C; reflexivity).
    assert (G : forall m, visit names [] [] m <> None <-> forall k, In k names -> single m k).
    { intros m. split.
      - intros H. destruct (visit_total names m) as [E|E]; [|contradiction]. apply visit_spec in E. apply E.
      - intros H E. assert (F : visit names [] [] m =
          Some (filter (fun e => known names (fst e)) m, others names m)) by (apply visit_spec; auto).
        congruence. }
    assert (X : visit names [] [] l <> None <-> visit names [] [] l' <> None).
    { rewrite !G. split; intros H k Hk; apply S; auto. }
    destruct X as [X1 X2].
    destruct (visit names [] [] l) as [p|], (visit names [] [] l') as [p'|]; split; intros Hn;
      try reflexivity; try discriminate Hn; exfalso.
    - apply X1; [discriminate|reflexivity].
    - apply X2; [discriminate|reflexivity].
  Qed.

  Lemma event_for_event pre post before after ev ev' :
    to_event time ident iter ev = to_event time ident iter ev' ->
    from_document time ident iter us up al
      (DObj (pre ++ (of_string "traceEvents", DArr (before ++ ev :: after)) :: post)) =
    from_document time ident iter us up al
      (DObj (pre ++ (of_string "traceEvents", DArr (before ++ ev' :: after)) :: post)).
  Proof.
    intros E. unfold from_document.
    match goal with |- match ?a with _ => _ end = match ?b with _ => _ end => assert (X : a = b) end;
      [|now rewrite X].
    cbn [to_trace_data].
    set (l := pre ++ (of_string "traceEvents", DArr (before ++ ev :: after)) :: post).
    set (l' := pre ++ (of_string "traceEvents", DArr (before ++ ev' :: after)) :: post).
    assert (C : forall k, count k l = count k l') by (intros k; unfold l, l'; rewrite !count_app, !count_cons; reflexivity).
    assert (L : forall k, k <> of_string "traceEvents" -> lookup k l = lookup k l').
    { intros k N. unfold l, l'. clear -N. induction pre as [|[a b] r IH]; cbn [app lookup].
      - destruct (str_eqb_spec (of_string "traceEvents") k) as [<-|]; [contradiction|reflexivity].
      - now rewrite IH. }
    assert (All : all_some (to_event time ident iter) (before ++ ev :: after) =
                  all_some (to_event time ident iter) (before ++ ev' :: after)).
    { rewrite !all_some_app. cbn [all_some]. now rewrite E. }
    assert (R : required (as_list (to_event time ident iter)) (of_string "traceEvents") l =
                required (as_list (to_event time ident iter)) (of_string "traceEvents") l').
    { unfold required, l, l'. clear -All. induction pre as [|[a b] r IH]; cbn [app lookup].
      - change (str_eqb (of_string "traceEvents") (of_string "traceEvents")) with true. exact All.
      - destruct (str_eqb a (of_string "traceEvents")); [reflexivity|exact IH]. }
    fold standard.
    assert (Oth : others standard l = others standard l').
    { unfold l, l', others. rewrite !filter_app. cbn [filter fst].
      assert (K : known standard (of_string "traceEvents") = true) by (vm_compute; reflexivity).
      rewrite K. reflexivity. }
    pose proof (visit_names standard l l' C) as V.
    unfold nm. fold standard.
    destruct (visit_total standard l) as [E1|E1], (visit_total standard l') as [E2|E2].
    - rewrite E1, E2. cbn [obnd]. rewrite !required_seen by yin. rewrite !lookup_seen by yin.
      rewrite !optional_seen by yin. rewrite R. rewrite (L (of_string "displayTimeUnit")) by discriminate.
      rewrite Oth. unfold optional. rewrite !L by discriminate. reflexivity.
    - apply V in E2. congruence.
    - apply V in E1. congruence.
    - rewrite E1, E2. reflexivity.
  Qed.

  (** Duplicates *)
  Lemma duplicate_rejected k l : In k standard -> ~ single l k ->
    from_document time ident iter us up al (DObj l) = CtfError.
  Proof.
    intros Hk N. unfold from_document. cbn [to_trace_data]. unfold nm. fold standard.
    destruct (visit_total standard l) as [E|E]; [|now rewrite E].
    exfalso. apply visit_spec in E. destruct E as [_ [_ S]]. apply N. now apply S.
  Qed.
End WithNumbers.

Section Panics.
  Variable time : number -> Z.
  Variable ident : number -> N.
  Variable iter : args -> args.
  Hypothesis iter_perm : forall l, Permutation l (iter l).
  Variable us : Z.
  Variable up al : chr -> bool.

  Lemma event_singles f e k : event time ident (DObj f) e ->
    In k [of_string "ph"; of_string "pid"; of_string "tid"; of_string "ts"; of_string "name";
          of_string "cat"; of_string "tts"; of_string "args"] -> single f k.
  Proof.
    intros H Hk.
    assert (D : forall d, duration_fields time ident f d -> tagged f (of_string "ph") (DStr (of_string "X")) \/
                  k <> of_string "ph" -> single f k).
    { intros d [S _] [T|N].
      - destruct Hk as [<-|Hk]; [apply T|]. apply S. exact Hk || (cbn [In] in *; tauto).
      - destruct Hk as [<-|Hk]; [contradiction|]. apply S. cbn [In] in *; tauto. }
    destruct (str_eqb_spec k (of_string "ph")) as [->|N].
    { inversion H; subst; match goal with T : tagged f (of_string "ph") _ |- _ => apply T end. }
    assert (M : forall (A : Type) a (R : doc -> A -> Prop) owner other x y z w o i s,
      (owner = of_string "pid" /\ other = of_string "tid") \/ (owner = of_string "tid" /\ other = of_string "pid") ->
      metadata_tag f s i ->
      metadata_fields time ident a R owner other f x y z w o -> single f k).
    { intros A a R owner other x y z w o i s Ho T [S _].
      destruct (str_eqb_spec k (of_string "name")) as [->|Nn].
      - destruct T as [T|T]; apply T.
      - apply S. destruct Ho as [[-> ->]|[-> ->]]; cbn [In] in *; intuition congruence. }
    inversion H; subst; eauto; eapply M; try eassumption; auto.
  Qed.

  Lemma duplicate_in_event pre events post f k :
    In (DObj f) events -> ~ single f k ->
    In k [of_string "ph"; of_string "pid"; of_string "tid"; of_string "ts"; of_string "name";
          of_string "cat"; of_string "tts"; of_string "args"] ->
    from_document time ident iter us up al
      (DObj (pre ++ (of_string "traceEvents", DArr events) :: post)) = CtfError.
  Proof.
    intros Hin N Hk. unfold from_document.
    destruct (to_trace_data time ident iter _) as [td|] eqn:E; [|reflexivity]. exfalso.
    cbn [to_trace_data] in E. peel E x V. destruct x as [seen rest]. apply visit_spec in V.
    destruct V as [-> [-> S]]. peel E ev Eev. clear E. rewrite required_seen in Eev by yin.
    unfold required in Eev.
    assert (L : lookup (nm "traceEvents") (pre ++ (of_string "traceEvents", DArr events) :: post)
                = Some (DArr events)).
    { apply lookup_single; [apply S; yin|]. apply in_or_app. right. now left. }
    rewrite L in Eev. cbn [obnd as_list] in Eev.
    assert (F : to_event time ident iter (DObj f) <> None).
    { apply (proj1 (all_some_iff (to_event time ident iter) events)); [congruence|exact Hin]. }
    destruct (to_event time ident iter (DObj f)) as [e|] eqn:Ee; [|congruence].
    apply event_sound in Ee; [|exact iter_perm]. apply N. exact (event_singles f e k Ee Hk).
  Qed.

  (** Panics *)
  Lemma panic_cause d : from_document time ident iter us up al d = Panicked ->
    exists l events, d = DObj l /\ In (of_string "traceEvents", DArr events) l /\
      (events = [] \/
       exists f a n, In (DObj f) events /\ In (of_string "ph", DStr (of_string "X")) f
         /\ In (of_string "ts", DNum n) f /\ (us < time n)%Z
         /\ In (of_string "args", DObj a) f
         /\ final a (of_string "detail") (DStr [])
         /\ forall k v, In (k, v) a -> k = of_string "detail").
  Proof.
    intros H. apply (panicked_iff time ident iter iter_perm) in H. destruct H as [td [P B]].
    pose proof (plain_distinct time ident _ _ P) as D.
    destruct P as [l [events [-> [_ [Hin [F _]]]]]].
    exists l, events. split; [reflexivity|]. split; [exact Hin|].
    apply from_data_boom in B; [|exact D]. destruct B as [B|[de [dur [He [Ht Hd]]]]].
    - left. rewrite B in F. now inversion F.
    - right. clear D Hin.
      assert (X : exists ev, In ev events /\ event time ident ev (EvX de dur None None)).
      { clear -F He. induction F as [|d e ds es H F IH]; [contradiction|].
        destruct He as [->|He]; [exists d; split; [now left|exact H]|].
        destruct (IH He) as [ev [I1 I2]]. exists ev. split; [now right|exact I2]. }
      destruct X as [ev [Hev E]]. inversion E as [| |f d dd tdur stack T Df _ _ _ _ _| | | | |]; subst.
      destruct Df as [_ [_ [_ [Hts [_ [_ [_ [Ha _]]]]]]]].
      destruct Hts as [v [Hv [n [-> Etime]]]]. unfold only_detail in Hd. rewrite Hd in Ha. cbn [may_have] in Ha.
      destruct Ha as [w [Hw [a [-> [_ M]]]]].
      exists f, a, n. split; [exact Hev|]. split; [apply T|]. split; [exact Hv|].
      split; [rewrite <- Etime; exact Ht|]. split; [exact Hw|]. split.
      + destruct (proj1 (M (of_string "detail") (JStr [])) (or_introl eq_refl)) as [x [Fx Vx]].
        apply value_iff in Vx. destruct x; try discriminate Vx; cbn in Vx.
        injection Vx as <-. exact Fx.
      + intros k x Hx.
        assert (Fk : exists y, final a k y).
        { clear -Hx. induction a as [|[k' y] r IH] using rev_ind; [contradiction|].
          destruct (str_eqb_spec k' k) as [->|N].
          - exists y. exists r, []. split; [reflexivity|]. intros w [].
          - apply in_app_or in Hx. destruct Hx as [Hx|[Ex|[]]]; [|injection Ex as -> _; contradiction].
            destruct (IH Hx) as [z [p [q [-> A]]]]. exists z. exists p, (q ++ [(k', y)]).
            split; [now rewrite <- app_assoc|]. intros w Hw. apply in_app_or in Hw.
            destruct Hw as [Hw|[Ew|[]]]; [exact (A w Hw)|]. injection Ew as -> _. contradiction. }
        destruct Fk as [y Fy].
        assert (Hj : In (k, to_value ident y) [(of_string "detail", JStr [])]).
        { apply M. exists y. split; [exact Fy|]. now apply value_iff. }
        destruct Hj as [Hj|[]]. now injection Hj.
  Qed.

  (** Fields that the document may not have known about *)
  Lemma from_data_extra td td' : td_plain td = td_plain td' -> td_events td = td_events td' ->
    lookup (of_string "beginningOfTime") (td_extra td) = lookup (of_string "beginningOfTime") (td_extra td') ->
    from_data us up al td = from_data us up al td'.
  Proof. intros E1 E2 E3. unfold from_data. now rewrite E1, E2, E3. Qed.

  Lemma lookup_to_map k (l : fields) :
    lookup k (to_map ident iter l) = lookup k (collect (pairs ident l)).
  Proof.
    symmetry. apply lookup_perm; [apply sorted_distinct, collect_sorted|].
    unfold to_map. fold (pairs ident l). apply iter_perm.
  Qed.

  Lemma unknown_document_field pre k v post :
    ~ In k standard -> k <> of_string "beginningOfTime" ->
    from_document time ident iter us up al (DObj (pre ++ (k, v) :: post)) =
    from_document time ident iter us up al (DObj (pre ++ post)).
  Proof.
    intros N Nb. unfold from_document. cbn [to_trace_data].
    set (l := pre ++ (k, v) :: post). set (l' := pre ++ post).
    assert (H : ins k v l l') by (exists pre, post; auto).
    unfold nm. fold standard.
    destruct (ins_visit k v standard l l' H N) as [[E1 E2]|[E1 E2]]; rewrite E1, E2; [|reflexivity].
    cbn [obnd]. rewrite !required_seen by yin. rewrite !lookup_seen by yin. rewrite !optional_seen by yin.
    assert (NK : forall s, known standard s = true -> s <> k).
    { intros s K ->. apply N. now apply known_In. }
    rewrite !(ins_required k v _ _ l l' H) by (apply NK; vm_compute; reflexivity).
    rewrite (ins_lookup k v (of_string "displayTimeUnit") l l' H) by (apply NK; vm_compute; reflexivity).
    rewrite !(ins_optional k v _ _ l l' H) by (apply NK; vm_compute; reflexivity).
    set (os := others standard l). set (os' := others standard l').
    assert (Ho : ins k v os os') by (apply ins_others; assumption).
    destruct (required _ _ l') as [ev|]; [cbn [obnd]|reflexivity].
    destruct (match lookup (of_string "displayTimeUnit") l' with Some v0 => as_time_unit v0 | None => Some true end)
      as [u|]; [cbn [obnd]|reflexivity].
    do 5 (destruct (optional _ _ l') as [?f|]; [cbn [obnd]|reflexivity]).
    erewrite from_data_extra; [reflexivity|reflexivity|reflexivity|]. cbn [td_extra].
    rewrite !lookup_to_map. destruct Ho as [p [q [-> ->]]]. unfold pairs. rewrite !map_app. cbn [map fst snd].
    assert (G : forall (x y : args) j, lookup (of_string "beginningOfTime") (collect (x ++ (k, j) :: y)) =
                  lookup (of_string "beginningOfTime") (collect (x ++ y))).
    { intros x y j. unfold collect. rewrite !fold_left_app. cbn [fold_left fst snd].
      set (m := fold_left (fun m e => put (fst e) (snd e) m) x []).
      assert (Q : forall (q0 : args) (m1 m2 : args),
        lookup (of_string "beginningOfTime") m1 = lookup (of_string "beginningOfTime") m2 ->
        lookup (of_string "beginningOfTime") (fold_left (fun m e => put (fst e) (snd e) m) q0 m1) =
        lookup (of_string "beginningOfTime") (fold_left (fun m e => put (fst e) (snd e) m) q0 m2)).
      { induction q0 as [|e q0 IH]; intros m1 m2 E; [exact E|]. cbn [fold_left]. apply IH.
        rewrite !lookup_put. now rewrite E. }
      apply Q. rewrite lookup_put. destruct (str_eqb_spec k (of_string "beginningOfTime")); [contradiction|reflexivity]. }
    apply G.
  Qed.
End Panics.

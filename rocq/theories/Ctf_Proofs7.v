(** Which documents are of the format. *)
From Coq Require Import String Permutation.
From Verif Require Import Base Load_Model Load_Spec Load_Proofs3 Ctf_Model Ctf_Spec Ctf_Proofs Ctf_Proofs2 Ctf_Proofs3 Ctf_Proofs4.
Local Open Scope bool_scope.
Local Open Scope list_scope.

Lemma obnd_ok {A B} (c : option A) (f : A -> option B) : obnd c f <> None <-> exists x, c = Some x /\ f x <> None.
Proof.
  destruct c as [x|]; cbn [obnd]; split; eauto; [|intros H; now elim H|intros (x & H & _); discriminate].
  intros (y & [= ->] & H). exact H.
Qed.
Lemma obnd_const {A B} (c : option A) (X : option B) : obnd c (fun _ => X) <> None <-> c <> None /\ X <> None.
Proof. rewrite obnd_ok. destruct c as [x|]; split; [intros (y & _ & H)|intros [_ H]; eauto|intros (y & H & _); discriminate|intros [H _]; now elim H]. now split. Qed.
Lemma obnd_all {A B} (c : option A) (f : A -> option B) (Q : Prop) :
  (forall x, f x <> None <-> Q) -> (obnd c f <> None <-> c <> None /\ Q).
Proof.
  intros H. rewrite obnd_ok. split.
  - intros (x & -> & Hx). split; [discriminate|now apply (H x)].
  - intros [Hc HQ]. destruct c as [x|]; [|congruence]. exists x. split; [reflexivity|now apply H].
Qed.
Lemma required_ok {A} (conv : doc -> option A) P l k : (forall v, conv v <> None <-> P v) -> single l k ->
  (required conv k l <> None <-> with_field l k P).
Proof.
  intros HP S. unfold required, with_field. rewrite obnd_ok. split; intros (v & H1 & H2); exists v.
  - split; [now apply lookup_in|now apply HP].
  - split; [now apply lookup_single|now apply HP].
Qed.
Lemma optional_ok {A} (conv : doc -> option A) P l k : (forall v, conv v <> None <-> P v) -> single l k ->
  (optional conv k l <> None <-> maybe_field l k P).
Proof.
  intros HP S. unfold optional, maybe_field. destruct (lookup k l) as [v|] eqn:E.
  - assert (U : forall w, In (k, w) l -> w = v) by (intros w Hw; apply (lookup_single k w l S) in Hw; congruence).
    assert (M : forall w, option_map Some (conv w) <> None <-> P w).
    { intros w. rewrite <- HP. destruct (conv w); cbn; split; congruence. }
    apply lookup_in in E. split.
    + intros H w Hw. apply U in Hw. subst w. destruct v; [now left|right; now apply M..].
    + intros H. destruct (H v E) as [->|Hv]; [discriminate|]. destruct v; try discriminate; now apply M.
  - split; [|discriminate]. intros _ v Hv. apply lookup_none in Hv; [contradiction|exact E].
Qed.

Lemma exactly_ok {A} (conv : doc -> option A) R : exactly conv R -> forall v, conv v <> None <-> exists x, R v x.
Proof.
  intros H v. split.
  - destruct (conv v) as [x|] eqn:E; [|congruence]. intros _. exists x. now apply H.
  - intros [x Hx]. apply H in Hx. congruence.
Qed.
Lemma list_ok {A} (conv : doc -> option A) P : (forall v, conv v <> None <-> P v) ->
  forall v, as_list conv v <> None <-> exists l, v = DArr l /\ forall x, In x l -> P x.
Proof.
  intros HP v. unfold as_list.
  destruct v as [| | | |l|l0]; try (split; [intros H; now elim H|intros (l & H & _); discriminate]).
  rewrite all_some_iff. split.
  - intros H. exists l. split; [reflexivity|]. intros x Hx. apply HP. auto.
  - intros (l' & [= <-] & H) x Hx. apply HP. auto.
Qed.

Lemma combine_split (names : list str) (vs : list doc) : List.length vs = List.length names ->
  map fst (combine names vs) = names /\ map snd (combine names vs) = vs.
Proof.
  revert vs. induction names as [|n names IH]; intros [|v vs] H; try discriminate; [split; reflexivity|].
  cbn [combine map fst snd]. destruct (IH vs) as [H1 H2]; [now injection H|]. now rewrite H1, H2.
Qed.
Lemma combine_of (l : fields) : combine (map fst l) (map snd l) = l.
Proof. induction l as [|[k v] l IH]; [reflexivity|]. cbn [map combine fst snd]. now rewrite IH. Qed.
Lemma nodup_single (l : fields) k : NoDup (map fst l) -> single l k.
Proof.
  intros H pre v mid w post ->. rewrite map_app, map_cons in H. cbn [fst] in H. apply NoDup_remove_2 in H. apply H. rewrite in_app_iff. right.
  rewrite map_app, in_app_iff. right. now left.
Qed.
Lemma strict_iff names v l : NoDup names -> (strict names v = Some l <-> record names v l).
Proof.
  intros ND. unfold strict, record. destruct v as [| | | |vs|l0].
  1-4: split; [discriminate|intros [[H _]|[H _]]; discriminate].
  - destruct (Nat.eqb_spec (List.length vs) (List.length names)) as [E|E].
    + destruct (combine_split names vs E) as [E1 E2]. split.
      * intros [= <-]. right. now rewrite E1, E2.
      * intros [[H _]|[[= ->] <-]]; [discriminate|]. now rewrite combine_of.
    + split; [discriminate|]. intros [[H _]|[[= ->] <-]]; [discriminate|]. rewrite !map_length in E. congruence.
  - assert (K : (forall k w, In (k, w) l0 -> In k names) <-> others names l0 = []).
    { split.
      - intros H. unfold others. induction l0 as [|[k w] l0 IH]; [reflexivity|]. cbn [filter fst].
        rewrite (proj2 (known_In names k)) by (apply (H k w); now left). cbn [negb]. apply IH. intros k' w' H'. apply (H k' w'). now right.
      - intros H k w Hin. destruct (known names k) eqn:Ek; [now apply known_In|].
        exfalso. assert (X : In (k, w) (others names l0)) by (apply filter_In; cbn [fst]; now rewrite Ek). rewrite H in X. exact X. }
    assert (F : (forall k w, In (k, w) l0 -> In k names) -> filter (fun e => known names (fst e)) l0 = l0).
    { clear K. intros H. induction l0 as [|[k w] l0 IH]; [reflexivity|]. cbn [filter fst].
      rewrite (proj2 (known_In names k)) by (apply (H k w); now left). f_equal. apply IH. intros k' w' H'. apply (H k' w'). now right. }
    split.
    + destruct (visit names [] [] l0) as [[s r]|] eqn:E; [|discriminate]. apply visit_spec in E as (-> & -> & S).
      destruct (others names l0) eqn:Eo; [|discriminate]. intros [= <-]. left. rewrite F by now apply K. split; [reflexivity|]. split; [exact S|now apply K].
    + intros [([= <-] & S & H)|[H _]]; [|discriminate].
      assert (E : visit names [] [] l0 = Some (l0, [])).
      { apply visit_spec. split; [now rewrite F|]. split; [symmetry; now apply K|exact S]. }
      now rewrite E.
Qed.
Lemma record_single names v l k : NoDup names -> record names v l -> In k names -> single l k.
Proof. intros ND [(_ & S & _)|[_ <-]] Hk; [now apply S|now apply nodup_single]. Qed.

Lemma nodup_names l : (fix f (l : list str) := match l with [] => true | x :: r => negb (known r x) && f r end) l = true -> NoDup l.
Proof.
  induction l as [|x r IH]; [constructor|]. intros H. apply andb_true_iff in H as [H1 H2]. constructor; [|auto].
  intros Hx. apply known_In in Hx. rewrite Hx in H1. discriminate.
Qed.

Lemma strict_obnd {B} names v (f : fields -> option B) P : NoDup names ->
  (forall l, record names v l -> (f l <> None <-> P l)) ->
  (obnd (strict names v) f <> None <-> exists l, record names v l /\ P l).
Proof.
  intros ND H. rewrite obnd_ok. split; intros (l & H1 & H2); exists l.
  - apply strict_iff in H1; [|exact ND]. split; [exact H1|now apply H].
  - split; [now apply strict_iff|now apply H].
Qed.

Lemma frame_ok v : as_stack_frame v <> None <-> stack_frame v.
Proof.
  unfold as_stack_frame, stack_frame. apply strict_obnd; [apply nodup_names; vm_compute; reflexivity|].
  intros l R. assert (S : forall k, In k [nm "category"; nm "name"; nm "parent"] -> single l k)
    by (intros k; apply (record_single _ v); [apply nodup_names; vm_compute; reflexivity|exact R]).
  rewrite !obnd_const.
  rewrite (required_ok as_text _ l (nm "category") (exactly_ok _ _ text_exactly)) by (apply S; yin).
  rewrite (required_ok as_text _ l (nm "name") (exactly_ok _ _ text_exactly)) by (apply S; yin).
  rewrite (optional_ok as_frame_id _ l (nm "parent") frame_id_iff) by (apply S; yin).
  intuition discriminate.
Qed.

Section WithNumbers.
  Variable time : number -> Z.
  Variable ident : number -> N.
  Variable iter : args -> args.
  Hypothesis iter_perm : forall l, Permutation l (iter l).

  Lemma time_ok v : as_time time v <> None <-> exists n, v = DNum n.
  Proof. unfold as_time. destruct v; split; try congruence; eauto; intros [n H]; discriminate. Qed.

  Lemma sample_ok v : as_sample time v <> None <-> sample v.
  Proof.
    unfold as_sample, sample. apply strict_obnd; [apply nodup_names; vm_compute; reflexivity|].
    intros l R. assert (S : forall k, In k [nm "cpu"; nm "tid"; nm "ts"; nm "name"; nm "sf"; nm "weight"] -> single l k)
      by (intros k; apply (record_single _ v); [apply nodup_names; vm_compute; reflexivity|exact R]).
    rewrite !obnd_const.
    rewrite (optional_ok as_i32 _ l (nm "cpu") (exactly_ok _ _ i32_exactly)) by (apply S; yin).
    rewrite (required_ok as_i32 _ l (nm "tid") (exactly_ok _ _ i32_exactly)) by (apply S; yin).
    rewrite (required_ok (as_time time) _ l (nm "ts") time_ok) by (apply S; yin).
    rewrite (required_ok as_text _ l (nm "name") (exactly_ok _ _ text_exactly)) by (apply S; yin).
    rewrite (required_ok as_frame_id _ l (nm "sf") frame_id_iff) by (apply S; yin).
    rewrite (required_ok as_i64 _ l (nm "weight") (exactly_ok _ _ i64_exactly)) by (apply S; yin).
    intuition discriminate.
  Qed.
  Lemma frames_ok v : as_stack_frames v <> None <-> exists fs, v = DObj fs /\ forall k f, In (k, f) fs -> stack_frame f.
  Proof.
    unfold as_stack_frames. destruct v as [| | | | |l]; try (split; [intros H; now elim H|intros (fs & H & _); discriminate]).
    assert (M : forall o : option (list unit), option_map (fun _ => tt) o <> None <-> o <> None) by (intros []; cbn; split; congruence).
    rewrite M, all_some_iff. split.
    - intros H. exists l. split; [reflexivity|]. intros k f Hf. apply frame_ok. exact (H (k, f) Hf).
    - intros (fs & [= <-] & H) [k f] Hf. cbn [snd]. apply frame_ok. eauto.
  Qed.
  Lemma unit_ok v : as_time_unit v <> None <-> time_unit v.
  Proof.
    unfold as_time_unit, time_unit.
    assert (E : forall s, (if str_eqb s (nm "ms") then Some true else if str_eqb s (nm "ns") then Some false else None) <> None <->
      In s [of_string "ms"; of_string "ns"]).
    { intros s. destruct (str_eqb s (nm "ms")) eqn:E1; [apply str_eqb_eq in E1; split; [now left|discriminate]|].
      destruct (str_eqb s (nm "ns")) eqn:E2; [apply str_eqb_eq in E2; split; [right; now left|discriminate]|].
      split; [congruence|]. intros [H|[H|[]]]; subst s; discriminate. }
    split.
    - destruct v as [| | |s| |[|[s []] []]]; try (intros H; now elim H); intros H; apply E in H; eauto.
    - intros (s & H & [-> | ->]); now apply E.
  Qed.
  Lemma event_ok v : to_event time ident iter v <> None <-> exists t, event time ident v t.
  Proof.
    split.
    - destruct (to_event time ident iter v) as [e|] eqn:E; [|congruence]. intros _. exists e. eapply event_sound; eassumption.
    - intros [t H]. eapply event_complete in H; [|eassumption]. destruct H as (e' & H & _). rewrite H. discriminate.
  Qed.

  Lemma document_ok d : to_trace_data time ident iter d <> None <-> document time ident d.
  Proof.
    unfold to_trace_data, document. destruct d as [| | | |l0|l]; try (split; [intros H; now elim H|intros (l & H & _); discriminate]).
    assert (E : forall seen rest, visit [nm "traceEvents"; nm "displayTimeUnit"; nm "systemTraceEvents";
                     nm "powerTraceAsString"; nm "stackFrames"; nm "samples";
                     nm "controllerTraceDataKey"] [] [] l = Some (seen, rest) <->
      seen = filter (fun e => known standard (fst e)) l /\ rest = others standard l /\ forall k, In k standard -> single l k)
      by (intros; apply visit_spec).
    rewrite obnd_ok.
    assert (C : forall (S : forall k, In k standard -> single l k) rest, let seen := filter (fun e => known standard (fst e)) l in
      obnd (required (as_list (to_event time ident iter)) (nm "traceEvents") seen) (fun events =>
        obnd (match lookup (nm "displayTimeUnit") seen with
              | Some v => as_time_unit v
              | None => Some true
              end) (fun unit_ms =>
        obnd (optional as_text (nm "systemTraceEvents") seen) (fun f1 =>
        obnd (optional as_text (nm "powerTraceAsString") seen) (fun f2 =>
        obnd (optional as_stack_frames (nm "stackFrames") seen) (fun f3 =>
        obnd (optional (as_list (as_sample time)) (nm "samples") seen) (fun f4 =>
        obnd (optional as_text (nm "controllerTraceDataKey") seen) (fun f5 =>
        Some (mk_td events
                (unit_ms && is_none f1 && is_none f2 && is_none f3 && is_none f4 && is_none f5)
                (to_map ident iter rest))))))))) <> None <->
      with_field l (of_string "traceEvents") (fun v =>
            exists events, v = DArr events /\ forall e, In e events -> exists t, event time ident e t)
      /\ (forall v, In (of_string "displayTimeUnit", v) l -> time_unit v)
      /\ maybe_field l (of_string "systemTraceEvents") (fun v => exists s, text v s)
      /\ maybe_field l (of_string "powerTraceAsString") (fun v => exists s, text v s)
      /\ maybe_field l (of_string "stackFrames") (fun v => exists fs, v = DObj fs /\ forall k f, In (k, f) fs -> stack_frame f)
      /\ maybe_field l (of_string "samples") (fun v => exists l, v = DArr l /\ forall x, In x l -> sample x)
      /\ maybe_field l (of_string "controllerTraceDataKey") (fun v => exists s, text v s)).
    { intros S rest. cbv zeta. rewrite required_seen, lookup_seen, !optional_seen by yin.
      rewrite <- (required_ok _ _ l (of_string "traceEvents") (list_ok _ _ event_ok)) by (apply S; yin).
      rewrite <- (optional_ok as_text _ l (of_string "systemTraceEvents") (exactly_ok _ _ text_exactly)) by (apply S; yin).
      rewrite <- (optional_ok as_text _ l (of_string "powerTraceAsString") (exactly_ok _ _ text_exactly)) by (apply S; yin).
      rewrite <- (optional_ok as_stack_frames _ l (of_string "stackFrames") frames_ok) by (apply S; yin).
      rewrite <- (optional_ok _ _ l (of_string "samples") (list_ok _ _ sample_ok)) by (apply S; yin).
      rewrite <- (optional_ok as_text _ l (of_string "controllerTraceDataKey") (exactly_ok _ _ text_exactly)) by (apply S; yin).
      assert (U : match lookup (nm "displayTimeUnit") l with Some v => as_time_unit v | None => Some true end <> None <->
                  forall v, In (of_string "displayTimeUnit", v) l -> time_unit v).
      { assert (S' := S (of_string "displayTimeUnit") ltac:(yin)). destruct (lookup (nm "displayTimeUnit") l) as [v|] eqn:El.
        - rewrite unit_ok. split; [|intros H; now apply H, lookup_in].
          intros H w Hw. apply (lookup_single _ w l S') in Hw. unfold nm in El. congruence.
        - split; [|discriminate]. intros _ v Hv. exfalso. exact (proj1 (lookup_none _ l) El v Hv). }
      rewrite <- U.
      repeat (apply obnd_all; intros ?). rewrite obnd_ok. split.
      - intros (y & H & _). unfold nm in H. rewrite H. discriminate.
      - intros H. unfold nm. destruct (optional as_text (of_string "controllerTraceDataKey") l) as [y|]; [|congruence].
        exists y. split; [reflexivity|discriminate]. }
    split.
    - intros ([seen rest] & H & H'). apply E in H as (-> & -> & S). exists l. split; [reflexivity|]. split; [exact S|].
      now apply C in H'.
    - intros (l' & [= <-] & S & H). eexists (_, _). split; [apply E; split; [reflexivity|]; split; [reflexivity|exact S]|].
      now apply C.
  Qed.

  Theorem format_errors us up al d :
    from_document time ident iter us up al d = CtfError <-> ~ document time ident d.
  Proof.
    rewrite <- document_ok. unfold from_document. destruct (to_trace_data time ident iter d) as [td|].
    - split; [destruct (from_data us up al td); discriminate|]. intros H. elim H. discriminate.
    - split; [congruence|reflexivity].
  Qed.

  Theorem metadata_errors us up al d :
    from_document time ident iter us up al d = LoadError UnexpectedTraceMetadata <->
    document time ident d /\ ~ exists td, plain_document time ident d td.
  Proof.
    rewrite <- document_ok. unfold from_document.
    destruct (to_trace_data time ident iter d) as [td|] eqn:E.
    2:{ split; [discriminate|]. intros [H _]. now elim H. }
    destruct (td_plain td) eqn:Ep.
    - split.
      + intros H. exfalso. assert (H' : from_data us up al td = Err UnexpectedTraceMetadata) by (destruct (from_data us up al td); congruence).
        apply from_data_err in H'; [|eapply plain_distinct, document_sound; eassumption].
        destruct H' as [[H' _]|[(v & _ & _ & H')|[[H' _]|(pre & ev & post & ks & _ & _ & H')]]]; [congruence|discriminate..|].
        inversion H'.
      + intros [_ H]. elim H. exists td. eapply document_sound; eassumption.
    - split.
      + intros _. split; [discriminate|]. intros [td' H]. assert (H0 := H). eapply document_complete in H0; [|eassumption].
        destruct H0 as (td2 & H1 & H2). rewrite E in H1. injection H1 as <-. destruct H2 as [H2 _].
        destruct H as (l & ev & H). decompose [and] H. congruence.
      + intros _. unfold from_data. now rewrite Ep.
  Qed.
End WithNumbers.

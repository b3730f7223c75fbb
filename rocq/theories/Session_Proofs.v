(** Proofs about full-build profiling sessions. *)
From Verif Require Import Base Cmd_Model Clang_Model Session_Model Session_Spec.

Lemma question_iff f manual q : from_freshness f manual = q <-> question f manual q.
Proof.
  assert (D : forall d, (d / ns_per_s / 60 = d / 60000000000)%Z).
  { intros d. unfold ns_per_s. rewrite Z.div_div by lia. reflexivity. }
  split.
  - intros <-. destruct f as [| |age]; simpl; try constructor.
    destruct manual; [rewrite andb_false_r; constructor|]. rewrite andb_true_r.
    destruct age as [d|]; [|constructor].
    rewrite D. destruct (Z.ltb_spec 0 (d / 60000000000)) as [H|H].
    + constructor. pose proof (Z.div_lt_upper_bound d 60000000000 1). lia.
    + constructor. pose proof (Z.div_le_lower_bound d 60000000000 1). lia.
  - intros Q. destruct Q; simpl; try reflexivity.
    + rewrite andb_false_r. reflexivity.
    + rewrite D. assert (age / 60000000000 <= 0)%Z by (pose proof (Z.div_lt_upper_bound age 60000000000 1); lia).
      destruct (Z.ltb_spec 0 (age / 60000000000)); [lia|reflexivity].
    + rewrite D. assert (1 <= age / 60000000000)%Z by (apply Z.div_le_lower_bound; lia).
      destruct (Z.ltb_spec 0 (age / 60000000000)); [reflexivity|lia].
Qed.
Lemma question_new f manual p : question f manual (Some p) -> (p = NewProfile <-> f = Nonexistent).
Proof. intros Q. inversion Q; subst; split; congruence. Qed.
Lemma exists_spec f : product_exists f = true <-> f <> Nonexistent.
Proof. destruct f; simpl; split; congruence. Qed.

Section P.
  Variable i : inputs.

  Definition found (f : freshness) : Prop := i_db i = None /\ i_clang i = Found /\ i_fresh i = IoOk f.
  Definition pre (p : prompt) : list item := [Asked p; Pressed (asks_to_measure p); Started].
  Definition fin (t : thread) : list item :=
    match t with HasResult r | Stored r | Sent r => [Finished r] | _ => [] end.
  Definition sent (t : thread) : nat := match t with Sent _ => 1 | _ => 0 end.
  Definition idle (t : thread) : Prop := match t with NoThread | Sent _ => True | _ => False end.
  Definition clean (r : result) : list item :=
    match r with Some _ => if i_restore_fails i then [ErrorShown MCleanup; UserLeft] else [] | None => [] end.
  Definition at_ (p : place) (t : thread) (q : nat) : session := {| s_at := p; s_thread := t; s_quits := q |}.

  Inductive calm_at : session -> list item -> Prop :=
  | ca_db : calm_at (at_ AtDatabase NoThread 0) []
  | ca_clang : i_db i = None -> calm_at (at_ AtClang NoThread 0) []
  | ca_fresh : i_db i = None -> i_clang i = Found -> calm_at (at_ AtFreshness NoThread 0) []
  | ca_prompt f p : found f -> question f (i_manual i) (Some p) ->
      calm_at (at_ (AtPrompt p (product_exists f)) NoThread 0) [Asked p]
  | ca_backup f p : found f -> question f (i_manual i) (Some p) ->
      calm_at (at_ AtBackup NoThread 0) [Asked p; Pressed (asks_to_measure p)]
  | ca_progress f p t : found f -> question f (i_manual i) (Some p) -> i_backup_fails i = false ->
      t <> NoThread -> calm_at (at_ AtProgress t (sent t)) (pre p ++ fin t)
  | ca_drop f p r : found f -> question f (i_manual i) (Some p) -> i_backup_fails i = false ->
      calm_at (at_ AtDrop (Sent r) 0) (pre p ++ [Finished r; ProgramLeft])
  | ca_cleanup f p e : found f -> question f (i_manual i) (Some p) -> i_backup_fails i = false ->
      i_restore_fails i = true ->
      calm_at (at_ AtCleanupError (Sent (Some e)) 0)
        (pre p ++ [Finished (Some e); ProgramLeft] ++ [ErrorShown MCleanup])
  | ca_join f p r pl : found f -> question f (i_manual i) (Some p) -> i_backup_fails i = false ->
      pl = AtJoin \/ pl = AtOutcome ->
      calm_at (at_ pl (Sent r) 0) (pre p ++ [Finished r; ProgramLeft] ++ clean r)
  | ca_load t h : idle t -> story i (h ++ shows_profile (i_load i)) -> calm_at (at_ AtLoad t 0) h
  | ca_shown t h pl : idle t -> pl = AtTable \/ pl = AtError -> story i (h ++ [UserLeft]) ->
      calm_at (at_ pl t 0) h
  | ca_over t h : idle t -> story i h -> calm_at (at_ Over t 0) h.

  Lemma split3 {A} (a b c : list A) : (a ++ b) ++ c = a ++ b ++ c.
  Proof. symmetry. apply app_assoc. Qed.

  Ltac fin_step :=
    match goal with
    | H : Some _ = Some _ |- _ => injection H as <- <-
    | H : None = Some _ |- _ => discriminate
    end.

  Lemma idle_no_finish pl t q e s' h' : idle t ->
    step i (at_ pl t q) e = Some (s', h') ->
    match e with Finish _ | Store | Send => False | _ => True end.
  Proof. destruct e, t; simpl; try discriminate; easy. Qed.

  Lemma calm_step s h e s' h' :
    calm_at s h -> step i s e = Some (s', h') -> ~ In Aborted h' -> calm_at s' (h ++ h').
  Proof.
    intros C E NA. destruct C.
    - destruct e; unfold step, go, error, at_ in E; cbn in E; try discriminate.
      destruct (i_db i) eqn:D; fin_step.
      + apply ca_shown; [exact I|now right|]. simpl. now constructor.
      + now apply ca_clang.
    - destruct e; unfold step, go, error, at_ in E; cbn in E; try discriminate.
      destruct (i_clang i) eqn:D; fin_step.
      + now apply ca_fresh.
      + apply ca_shown; [exact I|now right|]. simpl. now constructor.
    - destruct e; unfold step, go, error, at_ in E; cbn in E; try discriminate.
      destruct (i_fresh i) as [f|] eqn:D; [destruct (from_freshness f (i_manual i)) eqn:Q|]; fin_step.
      + apply question_iff in Q. now apply ca_prompt.
      + apply question_iff in Q. apply ca_load; [exact I|]. simpl. now apply st_open with f.
      + apply ca_shown; [exact I|now right|]. simpl. now apply st_freshness.
    - destruct e as [|default| | | | |]; unfold step, go, error, at_ in E; cbn in E; try discriminate.
      + destruct H as (F1 & F2 & F3).
        pose proof (question_new _ _ _ H0) as QN.
        destruct default, p; unfold step, go, error, at_ in E; cbn in E;
          try (injection E as <- <-; eapply ca_backup; [split; [|split]; eassumption|eassumption]);
          destruct (product_exists f) eqn:X; unfold step, go, error, at_ in E; cbn in E; injection E as <- <-.
        * apply ca_load; [exact I|]. simpl. eapply st_reuse; try eassumption. now apply exists_spec.
        * assert (E : f = Nonexistent) by (destruct f; simpl in X; congruence).
          apply QN in E. discriminate.
        * apply ca_load; [exact I|]. simpl. eapply st_reuse; try eassumption. now apply exists_spec.
        * assert (E : f = Nonexistent) by (destruct f; simpl in X; congruence).
          apply QN in E. discriminate.
        * assert (f = Nonexistent) by now apply QN. subst. discriminate.
        * apply ca_over; [exact I|]. simpl. eapply st_no_profile; try eassumption. now apply QN.
      + fin_step. destruct H as (F1 & F2 & F3). apply ca_over; [exact I|]. simpl. now apply st_quit with f.
    - destruct e; unfold step, go, error, at_ in E; cbn in E; try discriminate.
      destruct H as (F1 & F2 & F3).
      destruct (i_backup_fails i) eqn:B; fin_step.
      + apply ca_shown; [exact I|now right|]. simpl. now apply st_backup with f.
      + apply (ca_progress f p Working); try easy.
    - destruct e; unfold step, go, error, at_ in E; cbn in E; try discriminate.
      + injection E as <- <-. simpl in NA. intuition.
      + destruct t; try discriminate. cbn in E. injection E as <- <-.
        rewrite split3. apply (ca_drop f p r); assumption.
      + destruct t; try discriminate. injection E as <- <-. rewrite split3.
        now apply (ca_progress f p (HasResult r)).
      + destruct t; try discriminate. injection E as <- <-. rewrite split3. simpl app.
        now apply (ca_progress f p (Stored r)).
      + destruct t; try discriminate. injection E as <- <-. rewrite split3. simpl app.
        now apply (ca_progress f p (Sent r)).
    - destruct e; unfold step, go, error, at_ in E; cbn in E; try discriminate.
      destruct r as [e|].
      + destruct (i_restore_fails i) eqn:R; injection E as <- <-; rewrite split3.
        * now apply (ca_cleanup f p e).
        * pose proof (ca_join f p (Some e) AtJoin H H0 H1 (or_introl eq_refl)) as X.
          simpl clean in X. rewrite R in X. exact X.
      + injection E as <- <-. rewrite split3. apply (ca_join f p None); auto.
    - destruct e; unfold step, go, error, at_ in E; cbn in E; try discriminate.
      injection E as <- <-. rewrite !split3.
      replace ([ErrorShown MCleanup] ++ [UserLeft]) with (clean (Some e0)) by (simpl; rewrite H2; reflexivity).
      apply (ca_join f p (Some e0)); auto.
    - destruct H2 as [-> | ->]; destruct e; unfold step, go, error, at_ in E; cbn in E; try discriminate.
      + injection E as <- <-. rewrite app_nil_r. apply (ca_join f p r); auto.
      + destruct H as (F1 & F2 & F3). destruct r as [e|]; injection E as <- <-.
        * apply ca_shown; [exact I|now right|]. rewrite !split3. simpl clean.
          change ([ErrorShown (MMeasure e)] ++ [UserLeft]) with [ErrorShown (MMeasure e); UserLeft].
          pose proof (st_failed i f p e F1 F2 F3 H0 H1) as S. exact S.
        * apply ca_load; [exact I|]. rewrite !split3.
          pose proof (st_measured i f p F1 F2 F3 H0 H1) as S. exact S.
    - pose proof (idle_no_finish _ _ _ _ _ _ H E) as NF.
      destruct e; unfold step, go, error, at_ in E; cbn in E; try discriminate; try (now elim NF).
      destruct (i_load i) eqn:L; injection E as <- <-; (apply ca_shown; [exact H|auto|]);
        rewrite split3; exact H0.
    - pose proof (idle_no_finish _ _ _ _ _ _ H E) as NF.
      destruct H0 as [-> | ->]; destruct e; unfold step, go, error, at_ in E; cbn in E; try discriminate; try (now elim NF);
        injection E as <- <-; apply ca_over; assumption.
    - pose proof (idle_no_finish _ _ _ _ _ _ H E) as NF.
      destruct e; unfold step, go, error, at_ in E; cbn in E; try discriminate; now elim NF.
  Qed.

  Theorem calm_runs evs s h : session_run i evs s h -> ~ In Aborted h -> calm_at s h.
  Proof.
    induction 1 as [|evs s h e s' h' R IH E]; intros NA; [constructor|].
    rewrite in_app_iff in NA. apply (calm_step s h e s' h'); tauto.
  Qed.

  Theorem calm_story evs s h :
    session_run i evs s h -> s_at s = Over -> ~ In Aborted h -> story i h.
  Proof.
    intros R O NA. pose proof (calm_runs _ _ _ R NA) as C.
    destruct C; simpl in O; try discriminate.
    - destruct H2; congruence.
    - destruct H0; congruence.
    - assumption.
  Qed.

  (** Every story can happen. *)
  Fixpoint execute (evs : list event) (s : session) : option (session * list item) :=
    match evs with
    | [] => Some (s, [])
    | e :: r => match step i s e with
                | None => None
                | Some (s', h) => match execute r s' with None => None | Some (s'', h') => Some (s'', h ++ h') end
                end
    end.
  Lemma execute_run evs2 : forall evs1 s h s' h',
    session_run i evs1 s h -> execute evs2 s = Some (s', h') ->
    session_run i (evs1 ++ evs2) s' (h ++ h').
  Proof.
    induction evs2 as [|e r IH]; intros evs1 s h s' h' R E; simpl in E.
    - injection E as <- <-. now rewrite !app_nil_r.
    - destruct (step i s e) as [[s1 h1]|] eqn:S; [|discriminate].
      destruct (execute r s1) as [[s2 h2]|] eqn:X; [|discriminate]. injection E as <- <-.
      change (e :: r) with ([e] ++ r). rewrite !app_assoc.
      apply (IH _ s1); [|exact X]. econstructor; eassumption.
  Qed.
  Lemma execute_start evs s h : execute evs start = Some (s, h) -> session_run i evs s h.
  Proof. intros E. apply (execute_run evs [] start [] s h); [constructor|exact E]. Qed.

  Lemma story_happens h : story i h -> exists evs s, session_run i evs s h /\ s_at s = Over.
  Proof.
    intros S.
    assert (X : exists evs s, execute evs start = Some (s, h) /\ s_at s = Over).
    { pose proof (proj2 (question_iff Nonexistent (i_manual i) _) (q_new _)) as QN.
      destruct S.
      - exists [Go; Quit]. eexists. simpl. rewrite H. simpl. split; reflexivity.
      - exists [Go; Go; Quit]. eexists. simpl. rewrite H. simpl. rewrite H0. simpl. split; reflexivity.
      - exists [Go; Go; Go; Quit]. eexists. simpl. rewrite H. simpl. rewrite H0. simpl. rewrite H1. simpl. split; reflexivity.
      - apply question_iff in H2.
        exists [Go; Go; Go; Go; Quit]. eexists. simpl. rewrite H. simpl. rewrite H0. simpl. rewrite H1. simpl.
        rewrite H2. simpl. destruct (i_load i); simpl; split; reflexivity.
      - apply question_iff in H2.
        exists [Go; Go; Go; Quit]. eexists. simpl. rewrite H. simpl. rewrite H0. simpl. rewrite H1. simpl.
        rewrite H2. simpl. split; reflexivity.
      - subst f. exists [Go; Go; Go; Press false]. eexists. simpl. rewrite H. simpl. rewrite H0. simpl. rewrite H1.
        simpl. split; reflexivity.
      - pose proof (question_new _ _ _ H2) as N. apply question_iff in H2.
        apply (proj2 (exists_spec f)) in H3.
        exists [Go; Go; Go; Press true; Go; Quit]. eexists. simpl. rewrite H. simpl. rewrite H0. simpl. rewrite H1. simpl.
        rewrite H2. simpl. rewrite H3. destruct p; simpl.
        + assert (f = Nonexistent) by now apply N. subst. discriminate.
        + destruct (i_load i); simpl; split; reflexivity.
        + destruct (i_load i); simpl; split; reflexivity.
      - apply question_iff in H2.
        exists [Go; Go; Go; Press (default_means_create p); Go; Quit].
        eexists. simpl. rewrite H. simpl. rewrite H0. simpl. rewrite H1. simpl.
        rewrite H2. simpl. destruct p; simpl; rewrite H3; simpl; split; reflexivity.
      - apply question_iff in H2.
        exists [Go; Go; Go; Press (default_means_create p); Go; Finish None; Store; Send; RunQuit; Go; Go; Go; Go; Quit].
        eexists. simpl. rewrite H. simpl. rewrite H0. simpl. rewrite H1. simpl.
        rewrite H2. simpl. destruct p; simpl; rewrite H3; simpl; destruct (i_load i); simpl; split; reflexivity.
      - apply question_iff in H2.
        destruct (i_restore_fails i) eqn:R.
        + exists [Go; Go; Go; Press (default_means_create p); Go; Finish (Some e); Store; Send; RunQuit; Go; Quit; Go; Go; Quit].
          eexists. simpl. rewrite H. simpl. rewrite H0. simpl. rewrite H1. simpl.
          rewrite H2. simpl. destruct p; simpl; rewrite H3; simpl; rewrite R; simpl; split; reflexivity.
        + exists [Go; Go; Go; Press (default_means_create p); Go; Finish (Some e); Store; Send; RunQuit; Go; Go; Go; Quit].
          eexists. simpl. rewrite H. simpl. rewrite H0. simpl. rewrite H1. simpl.
          rewrite H2. simpl. destruct p; simpl; rewrite H3; simpl; rewrite R; simpl; split; reflexivity. }
    destruct X as (evs & s & E & O). exists evs, s. split; [now apply execute_start|exact O].
  Qed.

  (** ** All sessions, aborted or not *)
  Inductive late : place -> Prop :=
  | lt_progress : late AtProgress | lt_drop : late AtDrop | lt_cleanup : late AtCleanupError
  | lt_join : late AtJoin | lt_outcome : late AtOutcome | lt_load : late AtLoad | lt_table : late AtTable
  | lt_error : late AtError | lt_over : late Over.

  Definition no_start (l : list item) : Prop := ~ In Started l.
  Definition results (t : thread) (l : list item) : Prop :=
    forall r, In (Finished r) l <-> t = HasResult r \/ t = Stored r \/ t = Sent r.

  (** Before or without a measurement the history is calm; otherwise it starts with consent. *)
  Record after_start (s : session) (h : list item) : Prop := {
    as_pre : exists f p l, found f /\ question f (i_manual i) (Some p) /\ h = pre p ++ l /\ no_start l;
    as_backup : i_backup_fails i = false;
    as_late : late (s_at s);
    as_thread : s_thread s <> NoThread;
    as_results : results (s_thread s) h;
    as_joined : match s_at s with
                | AtOutcome => exists r, s_thread s = Sent r
                | AtLoad | AtTable => s_thread s = Sent None
                | AtError | Over => exists r, s_thread s = Sent r
                | _ => True
                end;
    as_table : In TableShown h -> i_load i = LoadOk /\ s_thread s = Sent None;
    as_end : s_at s = AtError \/ s_at s = Over ->
       (exists e, s_thread s = Sent (Some e) /\ In (ErrorShown (MMeasure e)) h) \/
       (s_thread s = Sent None /\
         In (match i_load i with LoadOk => TableShown | LoadNotFound => ErrorShown MVanished
                               | LoadParseError => ErrorShown MUnparsable end) h);
    as_quits : In Aborted h -> ~ In (ErrorShown MCleanup) h -> s_quits s = sent (s_thread s) \/ s_at s = Over;
    as_cleanup : s_at s = AtCleanupError -> In (ErrorShown MCleanup) h;
    as_progress : s_at s = AtProgress -> s_quits s = sent (s_thread s) /\ ~ In (ErrorShown MCleanup) h /\ ~ In Aborted h;
    as_few : s_at s = AtTable -> In TableShown h }.

  Lemma no_start_app l l' : no_start l -> no_start l' -> no_start (l ++ l').
  Proof. unfold no_start. rewrite in_app_iff. tauto. Qed.
  Lemma pre_started p l : In Started (pre p ++ l).
  Proof. rewrite in_app_iff. left. simpl. auto. Qed.

  Lemma begin_measure s h e s' h' :
    calm_at s h -> no_start h -> step i s e = Some (s', h') ->
    (~ In Aborted h' /\ no_start h') \/ after_start s' (h ++ h').
  Proof.
    intros C N E.
    assert (A : s_at s <> AtProgress).
    { intros X. destruct C; simpl in X; try discriminate.
      - apply N. apply pre_started.
      - destruct H2; congruence.
      - destruct H0; congruence. }
    destruct e; simpl in E.
    - unfold go, error in E. destruct (s_at s) eqn:P; try discriminate.
      + left. destruct (i_db i); injection E as <- <-; unfold no_start; simpl; split; intuition discriminate.
      + left. destruct (i_clang i); injection E as <- <-; unfold no_start; simpl; split; intuition discriminate.
      + left. destruct (i_fresh i); [destruct (from_freshness a (i_manual i))|]; injection E as <- <-;
          unfold no_start; simpl; split; intuition discriminate.
      + destruct (i_backup_fails i) eqn:B; injection E as <- <-.
        * left. unfold no_start; simpl; split; intuition discriminate.
        * right. destruct C; simpl in P; try discriminate;
            [|destruct H2; congruence|destruct H0; congruence].
          constructor; simpl; try easy; try (intuition discriminate).
          -- exists f, p, []. split; [exact H|]. split; [exact H0|]. split; [reflexivity|]. intros [].
          -- constructor.
          -- intros r. simpl. intuition discriminate.
      + left. destruct (success (s_thread s)); [|destruct (i_restore_fails i)]; injection E as <- <-;
          unfold no_start; simpl; split; intuition discriminate.
      + left. destruct (s_thread s); injection E as <- <- || discriminate.
        unfold no_start; simpl; split; intuition discriminate.
      + left. destruct (outcome_of (s_thread s)) as [[?|]|]; injection E as <- <-;
          unfold no_start; simpl; split; intuition discriminate.
      + left. destruct (i_load i); injection E as <- <-; unfold no_start; simpl; split; intuition discriminate.
    - left. destruct (s_at s); try discriminate.
      destruct default, p, ex; cbn in E; injection E as <- <-;
          unfold no_start; simpl; split; intuition discriminate.
    - left. destruct (s_at s); try discriminate; try congruence; injection E as <- <-;
          unfold no_start; simpl; split; intuition discriminate.
    - left. unfold run_quit in E. destruct (s_at s); try discriminate; try congruence;
        (destruct (s_quits s); [discriminate|]); injection E as <- <-;
          unfold no_start; simpl; split; intuition discriminate.
    - left. destruct (s_thread s); injection E as <- <- || discriminate.
        unfold no_start; simpl; split; intuition discriminate.
    - left. destruct (s_thread s); injection E as <- <- || discriminate.
        unfold no_start; simpl; split; intuition discriminate.
    - left. destruct (s_thread s); injection E as <- <- || discriminate.
        unfold no_start; simpl; split; intuition discriminate.
  Qed.

  (** Adding to the history *)
  Lemma pre_more h l :
    (exists f p l0, found f /\ question f (i_manual i) (Some p) /\ h = pre p ++ l0 /\ no_start l0) ->
    no_start l ->
    exists f p l0, found f /\ question f (i_manual i) (Some p) /\ h ++ l = pre p ++ l0 /\ no_start l0.
  Proof.
    intros (f & p & l0 & F & Q & -> & N) N'. exists f, p, (l0 ++ l).
    rewrite <- app_assoc. repeat split; try apply F; auto. now apply no_start_app.
  Qed.
  Lemma results_more t h l : results t h -> (forall r, ~ In (Finished r) l) -> results t (h ++ l).
  Proof. intros R N r. rewrite in_app_iff. specialize (R r). specialize (N r). tauto. Qed.

  Lemma results_finish h r : results Working h -> results (HasResult r) (h ++ [Finished r]).
  Proof.
    intros R x. rewrite in_app_iff. specialize (R x). simpl. split.
    - intros [H|[H|[]]]; [|left; congruence]. apply R in H. intuition discriminate.
    - intros [H|[H|H]]; try discriminate. injection H as ->. auto.
  Qed.
  Lemma results_store h r : results (HasResult r) h -> results (Stored r) h.
  Proof.
    intros R x. rewrite (R x). split; intros [H|[H|H]]; try discriminate; injection H as ->; auto.
  Qed.
  Lemma results_send h r : results (Stored r) h -> results (Sent r) h.
  Proof.
    intros R x. rewrite (R x). split; intros [H|[H|H]]; try discriminate; injection H as ->; auto.
  Qed.
  Ltac sol :=
    constructor; cbn [s_at s_thread s_quits];
    [ match goal with PM : no_start _ -> _ |- _ => apply PM; unfold no_start; simpl; intuition discriminate end
    | assumption
    | match goal with |- late _ => constructor end
    | first [assumption|discriminate]
    | try (apply results_more; [assumption|simpl; intuition discriminate])
    | try exact I; try reflexivity; eauto
    | .. ];
    intros; rewrite ?in_app_iff in *; simpl in *;
    intuition (try discriminate; try congruence; eauto).

  Ltac ends :=
    match goal with
    | H : i_load i = LoadOk |- _ => right; rewrite H; auto
    | H : exists e, _ /\ _ |- _ => let e := fresh in destruct H as (e & ? & ?); left; exists e; auto
    end.

  Lemma after_step s h e s' h' :
    after_start s h -> step i s e = Some (s', h') -> after_start s' (h ++ h').
  Proof.
    intros [A1 A2 A3 A4 A5 A6 A7 A8 A9 A10 A11 A12] E.
    assert (PM : no_start h' -> exists f p l0, found f /\ question f (i_manual i) (Some p) /\ h ++ h' = pre p ++ l0 /\ no_start l0)
      by (intros; now apply pre_more).
    destruct s as [pl t q]. simpl in *.
    unfold step, go, error, leave, run_quit, move in E. cbn [s_at s_thread s_quits] in E.
    destruct e.
    - destruct pl; try (inversion A3; fail); try discriminate.
      + destruct (success t); [|destruct (i_restore_fails i)]; injection E as <- <-; sol.
      + destruct t; try discriminate. injection E as <- <-. sol.
      + destruct A6 as [r ->]. destruct r as [e|]; cbn in E; injection E as <- <-; sol.
        left; exists e; split; [reflexivity|apply in_or_app; right; now left].
      + subst t. destruct (i_load i) eqn:L; injection E as <- <-; sol; rewrite L; right; split; auto.
    - destruct pl; try discriminate. inversion A3.
    - assert (EK : forall e, In (ErrorShown (MMeasure e)) h -> In (ErrorShown (MMeasure e)) (h ++ h'))
        by (intros; apply in_or_app; now left).
      destruct pl; try (inversion A3; fail); try discriminate; injection E as <- <-; sol; ends.
    - assert (EK : forall e, In (ErrorShown (MMeasure e)) h -> In (ErrorShown (MMeasure e)) (h ++ h'))
        by (intros; apply in_or_app; now left).
      destruct pl; try (inversion A3; fail); try discriminate; (destruct q; [discriminate|]); injection E as <- <-; sol; ends.
    - destruct t; try discriminate; injection E as <- <-;
        destruct pl; try (inversion A3; fail); try discriminate A6; try (destruct A6; discriminate);
        sol; now apply results_finish.
    - destruct t; try discriminate; injection E as <- <-;
        destruct pl; try (inversion A3; fail); try discriminate A6; try (destruct A6; discriminate);
        sol; rewrite app_nil_r; now apply results_store.
    - destruct t; try discriminate; injection E as <- <-;
        destruct pl; try (inversion A3; fail); try discriminate A6; try (destruct A6; discriminate);
        sol; try (rewrite app_nil_r; now apply results_send).
  Qed.

  Theorem all_runs evs s h :
    session_run i evs s h -> (no_start h /\ calm_at s h) \/ after_start s h.
  Proof.
    induction 1 as [|evs s h e s' h' R [[N C]|A] E].
    - left. split; [intros []|constructor].
    - destruct (begin_measure s h e s' h' C N E) as [[NA N']|A]; [left|right; exact A].
      split; [now apply no_start_app|]. eapply calm_step; eassumption.
    - right. eapply after_step; eassumption.
  Qed.
End P.

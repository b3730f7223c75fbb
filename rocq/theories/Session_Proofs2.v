(** Consequences for all full-build profiling sessions. *)
From Verif Require Import Base Cmd_Model Clang_Model Session_Model Session_Spec Session_Proofs.

Lemma consent i evs s h h1 h2 :
  session_run i evs s h -> h = h1 ++ Started :: h2 ->
  exists f p, i_fresh i = IoOk f /\ question f (i_manual i) (Some p) /\
    h1 = [Asked p; Pressed (asks_to_measure p)] /\ ~ In Started h2.
Proof.
  intros R E. destruct (all_runs i evs s h R) as [[N _]|A].
  - elim N. subst. apply in_elt.
  - destruct (as_pre _ _ _ A) as (f & p & l & (F1 & F2 & F3) & Q & E' & N).
    exists f, p. split; [exact F3|]. split; [exact Q|].
    rewrite E in E'. unfold pre in E'. simpl in E'.
    destruct h1 as [|a [|b [|c h1]]]; simpl in E'; try discriminate.
    + injection E' as -> -> E'. split; [reflexivity|]. rewrite E'. exact N.
    + injection E' as -> -> -> E'. elim N. rewrite <- E'. apply in_elt.
Qed.

Lemma story_table i h : story i h -> In TableShown h ->
  i_load i = LoadOk /\
  (In (Finished None) h \/ exists f, i_fresh i = IoOk f /\ f <> Nonexistent).
Proof.
  assert (L : In TableShown (shows_profile (i_load i)) -> i_load i = LoadOk).
  { destruct (i_load i); simpl; intuition discriminate. }
  intros S T. destruct S; simpl in T; try (intuition discriminate; fail).
  - split; [auto|]. right. exists f. split; [assumption|]. intros ->. inversion H2.
  - destruct T as [T|[T|T]]; try discriminate. split; [auto|]. right. exists f. auto.
  - split; [apply L; intuition discriminate|]. left. simpl. auto.
  - exfalso. destruct (i_restore_fails i); simpl in T; intuition discriminate.
Qed.

Lemma table i evs s h :
  session_run i evs s h -> In TableShown h ->
  i_load i = LoadOk /\
  (In (Finished None) h \/ (~ In Started h /\ exists f, i_fresh i = IoOk f /\ f <> Nonexistent)).
Proof.
  intros R T. destruct (all_runs i evs s h R) as [[N C]|A].
  - assert (X : exists l, story i (h ++ l) /\ ~ In (Finished None) l).
    { destruct C; try (simpl in T; intuition discriminate);
        try (exfalso; apply N; simpl; auto; fail).
      - exists (shows_profile (i_load i)). split; [assumption|]. destruct (i_load i); simpl; intuition discriminate.
      - exists [UserLeft]. split; [assumption|]. simpl; intuition discriminate.
      - exists []. rewrite app_nil_r. split; [assumption|]. intros []. }
    destruct X as (l & S & F).
    destruct (story_table _ _ S) as (L & H); [apply in_or_app; auto|]. split; [exact L|].
    rewrite in_app_iff in H. destruct H as [[H|H]|H]; [auto|tauto|right; split; assumption].
  - destruct (as_table _ _ _ A T) as (L & E). split; [exact L|]. left.
    apply (as_results _ _ _ A). auto.
Qed.

Lemma story_calm i h : story i h -> ~ In Aborted h.
Proof.
  intros S T.
  destruct S; simpl in T; destruct (i_load i); simpl in T; try (intuition discriminate; fail);
    destruct (i_restore_fails i); simpl in T; intuition discriminate.
Qed.

(** An aborted session goes on by itself. *)
Lemma abort_leaves i evs s h :
  session_run i evs s h -> In Aborted h -> ~ In (ErrorShown MCleanup) h -> waiting s ->
  exists s', step i s RunQuit = Some (s', [ProgramLeft]) /\ s_at s' = Over.
Proof.
  intros R HA NC W. destruct (all_runs i evs s h R) as [[N C]|A].
  - exfalso. revert HA. destruct C; try (simpl; intuition discriminate);
      try (exfalso; apply N; simpl; auto; fail); intros HA.
    apply (story_calm _ _ H1). apply in_or_app. auto.
  - pose proof (as_quits _ _ _ A HA NC) as Q. pose proof (as_joined _ _ _ A) as J.
    pose proof (as_late _ _ _ A) as L. pose proof (as_cleanup _ _ _ A) as CL. pose proof (as_progress _ _ _ A) as PR.
    unfold waiting in W. destruct s as [pl t q]. simpl in *.
    destruct pl; try (now elim W).
    + elim (proj2 (proj2 (PR eq_refl)) HA).
    + elim NC. auto.
    + destruct Q as [-> |]; [|discriminate]. rewrite J. simpl. eexists. split; reflexivity.
    + destruct Q as [-> |]; [|discriminate]. destruct J as (r & ->). simpl. eexists. split; reflexivity.
Qed.

Lemma abort_reported i evs s h :
  session_run i evs s h -> In Started h -> s_at s = Over ->
  exists r, In (Finished r) h /\
    match r with
    | Some e => In (ErrorShown (MMeasure e)) h
    | None => In (match i_load i with LoadOk => TableShown | LoadNotFound => ErrorShown MVanished
                                    | LoadParseError => ErrorShown MUnparsable end) h
    end.
Proof.
  intros R S O. destruct (all_runs i evs s h R) as [[N C]|A]; [elim (N S)|].
  destruct (as_end _ _ _ A (or_intror O)) as [(e & T & H)|[T H]].
  - exists (Some e). split; [apply (as_results _ _ _ A); auto|exact H].
  - exists None. split; [apply (as_results _ _ _ A); auto|exact H].
Qed.

(** Sessions end. *)
Definition place_rank (p : place) : nat :=
  match p with
  | AtDatabase => 16 | AtClang => 15 | AtFreshness => 14 | AtPrompt _ _ => 13 | AtBackup => 12
  | AtProgress => 8 | AtDrop => 7 | AtCleanupError => 6 | AtJoin => 5 | AtOutcome => 4 | AtLoad => 3
  | AtTable | AtError => 2 | Over => 0
  end.
Definition thread_rank (t : thread) : nat :=
  match t with Working => 3 | HasResult _ => 2 | Stored _ => 1 | _ => 0 end.
Definition rank (s : session) : nat := place_rank (s_at s) + thread_rank (s_thread s).

Lemma step_rank i s e s' h : step i s e = Some (s', h) -> rank s' < rank s.
Proof.
  unfold step, go, error, leave, run_quit, move, rank. destruct s as [pl t q]. cbn [s_at s_thread s_quits].
  intros E.
  destruct e.
  - destruct pl; try discriminate E.
    + destruct (i_db i); injection E as <- <-; simpl; lia.
    + destruct (i_clang i); injection E as <- <-; simpl; lia.
    + destruct (i_fresh i); [destruct (from_freshness a (i_manual i))|]; injection E as <- <-; simpl; lia.
    + destruct (i_backup_fails i); injection E as <- <-; simpl; lia.
    + destruct (success t); [|destruct (i_restore_fails i)]; injection E as <- <-; simpl; lia.
    + destruct t; try discriminate E; injection E as <- <-; simpl; lia.
    + destruct (outcome_of t) as [[?|]|]; injection E as <- <-; simpl; lia.
    + destruct (i_load i); injection E as <- <-; simpl; lia.
  - destruct pl; try discriminate E.
    destruct default, p, ex; cbn in E; injection E as <- <-; simpl; lia.
  - destruct pl; try discriminate E; injection E as <- <-; simpl; lia.
  - destruct pl; try discriminate E; (destruct q; [discriminate E|]); injection E as <- <-; simpl; lia.
  - destruct t; try discriminate E; injection E as <- <-; simpl; lia.
  - destruct t; try discriminate E; injection E as <- <-; simpl; lia.
  - destruct t; try discriminate E; injection E as <- <-; simpl; lia.
Qed.
Lemma run_rank i evs s h : session_run i evs s h -> length evs + rank s <= 16.
Proof.
  induction 1 as [|evs s h e s' h' R IH E]; [reflexivity|].
  apply step_rank in E. rewrite app_length. simpl. lia.
Qed.

(** A session that does not wait for the user goes on, once the measurement has a result. *)
Lemma run_goes_on i evs s h :
  session_run i evs s h -> s_at s <> Over -> ~ waiting s ->
  exists e, (e = Go \/ (s_at s = AtJoin /\ exists r, e = Finish r \/ e = Store \/ e = Send)) /\ step i s e <> None.
Proof.
  intros R O W.
  assert (J : s_at s = AtJoin -> s_thread s <> NoThread).
  { intros J. destruct (all_runs i evs s h R) as [[N C]|A]; [|now destruct A].
    destruct C; simpl in J; try discriminate; simpl; try discriminate.
    - destruct H0; congruence. }
  unfold waiting in W. destruct s as [pl t q]. simpl in *.
  destruct pl; try (now elim W); try (now elim O);
    try (exists Go; split; [auto|]; unfold step, go; cbn; congruence).
  destruct t.
  - now elim J.
  - exists (Finish None). split; [right; split; [reflexivity|exists None; auto]|discriminate].
  - exists Store. split; [right; split; [reflexivity|exists None; auto]|discriminate].
  - exists Send. split; [right; split; [reflexivity|exists None; auto]|discriminate].
  - exists Go. split; [auto|discriminate].
Qed.

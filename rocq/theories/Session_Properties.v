(** * Full-build profiling sessions: C73.  See Session_Spec.v for the vocabulary. *)
From Verif Require Import Base Cmd_Model Clang_Model Session_Model Session_Spec Session_Proofs Session_Proofs2.

(** What the sessions without abort show, from beginning to end: exactly the stories of the
    specification.  In particular every failure is reported, by a dialog that remains until
    the user closes it. *)
Theorem C73_sessions :
  forall i h,
  (exists evs s, session_run i evs s h /\ s_at s = Over) /\ ~ In Aborted h <-> story i h.
Proof.
  intros i h. split.
  - intros [(evs & s & R & O) N]. exact (calm_story i evs s h R O N).
  - intros S. split; [exact (story_happens i h S)|exact (story_calm i h S)].
Qed.
Print Assumptions C73_sessions.

(** Nothing is measured unless the user just asked for it, and at most once. *)
Theorem C73_consent :
  forall i evs s h h1 h2, session_run i evs s h -> h = h1 ++ Started :: h2 ->
  exists f p, i_fresh i = IoOk f /\ question f (i_manual i) (Some p) /\
    h1 = [Asked p; Pressed (asks_to_measure p)] /\ ~ In Started h2.
Proof. exact consent. Qed.
Print Assumptions C73_consent.

(** A profile is only shown if it could be loaded, and either it has just been measured
    successfully or it was there before. *)
Theorem C73_shown_profile :
  forall i evs s h, session_run i evs s h -> In TableShown h ->
  i_load i = LoadOk /\
  (In (Finished None) h \/ (~ In Started h /\ exists f, i_fresh i = IoOk f /\ f <> Nonexistent)).
Proof. exact table. Qed.
Print Assumptions C73_shown_profile.

(** A session never takes more than sixteen steps, and as long as it is not over it waits for
    the user or for the measurement, or goes on. *)
Theorem C73_sessions_end :
  forall i evs s h, session_run i evs s h -> length evs <= 16.
Proof. intros i evs s h R. pose proof (run_rank i evs s h R). lia. Qed.
Print Assumptions C73_sessions_end.
Theorem C73_sessions_go_on :
  forall i evs s h, session_run i evs s h -> s_at s <> Over -> ~ waiting s ->
  exists e, (e = Go \/ (s_at s = AtJoin /\ exists r, e = Finish r \/ e = Store \/ e = Send)) /\
    step i s e <> None.
Proof. exact run_goes_on. Qed.
Print Assumptions C73_sessions_go_on.

(** The result of a measurement is always acted upon, even if it was aborted: the progress
    dialog is followed by an error dialog or by the profile. *)
Theorem C73_result_is_used :
  forall i evs s h, session_run i evs s h -> In Started h -> s_at s = Over ->
  exists r, In (Finished r) h /\
    match r with
    | Some e => In (ErrorShown (MMeasure e)) h
    | None => In (match i_load i with LoadOk => TableShown | LoadNotFound => ErrorShown MVanished
                                    | LoadParseError => ErrorShown MUnparsable end) h
    end.
Proof. exact abort_reported. Qed.
Print Assumptions C73_result_is_used.

(** But after an abort the program closes any dialog and any table by itself at once (unless
    the previous profile could not be restored): the request to end the measurement dialog
    comes too late for it, and ends what is on the screen by then. *)
Theorem C73_abort_ends_the_session :
  forall i evs s h, session_run i evs s h -> In Aborted h -> ~ In (ErrorShown MCleanup) h -> waiting s ->
  exists s', step i s RunQuit = Some (s', [ProgramLeft]) /\ s_at s' = Over.
Proof. exact abort_leaves. Qed.
Print Assumptions C73_abort_ends_the_session.

(** Hence what is shown after an abort need not remain until the user leaves: neither a
    profile whose measurement was complete when the user pressed Abort, nor an error. *)
Definition demo_inputs : inputs :=
  {| i_db := None; i_clang := Found; i_fresh := IoOk Outdated; i_manual := false;
     i_backup_fails := false; i_restore_fails := false; i_load := LoadOk |}.
Theorem C73_screens_remain_refuted :
  ~ (forall i evs s h h1 h2 x, session_run i evs s h -> h = h1 ++ x :: ProgramLeft :: h2 ->
       x <> TableShown) /\
  ~ (forall i evs s h h1 h2 x m, session_run i evs s h -> h = h1 ++ x :: ProgramLeft :: h2 ->
       x <> ErrorShown m).
Proof.
  split; intros H.
  - eapply (H demo_inputs [Go; Go; Go; Press false; Go; Finish None; Store; Quit; Send; Go; Go; Go; Go; RunQuit]
        _ _ [Asked StaleProfile; Pressed BMeasure; Started; Finished None; Aborted] [] TableShown);
      [apply execute_start; vm_compute; reflexivity|reflexivity|reflexivity].
  - eapply (H demo_inputs [Go; Go; Go; Press false; Go; Finish (Some MJob); Store; Quit; Send; Go; Go; Go; RunQuit]
        _ _ [Asked StaleProfile; Pressed BMeasure; Started; Finished (Some MJob); Aborted] []
        (ErrorShown (MMeasure MJob)) (MMeasure MJob));
      [apply execute_start; vm_compute; reflexivity|reflexivity|reflexivity].
Qed.
Print Assumptions C73_screens_remain_refuted.

Example C73_witness :
  story demo_inputs [Asked StaleProfile; Pressed BReuse; TableShown; UserLeft] /\
  story demo_inputs [Asked StaleProfile; Pressed BMeasure; Started; Finished (Some MOutOfMemory); ProgramLeft;
                     ErrorShown (MMeasure MOutOfMemory); UserLeft] /\
  (exists evs s h, session_run demo_inputs evs s h /\ In Aborted h /\ ~ In (ErrorShown MCleanup) h /\ waiting s) /\
  (exists evs s h, session_run demo_inputs evs s h /\ s_at s <> Over /\ ~ waiting s).
Proof.
  split; [|split; [|split]].
  - apply (st_reuse demo_inputs Outdated StaleProfile); try reflexivity; [constructor|discriminate].
  - apply (st_failed demo_inputs Outdated StaleProfile); try reflexivity; constructor.
  - exists [Go; Go; Go; Press false; Go; Quit; Go; Finish (Some MKilled); Store; Send; Go; Go].
    eexists _, _. split; [apply execute_start; vm_compute; reflexivity|].
    simpl. split; [intuition|]. split; [intuition discriminate|exact I].
  - exists [Go], {| s_at := AtClang; s_thread := NoThread; s_quits := 0 |}, [].
    split; [apply execute_start; vm_compute; reflexivity|]. split; [discriminate|intros []].
Qed.

(** The files of earlier measurements: C56, C57. *)
From Coq Require Import String.
From Verif Require Import Base Files_Model Files_Spec Files_Proofs Files_Proofs2 Files_Proofs3 Files_Proofs4.
Local Open Scope nat_scope. Local Open Scope bool_scope. Local Open Scope list_scope.

(** ** C56: clang time-traces *)
(** At every moment of a measurement that has not succeeded, whatever clang writes to its
    output and whatever file operations fail, the previous trace can be read at its path or at
    the backup path: so also if the program is stopped then. *)
Theorem C56_previous_trace_is_kept :
  forall faulty f0, fs_ok f0 -> forall T m, read f0 Out = Some T -> trace_reach faulty false f0 m ->
    (forall e, t_pc m <> TSuccess e) -> read (t_fs m) Out = Some T \/ read (t_fs m) Bak = Some T.
Proof. exact trace_kept. Qed.
Print Assumptions C56_previous_trace_is_kept.

(** A measurement that fails or is cancelled, without I/O errors, puts the previous trace back.
    When there was none, a backup that an earlier measurement left is taken for it, else
    nothing remains. *)
Theorem C56_failure_restores :
  forall f0 m e, fs_ok f0 -> trace_reach false false f0 m -> t_pc m = TFailed e ->
    read (t_fs m) Bak = None /\
    read (t_fs m) Out = match read f0 Out with Some T => Some T | None => read f0 Bak end.
Proof. exact trace_restored. Qed.
Print Assumptions C56_failure_restores.

(** A measurement that succeeds leaves what clang wrote, and no backup. *)
Theorem C56_success_keeps_the_new_trace :
  forall f0 m e, fs_ok f0 -> trace_reach false false f0 m -> t_pc m = TSuccess e ->
    read (t_fs m) Bak = None /\ read (t_fs m) Out = t_result m.
Proof. exact trace_success. Qed.
Print Assumptions C56_success_keeps_the_new_trace.

(** Measurements can succeed, with any output, and none gets stuck: from wherever it is, one that
    has not ended can end (by a cancellation), and this is a success only if clang succeeded. *)
Theorem C56_success_is_possible :
  forall f0 c, exists m, trace_reach false false f0 m /\ t_pc m = TSuccess false /\ t_result m = Some c.
Proof. exact trace_can_succeed. Qed.
Print Assumptions C56_success_is_possible.
Theorem C56_measurements_can_end :
  forall faulty lingers m, exists m', trace_run faulty lingers m m' /\
    (t_pc m' = TRefused \/ exists e, t_pc m' = TSuccess e \/ t_pc m' = TFailed e) /\
    (forall e, t_pc m' = TSuccess e -> t_pc m = TCleanup \/ t_pc m = TSuccess e).
Proof. exact trace_can_end. Qed.
Print Assumptions C56_measurements_can_end.

(** Any number of complete measurements: the output is that of the last one that succeeded. *)
Theorem C56_sessions :
  forall f l f', session f l f' -> fs_ok f -> read f Bak = None ->
    read f' Bak = None /\ read f' Out = expected (read f Out) l.
Proof. exact session_right. Qed.
Print Assumptions C56_sessions.

(** Errors of the backup are only reported when file operations failed, and a success without
    such an error leaves no backup, whatever else failed. *)
Theorem C56_reported_errors_are_real :
  forall faulty lingers f0 m, trace_reach faulty lingers f0 m ->
    (t_pc m = TRefused \/ t_pc m = TSuccess true \/ t_pc m = TFailed true -> faulty = true) /\
    (t_pc m = TSuccess false -> read (t_fs m) Bak = None).
Proof. exact reported. Qed.
Print Assumptions C56_reported_errors_are_real.

(** A failure that reports no error, whatever file operations failed, leaves no partial output:
    the previous trace is back, or there is no trace and it is at the backup path. *)
Theorem C56_silent_failure_leaves_no_partial_output :
  forall faulty f0 m, fs_ok f0 -> trace_reach faulty false f0 m -> t_pc m = TFailed false ->
    let previous := match read f0 Out with Some T => Some T | None => read f0 Bak end in
    (read (t_fs m) Out = previous /\ read (t_fs m) Bak = None) \/
    (read (t_fs m) Out = None /\ read (t_fs m) Bak = previous).
Proof. exact trace_silent. Qed.
Print Assumptions C56_silent_failure_leaves_no_partial_output.

(** But: if killing clang does not stop all writes at once (the program does not wait for it,
    and does not kill the processes that clang started), the restored trace may be overwritten. *)
Theorem C56_lingering_clang_refuted :
  ~ (forall f0 T m e, fs_ok f0 -> read f0 Out = Some T -> trace_reach false true f0 m ->
       t_pc m = TFailed e -> read (t_fs m) Out = Some T \/ read (t_fs m) Bak = Some T).
Proof. exact lingering_loses. Qed.
Print Assumptions C56_lingering_clang_refuted.

(** A restoration that fails may be reported as a success. *)
Theorem C56_errors_are_reported_refuted :
  ~ (forall f0 T m, fs_ok f0 -> read f0 Out = Some T -> trace_reach true false f0 m ->
       t_pc m = TFailed false -> read (t_fs m) Out = Some T).
Proof. exact silent_failure. Qed.
Print Assumptions C56_errors_are_reported_refuted.

(** If the program is stopped during a measurement, the next measurement may replace the backup
    by the partial output of the first. *)
Theorem C56_second_crash_refuted :
  ~ (forall f0 T m1 m2, fs_ok f0 -> read f0 Out = Some T ->
       trace_reach false false f0 m1 -> (forall e, t_pc m1 <> TSuccess e) ->
       trace_reach false false (t_fs m1) m2 -> (forall e, t_pc m2 <> TSuccess e) ->
       read (t_fs m2) Out = Some T \/ read (t_fs m2) Bak = Some T).
Proof. exact second_run_loses. Qed.
Print Assumptions C56_second_crash_refuted.

(** ** C57: full-build profiles *)
(** Until it is restored, the previous profile can be read at one of the two paths. *)
Theorem C57_previous_profile_is_kept :
  forall faulty f0, fs_ok f0 -> forall T m, read f0 Out = Some T -> build_reach faulty f0 m ->
    b_restored m = None -> read (b_fs m) Out = Some T \/ read (b_fs m) Bak = Some T.
Proof. exact profile_kept. Qed.
Print Assumptions C57_previous_profile_is_kept.

(** Once restored it is there for good, if the measuring thread had created its file by then. *)
Theorem C57_late_abort_restores :
  forall f0 m e, fs_ok f0 -> build_reach false f0 m -> b_restored m = Some e -> b_early m = false ->
    read (b_fs m) Bak = None /\
    read (b_fs m) Out = match read f0 Out with Some T => Some T | None => read f0 Bak end.
Proof. exact profile_restored. Qed.
Print Assumptions C57_late_abort_restores.

(** A measurement that is not undone is one that succeeded; it leaves its backup behind. *)
Theorem C57_success :
  forall faulty f0, fs_ok f0 -> forall m, build_reach faulty f0 m -> b_ui m = UOver -> b_restored m = None ->
    measure_profile_returns m = true /\ read (b_fs m) Out <> None /\
    read (b_fs m) Bak = match read f0 Out with Some T => Some T | None => read f0 Bak end.
Proof. exact profile_success. Qed.
Print Assumptions C57_success.

(** A success is only reported when the measuring thread, having created its file, reported one:
    never for an abort nor an error. *)
Theorem C57_reported_success_is_real :
  forall faulty f0 m, build_reach faulty f0 m -> measure_profile_returns m = true ->
    b_thread m = HDone /\ b_success m = true /\
    exists m1 i, build_reach faulty f0 m1 /\ b_thread m1 = HRun i.
Proof. exact success_ran. Qed.
Print Assumptions C57_reported_success_is_real.

(** When measure_profile returns, the measurement has stopped touching files. *)
Theorem C57_no_late_writes :
  forall faulty f0 m m', build_reach faulty f0 m -> b_ui m = UOver -> ~ build_step faulty m m'.
Proof. exact over_is_final. Qed.
Print Assumptions C57_no_late_writes.

(** A measurement is only refused, and a restoration only reported to fail, when file
    operations failed. *)
Theorem C57_reported_errors_are_real :
  forall faulty f0 m, build_reach faulty f0 m ->
    b_ui m = URefused \/ b_restored m = Some true -> faulty = true.
Proof. exact build_reported. Qed.
Print Assumptions C57_reported_errors_are_real.

(** But an early abort loses the previous profile for good (no I/O error, no crash)... *)
Theorem C57_early_abort_refuted :
  ~ (forall f0 T m, fs_ok f0 -> read f0 Out = Some T -> build_reach false f0 m ->
       b_ui m = UOver -> b_restored m <> None -> read (b_fs m) Out = Some T \/ read (b_fs m) Bak = Some T).
Proof. exact early_abort_loses. Qed.
Print Assumptions C57_early_abort_refuted.
(** ... or leaves a profile where there was none. *)
Theorem C57_early_abort_leaves_output_refuted :
  ~ (forall f0 m, fs_ok f0 -> read f0 Out = None -> read f0 Bak = None ->
       build_reach false f0 m -> b_ui m = UOver -> b_restored m <> None -> read (b_fs m) Out = None).
Proof. exact early_abort_leaves_output. Qed.
Print Assumptions C57_early_abort_leaves_output_refuted.
(** A measurement may be said to have succeeded after its result was replaced by the backup. *)
Theorem C57_reported_success_refuted :
  ~ (forall f0 m, fs_ok f0 -> build_reach false f0 m ->
       b_ui m = UOver -> measure_profile_returns m = true -> b_restored m = None).
Proof. exact success_of_old_profile. Qed.
Print Assumptions C57_reported_success_refuted.
(** A profile from before a successful measurement may come back after an abort. *)
Theorem C57_deleted_profile_refuted :
  ~ (forall f0 m1 m2, fs_ok f0 ->
       build_reach false f0 m1 -> b_ui m1 = UOver -> b_restored m1 = None ->
       build_reach false (fst (remove_file (b_fs m1) Out false)) m2 -> b_ui m2 = UOver -> b_restored m2 <> None ->
       read (b_fs m2) Out = None).
Proof. exact deleted_profile_returns. Qed.
Print Assumptions C57_deleted_profile_refuted.

(** A cancelled measurement, and an aborted one, that restore what was there. *)
Example C56_witness : exists m, fs_ok dir /\ read dir Out = Some old /\ trace_reach false false dir m /\
  t_pc m = TFailed false /\ read (t_fs m) Out = Some old.
Proof.
  destruct (create (fst (backup_new dir false)) Out) as [f1 i] eqn:E1.
  destruct (restore_or_delete f1 false false) as [f2 e] eqn:E2.
  eexists. split; [exact dir_ok|]. split; [reflexivity|].
  split; [exact (killed false false dir f1 i f2 e false ltac:(discriminate) E1 E2)|].
  injection E1 as <- <-. injection E2 as <- <-. split; reflexivity.
Qed.
Example C57_witness : exists m, fs_ok dir /\ build_reach false dir m /\ b_restored m = Some false /\ b_early m = false /\
  read (b_fs m) Out = Some old.
Proof.
  destruct (create (fst (backup_new dir false)) Out) as [f1 i] eqn:E1.
  destruct (restore_or_delete f1 false false) as [f2 e] eqn:E2.
  eexists. split; [exact dir_ok|]. split; [exact (late_abort dir f1 i e f2 false E1 E2)|].
  injection E1 as <- <-. injection E2 as <- <-. repeat split.
Qed.

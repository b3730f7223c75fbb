(** Executions that lose or resurrect files. *)
From Coq Require Import String.
From Verif Require Import Base Files_Model Files_Spec Files_Proofs.
Local Open Scope nat_scope. Local Open Scope bool_scope. Local Open Scope list_scope.

(** A directory with an old output and no backup *)
Definition old : str := of_string "old".
Definition dir : fs := {| f_out := Some 0; f_bak := None; f_data := fun _ => old; f_next := 1 |}.
Lemma dir_ok : fs_ok dir.
Proof. split; [intros [] i H; cbn in H; [injection H as <-; cbn; lia|discriminate]|intros i H H'; discriminate]. Qed.


Lemma started faulty lingers f :
  trace_reach faulty lingers f
    {| t_fs := fst (backup_new f false); t_pc := TRun; t_alive := true; t_open := []; t_result := None |}.
Proof.
  eapply tr_step; [eapply tr_step; [apply tr_init|]|].
  - eapply (ts_backup faulty lingers (trace_init f) false (fst (backup_new f false)) true); [reflexivity|discriminate|].
    cbn [t_fs trace_init]. unfold backup_new, rename. destruct (entry f Out); reflexivity.
  - match goal with |- trace_step _ _ ?m _ => exact (ts_start faulty lingers m true eq_refl) end.
Qed.
Lemma partial faulty lingers f : forall f1 i, create (fst (backup_new f false)) Out = (f1, i) ->
  trace_reach faulty lingers f
    {| t_fs := f1; t_pc := TRun; t_alive := true; t_open := [i]; t_result := None |}.
Proof.
  intros f1 i H. eapply tr_step; [apply (started faulty lingers f)|].
  match goal with |- trace_step _ _ ?m _ => apply (ts_clang faulty lingers m) end; [reflexivity|]. apply cw_create. exact H.
Qed.
Lemma killed faulty lingers f : forall f1 i f2 e fault, (fault = true -> faulty = true) ->
  create (fst (backup_new f false)) Out = (f1, i) ->
  restore_or_delete f1 fault false = (f2, e) ->
  trace_reach faulty lingers f
    {| t_fs := f2; t_pc := TFailed e; t_alive := lingers; t_open := [i]; t_result := None |}.
Proof.
  intros f1 i f2 e fault Hf H Hr. eapply tr_step; [eapply tr_step; [apply (partial faulty lingers f f1 i H)|]|].
  - match goal with |- trace_step _ _ ?m _ => apply (ts_kill faulty lingers m) end. reflexivity.
  - match goal with |- trace_step _ _ ?m _ => apply (ts_restore faulty lingers m fault false f2 e) end; [reflexivity| |exact Hr].
    intros [Hx|Hx]; [apply Hf; exact Hx|discriminate].
Qed.

Theorem lingering_loses : ~ (forall f0 T m e, fs_ok f0 -> read f0 Out = Some T -> trace_reach false true f0 m ->
  t_pc m = TFailed e -> read (t_fs m) Out = Some T \/ read (t_fs m) Bak = Some T).
Proof.
  intros H.
  destruct (create (fst (backup_new dir false)) Out) as [f1 i] eqn:E1.
  destruct (restore_or_delete f1 false false) as [f2 e] eqn:E2.
  destruct (create f2 Out) as [f3 j] eqn:E3.
  assert (Hr : trace_reach false true dir {| t_fs := f3; t_pc := TFailed e; t_alive := true; t_open := [j; i]; t_result := None |}).
  { eapply tr_step; [apply (killed false true dir f1 i f2 e false ltac:(discriminate) E1 E2)|].
    match goal with |- trace_step _ _ ?m _ => apply (ts_clang false true m) end; [reflexivity|]. apply cw_create. exact E3. }
  specialize (H dir old _ e dir_ok eq_refl Hr eq_refl). cbn [t_fs] in H.
  injection E1 as <- <-. injection E2 as <- <-. injection E3 as <- <-. cbn in H. destruct H as [H|H]; discriminate.
Qed.
Theorem silent_failure : ~ (forall f0 T m, fs_ok f0 -> read f0 Out = Some T -> trace_reach true false f0 m ->
  t_pc m = TFailed false -> read (t_fs m) Out = Some T).
Proof.
  intros H.
  destruct (create (fst (backup_new dir false)) Out) as [f1 i] eqn:E1.
  destruct (restore_or_delete f1 true false) as [f2 e] eqn:E2.
  assert (He : e = false) by (injection E1 as <- <-; injection E2 as <- <-; reflexivity). subst e.
  specialize (H dir old _ dir_ok eq_refl (killed true false dir f1 i f2 false true ltac:(reflexivity) E1 E2) eq_refl).
  injection E1 as <- <-. injection E2 as <-. cbn in H. discriminate.
Qed.
Theorem second_run_loses : ~ (forall f0 T m1 m2, fs_ok f0 -> read f0 Out = Some T ->
  trace_reach false false f0 m1 -> (forall e, t_pc m1 <> TSuccess e) ->
  trace_reach false false (t_fs m1) m2 -> (forall e, t_pc m2 <> TSuccess e) ->
  read (t_fs m2) Out = Some T \/ read (t_fs m2) Bak = Some T).
Proof.
  intros H.
  destruct (create (fst (backup_new dir false)) Out) as [f1 i] eqn:E1.
  specialize (H dir old _ _ dir_ok eq_refl (partial false false dir f1 i E1) ltac:(discriminate)
    (started false false f1) ltac:(discriminate)).
  injection E1 as <- <-. cbn in H. destruct H as [H|H]; discriminate.
Qed.

(** Full-build profiles *)
Lemma build_started f : build_reach false f
  {| b_fs := fst (backup_new f false); b_ui := URun; b_thread := HCreate; b_success := false; b_outcome := None;
     b_restored := None; b_early := false |}.
Proof.
  eapply br_step; [apply br_init|].
  eapply (bs_backup false (build_init f) false (fst (backup_new f false)) true); [reflexivity|discriminate|].
  cbn [b_fs build_init]. unfold backup_new, rename. destruct (entry f Out); reflexivity.
Qed.
(** Aborted before the thread has created its file *)
Lemma early_abort f f1 e f2 i : restore_or_delete (fst (backup_new f false)) false false = (f1, e) -> create f1 Out = (f2, i) ->
  build_reach false f
  {| b_fs := f2; b_ui := UOver; b_thread := HDone; b_success := false; b_outcome := Some false;
     b_restored := Some e; b_early := true |}.
Proof.
  intros H1 H2.
  eapply br_step; [eapply br_step; [eapply br_step; [eapply br_step; [eapply br_step; [eapply br_step; [apply (build_started f)|]|]|]|]|]|].
  - match goal with |- build_step _ ?m _ => apply (bs_quit false m) end. reflexivity.
  - match goal with |- build_step _ ?m _ => apply (bs_check false m) end. reflexivity.
  - match goal with |- build_step _ ?m _ => apply (bs_restore false m false false f1 e) end; [reflexivity| |exact H1].
    intros [Hx|Hx]; discriminate.
  - match goal with |- build_step _ ?m _ => apply (bs_create false m) end; [reflexivity|exact H2].
  - match goal with |- build_step _ ?m _ => apply (bs_end false m i false) end. reflexivity.
  - match goal with |- build_step _ ?m _ => apply (bs_join false m) end; reflexivity.
Qed.
(** Aborted while the thread is running; the thread ends with [ok] *)
Lemma late_abort f f1 i e f2 ok : create (fst (backup_new f false)) Out = (f1, i) -> restore_or_delete f1 false false = (f2, e) ->
  build_reach false f
  {| b_fs := f2; b_ui := UOver; b_thread := HDone; b_success := ok; b_outcome := Some ok;
     b_restored := Some e; b_early := false |}.
Proof.
  intros H1 H2.
  eapply br_step; [eapply br_step; [eapply br_step; [eapply br_step; [eapply br_step; [eapply br_step; [apply (build_started f)|]|]|]|]|]|].
  - match goal with |- build_step _ ?m _ => apply (bs_create false m) end; [reflexivity|exact H1].
  - match goal with |- build_step _ ?m _ => apply (bs_quit false m) end. reflexivity.
  - match goal with |- build_step _ ?m _ => apply (bs_check false m) end. reflexivity.
  - match goal with |- build_step _ ?m _ => apply (bs_restore false m false false f2 e) end; [reflexivity| |exact H2].
    intros [Hx|Hx]; discriminate.
  - match goal with |- build_step _ ?m _ => apply (bs_end false m i ok) end. reflexivity.
  - match goal with |- build_step _ ?m _ => apply (bs_join false m) end; reflexivity.
Qed.
(** A measurement that succeeds with output [c] *)
Lemma build_succeeds f f1 i c : create (fst (backup_new f false)) Out = (f1, i) ->
  build_reach false f
  {| b_fs := write f1 i c; b_ui := UOver; b_thread := HDone; b_success := true; b_outcome := Some true;
     b_restored := None; b_early := false |}.
Proof.
  intros H1.
  eapply br_step; [eapply br_step; [eapply br_step; [eapply br_step; [eapply br_step; [eapply br_step; [apply (build_started f)|]|]|]|]|]|].
  - match goal with |- build_step _ ?m _ => apply (bs_create false m) end; [reflexivity|exact H1].
  - match goal with |- build_step _ ?m _ => apply (bs_write false m i c) end. reflexivity.
  - match goal with |- build_step _ ?m _ => apply (bs_end false m i true) end. reflexivity.
  - match goal with |- build_step _ ?m _ => apply (bs_quit false m) end. reflexivity.
  - match goal with |- build_step _ ?m _ => apply (bs_check false m) end. reflexivity.
  - match goal with |- build_step _ ?m _ => apply (bs_join false m) end; reflexivity.
Qed.

Theorem early_abort_loses : ~ (forall f0 T m, fs_ok f0 -> read f0 Out = Some T -> build_reach false f0 m ->
  b_ui m = UOver -> b_restored m <> None -> read (b_fs m) Out = Some T \/ read (b_fs m) Bak = Some T).
Proof.
  intros H. destruct (restore_or_delete (fst (backup_new dir false)) false false) as [f1 e] eqn:E1.
  destruct (create f1 Out) as [f2 i] eqn:E2.
  specialize (H dir old _ dir_ok eq_refl (early_abort dir f1 e f2 i E1 E2) eq_refl ltac:(discriminate)).
  injection E1 as <- <-. injection E2 as <- <-. cbn in H. destruct H as [H|H]; discriminate.
Qed.
Definition empty_dir : fs := {| f_out := None; f_bak := None; f_data := fun _ => []; f_next := 0 |}.
Lemma empty_dir_ok : fs_ok empty_dir.
Proof. split; [intros [] i H; discriminate|intros i H; discriminate]. Qed.
Theorem early_abort_leaves_output : ~ (forall f0 m, fs_ok f0 -> read f0 Out = None -> read f0 Bak = None ->
  build_reach false f0 m -> b_ui m = UOver -> b_restored m <> None -> read (b_fs m) Out = None).
Proof.
  intros H. destruct (restore_or_delete (fst (backup_new empty_dir false)) false false) as [f1 e] eqn:E1.
  destruct (create f1 Out) as [f2 i] eqn:E2.
  specialize (H empty_dir _ empty_dir_ok eq_refl eq_refl (early_abort empty_dir f1 e f2 i E1 E2) eq_refl ltac:(discriminate)).
  injection E1 as <- <-. injection E2 as <- <-. cbn in H. discriminate.
Qed.
Theorem success_of_old_profile : ~ (forall f0 m, fs_ok f0 -> build_reach false f0 m ->
  b_ui m = UOver -> measure_profile_returns m = true -> b_restored m = None).
Proof.
  intros H. destruct (create (fst (backup_new dir false)) Out) as [f1 i] eqn:E1.
  destruct (restore_or_delete f1 false false) as [f2 e] eqn:E2.
  specialize (H dir _ dir_ok (late_abort dir f1 i e f2 true E1 E2) eq_refl eq_refl). discriminate.
Qed.
(** The first measurement succeeds; the user deletes its result; the second one is aborted. *)
Theorem deleted_profile_returns : ~ (forall f0 m1 m2, fs_ok f0 ->
  build_reach false f0 m1 -> b_ui m1 = UOver -> b_restored m1 = None ->
  build_reach false (fst (remove_file (b_fs m1) Out false)) m2 -> b_ui m2 = UOver -> b_restored m2 <> None ->
  read (b_fs m2) Out = None).
Proof.
  intros H. destruct (create (fst (backup_new dir false)) Out) as [f1 i] eqn:E1.
  destruct (create (fst (backup_new (fst (remove_file (write f1 i old) Out false)) false)) Out) as [f2 j] eqn:E2.
  destruct (restore_or_delete f2 false false) as [f3 e] eqn:E3.
  specialize (H dir _ _ dir_ok (build_succeeds dir f1 i old E1) eq_refl eq_refl
    (late_abort _ f2 j e f3 false E2 E3) eq_refl ltac:(discriminate)).
  injection E1 as <- <-. injection E2 as <- <-. injection E3 as <- <-. cbn in H. discriminate.
Qed.

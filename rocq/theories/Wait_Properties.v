(** * Awaiting clang: C75.  See Wait_Spec.v for the vocabulary. *)
From Coq Require Import Ascii String.
From Verif Require Import Base Wait_Model Wait_Spec Wait_Proofs.
Local Open Scope nat_scope.
Local Open Scope list_scope.
Local Notation "' s" := (of_string s) (at level 0, s at level 0).

(** What `wait` answers is true, and the message about a failure of clang shows all that clang
    printed. *)
Theorem C75_answer :
  forall show_status lossy capacity c evs w r,
  wait_run show_status lossy capacity c evs w -> w_pc w = Done r ->
  match r with
  | Completed => exists out err, ended c (Exited 0) out err
  | Canceled => In Cancel evs
  | Failed (ClangFailed message) =>
      exists st out err, ended c st out err /\ st <> Exited 0 /\
        (forall n, st = Signalled n -> In (Signal n) evs) /\
        failure_text show_status lossy st out err message
  | Failed KillFailed => In Cancel evs /\ In KillError evs
  | Failed AwaitFailed => In PollError evs
  end.
Proof.
  intros sh lo cap c evs w r R E. pose proof (inv_run _ _ _ _ _ _ R) as I.
  pose proof (i_pc _ _ _ _ _ _ I) as P. rewrite E in P. pose proof (i_cancel _ _ _ _ _ _ I) as Ca.
  destruct r as [| |[m| |]]; [| | |tauto|tauto].
  - exists (w_out w), (w_err w). now apply (inv_how sh lo cap c evs).
  - tauto.
  - destruct P as (st & Ew & N & ->). exists st, (w_out w), (w_err w).
    split; [now apply (inv_how sh lo cap c evs)|]. split; [exact N|]. split; [|apply message_text].
    intros n ->. pose proof (i_ended _ _ _ _ _ _ I) as En. now rewrite Ew in En.
Qed.
Print Assumptions C75_answer.

(** If what clang prints fits into the pipes and clang ends, or once it has ended or the user
    aborts, then the wait ends: until then something happens without further help, and such
    events cannot go on changing the state for ever. *)
Theorem C75_wait_ends :
  forall show_status lossy capacity c evs w,
  wait_run show_status lossy capacity c evs w ->
  fits capacity c /\ c_end c <> None \/ In Cancel evs \/ w_ended w <> None ->
  (exists r, w_pc w = Done r) \/
  (exists e w', own e = true /\ step show_status lossy capacity c w e = Some w' /\ w' <> w).
Proof.
  intros sh lo cap c evs w R H. destruct (progress sh lo cap c evs w R) as [P|[P|P]].
  - left. eauto.
  - left. exact P.
  - right. destruct (P H) as (e & w' & O & S & M). exists e, w'. split; [exact O|]. split; [exact S|].
    intros ->. lia.
Qed.
Print Assumptions C75_wait_ends.
Theorem C75_no_livelock :
  forall show_status lossy capacity c w,
  Acc (fun w2 w1 => exists e, own e = true /\ step show_status lossy capacity c w1 e = Some w2 /\ w2 <> w1) w.
Proof.
  intros sh lo cap c w. remember (measure w) as n eqn:E. revert w E.
  induction n as [n IH] using lt_wf_ind. intros w ->. constructor. intros w' (e & O & S & N).
  destruct (measure_step sh lo cap c w e w' O S) as [->|L]; [now elim N|]. now apply (IH (measure w')).
Qed.
Print Assumptions C75_no_livelock.

(** clang that prints more than what fits into a pipe: without abort (nor signals nor errors
    of the system) the program waits for ever, although clang is willing to end. *)
Theorem C75_verbose_clang_refuted :
  forall show_status lossy capacity c evs w s printed,
  prints s (c_writes c) printed -> capacity < List.length printed ->
  wait_run show_status lossy capacity c evs w -> Forall (fun e => own e = true) evs ->
  w_pc w = Polling /\ w_ended w = None.
Proof. intros. eapply blocked; eassumption. Qed.
Print Assumptions C75_verbose_clang_refuted.

(** A failing compilation with some output, an aborted one, and one blocked after 3 bytes. *)
Definition demo_clang : clang := {| c_writes := [(SErr, 104%N); (SOut, 105%N); (SErr, 106%N)]; c_end := Some 1%N |}.
Definition demo_status (st : status) : str := match st with Exited _ => ' "exit status: 1" | _ => ' "signal" end.
Fixpoint steps (cap : nat) (c : clang) (w : waiting) (evs : list event) : option waiting :=
  match evs with
  | [] => Some w
  | e :: r => match step demo_status (fun l => l) cap c w e with Some w' => steps cap c w' r | None => None end
  end.
Lemma steps_run cap c evs : forall evs0 w w', wait_run demo_status (fun l => l) cap c evs0 w ->
  steps cap c w evs = Some w' -> wait_run demo_status (fun l => l) cap c (evs0 ++ evs) w'.
Proof.
  induction evs as [|e r IH]; intros evs0 w w' R E; simpl in E.
  - rewrite app_nil_r. injection E as <-. exact R.
  - destruct (step _ _ _ _ w e) as [w1|] eqn:S; [|discriminate].
    change (e :: r) with ([e] ++ r). rewrite app_assoc. apply (IH _ w1); [|exact E]. eapply wr_step; eassumption.
Qed.
Example C75_witness :
  (exists w, wait_run demo_status (fun l => l) 2 demo_clang [Write; Poll; Write; Write; End; Poll] w /\
     w_pc w = Done (Failed (ClangFailed (' "clang time-trace run failed (exit status: 1) with the following stdout output:" ++ [10%N] ++
       ' "---" ++ [10%N] ++ ' "i---" ++ [10%N] ++ ' "and the following stderr output:" ++ [10%N] ++ ' "---" ++ [10%N] ++ ' "hj---")))) /\
  fits 2 demo_clang /\ c_end demo_clang <> None /\
  (exists w, wait_run demo_status (fun l => l) 1 demo_clang [Write; Write; Cancel; Poll; Kill] w /\ w_pc w = Done Canceled) /\
  (exists w, wait_run demo_status (fun l => l) 1 demo_clang [Write; Write; Poll] w /\
     forall e w', own e = true -> step demo_status (fun l => l) 1 demo_clang w e = Some w' -> w' = w) /\
  prints SErr (c_writes demo_clang) [104%N; 106%N].
Proof.
  split; [|split; [|split; [discriminate|split; [|split]]]].
  - eexists. split; [apply (steps_run 2 demo_clang _ [] (started demo_clang)); [constructor|vm_compute; reflexivity]|vm_compute; reflexivity].
  - intros s l P. rewrite (prints_on _ _ _ P). destruct s; vm_compute; lia.
  - eexists. split; [apply (steps_run 1 demo_clang _ [] (started demo_clang)); [constructor|vm_compute; reflexivity]|vm_compute; reflexivity].
  - eexists. split; [apply (steps_run 1 demo_clang _ [] (started demo_clang)); [constructor|vm_compute; reflexivity]|].
    intros e w' O S. destruct e; try discriminate O; vm_compute in S; congruence.
  - exact (on_prints SErr (c_writes demo_clang)).
Qed.

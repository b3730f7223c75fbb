(** Examples of executions, and the failing cases of the flags. *)
From Coq Require Import NArith Permutation Relations.
From Verif Require Import Base Measure_Model Measure_Spec Measure_Proofs1 Measure_Proofs2 Measure_Proofs3
  Measure_Proofs4 Measure_Proofs5 Measure_Proofs6 Measure_Proofs7 Measure_Proofs8.
Local Open Scope nat_scope.

(** *** A measurement by one worker *)
Definition one q f c w m sv rem wr cb : sys :=
  {| s_queue := q; s_futex := f; s_flags := flags_new 1; s_chan := c; s_workers := [w]; s_main := m;
     s_server := sv; s_kill := false; s_remaining := rem; s_written := wr; s_callbacks := cb;
     s_failed := [] |}.
Lemma running_one : stopped (cls 1) (flags_new 1) 0 = false.
Proof. apply (stopped_running 1 [] _ 0 (stops_nil 1)); [lia|]. simpl. auto. Qed.

Lemma all_jobs_done js sv : forall wr cb,
  exists tr, exec (cls 1) (one js 2 [] (WLooking 2) MLoop sv (length js) wr cb) tr
    (one [] 2 [] (WLooking 2) MLoop sv 0 (wr ++ js) (cb + length js)).
Proof.
  induction js as [|j js IH]; intros wr cb.
  - exists []. rewrite app_nil_r, Nat.add_0_r. constructor.
  - cbn [length]. set (r := length js) in *.
    set (s0 := one (j :: js) 2 [] (WLooking 2) MLoop sv (S r) wr cb).
    set (s1 := one js 2 [] (WTook 2 j) MLoop sv (S r) wr cb).
    set (s2 := one js 2 [] (WRunning 2 j) MLoop sv (S r) wr cb).
    set (s3 := one js 2 [] (WSending 2 (MOk j)) MLoop sv (S r) wr cb).
    set (s4 := one js 2 [MOk j] (WLooking 2) MLoop sv (S r) wr cb).
    set (s5 := one js 2 [MOk j] (WLooking 2) MRecv sv (S r) wr cb).
    set (s6 := one js 2 [] (WLooking 2) MLoop sv r (wr ++ [j]) (S cb)).
    assert (T1 : step (cls 1) (Worker 0) s0 s1)
      by (eapply (worker_go 1 s0 0); [reflexivity|apply w_take|reflexivity]).
    assert (T2 : step (cls 1) (Worker 0) s1 s2)
      by (eapply (worker_go 1 s1 0); [reflexivity|apply w_start; apply running_one|reflexivity]).
    assert (T3 : step (cls 1) (Worker 0) s2 s3)
      by (eapply (worker_go 1 s2 0); [reflexivity|apply w_ok|reflexivity]).
    assert (T4 : step (cls 1) (Worker 0) s3 s4)
      by (eapply (worker_go 1 s3 0); [reflexivity|apply w_send_ok|reflexivity]).
    assert (T5 : step (cls 1) Idle s4 s5) by (apply (st_iterate _ s4); easy).
    assert (E6 : s6 = to_main (Measure_Model.step_done (row_written (with_chan s5 []) j)) MLoop).
    { unfold s6, s5, one, to_main, Measure_Model.step_done, row_written, with_chan. cbn. f_equal. lia. }
    assert (T6 : step (cls 1) Main s5 s6) by (rewrite E6; apply (st_recv_ok _ s5 j []); easy).
    destruct (IH (wr ++ [j]) (S cb)) as (tr & Htr).
    eexists. eapply exec_app; [apply exec_one, T1|]. eapply exec_app; [apply exec_one, T2|].
    eapply exec_app; [apply exec_one, T3|]. eapply exec_app; [apply exec_one, T4|].
    eapply exec_app; [apply exec_one, T5|]. eapply exec_app; [apply exec_one, T6|].
    rewrite <- app_assoc in Htr. cbn [app] in Htr. rewrite Nat.add_succ_r. exact Htr.
Qed.

Theorem success_possible js sv :
  exists tr s, exec (cls 1) (init 1 js sv) tr s /\ s_main s = MDone ROk /\ s_written s = js.
Proof.
  set (r := length js).
  set (a0 := init 1 js sv).
  set (a1 := one js 2 [] (WWaiting 1) MStartWake sv r [] 0).
  set (a2 := one js 2 [] (WWaiting 1) MLoop sv r [] 0).
  set (a3 := one js 2 [] (WLooking 2) MLoop sv r [] 0).
  set (b0 := one [] 2 [] (WLooking 2) MLoop sv 0 ([] ++ js) (0 + r)).
  set (b1 := one [] 2 [] (WLooking 2) (MClose ROk) sv 0 js r).
  set (b2 := one [] 0 [] (WLooking 2) (MCloseWake ROk) sv 0 js r).
  set (b3 := one [] 0 [] (WLooking 2) (MJoin ROk) sv 0 js r).
  set (b4 := one [] 0 [] (WWaiting 2) (MJoin ROk) sv 0 js r).
  set (b5 := one [] 0 [] (WLooking 0) (MJoin ROk) sv 0 js r).
  set (b6 := one [] 0 [] (WDone false) (MJoin ROk) sv 0 js r).
  set (b7 := one [] 0 [] (WDone false) (MDone ROk) sv 0 js r).
  assert (T1 : step (cls 1) Main a0 a1) by (apply (st_start _ a0); easy).
  assert (T2 : step (cls 1) Main a1 a2) by (apply (st_start_wake _ a1); easy).
  assert (T3 : step (cls 1) (Worker 0) a2 a3)
    by (eapply (worker_go 1 a2 0); [reflexivity|apply w_signal; easy|reflexivity]).
  destruct (all_jobs_done js sv [] 0) as (tr & Htr). fold r a3 b0 in Htr.
  assert (U1 : step (cls 1) Main b0 b1) by (apply (st_finish _ b0 ROk); auto).
  assert (U2 : step (cls 1) Main b1 b2) by (apply (st_close _ b1); easy).
  assert (U3 : step (cls 1) Main b2 b3) by (apply (st_close_wake _ b2); easy).
  assert (U4 : step (cls 1) (Worker 0) b3 b4)
    by (eapply (worker_go 1 b3 0); [reflexivity|apply w_empty; easy|reflexivity]).
  assert (U5 : step (cls 1) (Worker 0) b4 b5)
    by (eapply (worker_go 1 b4 0); [reflexivity|apply w_signal; easy|reflexivity]).
  assert (U6 : step (cls 1) (Worker 0) b5 b6)
    by (eapply (worker_go 1 b5 0); [reflexivity|apply w_finished; easy|reflexivity]).
  assert (U7 : step (cls 1) Main b6 b7) by (apply (st_join _ b6 ROk); easy).
  eexists _, b7. split; [|easy].
  eapply exec_app; [apply exec_one, T1|]. eapply exec_app; [apply exec_one, T2|].
  eapply exec_app; [apply exec_one, T3|]. eapply exec_app; [exact Htr|].
  eapply exec_app; [apply exec_one, U1|]. eapply exec_app; [apply exec_one, U2|].
  eapply exec_app; [apply exec_one, U3|]. eapply exec_app; [apply exec_one, U4|].
  eapply exec_app; [apply exec_one, U5|]. eapply exec_app; [apply exec_one, U6|].
  apply exec_one, U7.
Qed.

(** *** A killed worker: its job is done by the other one *)
Definition two q f fl c ws m sv rem wr cb : sys :=
  {| s_queue := q; s_futex := f; s_flags := fl; s_chan := c; s_workers := ws; s_main := m;
     s_server := sv; s_kill := false; s_remaining := rem; s_written := wr; s_callbacks := cb;
     s_failed := [] |}.
Definition sv0 : server := {| sv_bkg := 0; sv_margin := 200; sv_last_available := 150 |}.
Definition sv1 : server := {| sv_bkg := 0; sv_margin := 100; sv_last_available := 150 |}.
Definition elapsed0 : nat -> nat -> nat := fun _ i => 10 - i.

Example killed_job_is_done : exists tr s, exec (cls 2) (init 2 [7%N] sv0) tr s /\
  s_main s = MDone ROk /\ s_written s = [7%N] /\ stopped (cls 2) (s_flags s) 1 = true.
Proof.
  assert (Hmon : monitor_update elapsed0 150 sv0 (flags_new 2) = Ret (sv1, [1%N], Running))
    by (vm_compute; reflexivity).
  set (F := flags_new 2). set (G := [1%N]).
  set (a0 := init 2 [7%N] sv0).
  set (a1 := two [7%N] 2 F [] [WWaiting 1; WWaiting 1] MStartWake sv0 1 [] 0).
  set (a2 := two [7%N] 2 F [] [WWaiting 1; WWaiting 1] MLoop sv0 1 [] 0).
  set (a3 := two [7%N] 2 F [] [WWaiting 1; WLooking 2] MLoop sv0 1 [] 0).
  set (a4 := two [] 2 F [] [WWaiting 1; WTook 2 7%N] MLoop sv0 1 [] 0).
  set (a5 := two [] 2 F [] [WWaiting 1; WRunning 2 7%N] MLoop sv0 1 [] 0).
  set (a6 := two [] 2 F [] [WLooking 2; WRunning 2 7%N] MLoop sv0 1 [] 0).
  set (a7 := two [] 2 F [] [WWaiting 2; WRunning 2 7%N] MLoop sv0 1 [] 0).
  set (a8 := two [] 2 F [] [WCalling 2; WRunning 2 7%N] MLoop sv0 1 [] 0).
  set (a9 := two [] 2 F [] [WSleeping 2; WRunning 2 7%N] MLoop sv0 1 [] 0).
  set (b0 := two [] 2 F [] [WSleeping 2; WRunning 2 7%N] MRecv sv0 1 [] 0).
  set (b1 := two [] 2 G [] [WSleeping 2; WRunning 2 7%N] MLoop sv1 1 [] 0).
  set (b2 := two [] 2 G [] [WSleeping 2; WSending 2 (MKilled 7%N)] MLoop sv1 1 [] 0).
  set (b3 := two [] 2 G [MKilled 7%N] [WSleeping 2; WDone false] MLoop sv1 1 [] 0).
  set (b4 := two [] 2 G [MKilled 7%N] [WSleeping 2; WDone false] MRecv sv1 1 [] 0).
  set (b5 := two [] 2 G [] [WSleeping 2; WDone false] (MPush 7%N) sv1 1 [] 0).
  set (b6 := two [7%N] 2 G [] [WSleeping 2; WDone false] MPushSignal sv1 1 [] 0).
  set (b7 := two [7%N] 3 G [] [WSleeping 2; WDone false] MPushWake sv1 1 [] 0).
  set (b8 := two [7%N] 3 G [] [WWaiting 2; WDone false] MLoop sv1 1 [] 0).
  set (b9 := two [7%N] 3 G [] [WLooking 3; WDone false] MLoop sv1 1 [] 0).
  set (c0 := two [] 3 G [] [WTook 3 7%N; WDone false] MLoop sv1 1 [] 0).
  set (c1 := two [] 3 G [] [WRunning 3 7%N; WDone false] MLoop sv1 1 [] 0).
  set (c2 := two [] 3 G [] [WSending 3 (MOk 7%N); WDone false] MLoop sv1 1 [] 0).
  set (c3 := two [] 3 G [MOk 7%N] [WLooking 3; WDone false] MLoop sv1 1 [] 0).
  set (c4 := two [] 3 G [MOk 7%N] [WLooking 3; WDone false] MRecv sv1 1 [] 0).
  set (c5 := two [] 3 G [] [WLooking 3; WDone false] MLoop sv1 0 [7%N] 1).
  set (c6 := two [] 3 G [] [WLooking 3; WDone false] (MClose ROk) sv1 0 [7%N] 1).
  set (c7 := two [] 0 G [] [WLooking 3; WDone false] (MCloseWake ROk) sv1 0 [7%N] 1).
  set (c8 := two [] 0 G [] [WLooking 3; WDone false] (MJoin ROk) sv1 0 [7%N] 1).
  set (c9 := two [] 0 G [] [WWaiting 3; WDone false] (MJoin ROk) sv1 0 [7%N] 1).
  set (d0 := two [] 0 G [] [WLooking 0; WDone false] (MJoin ROk) sv1 0 [7%N] 1).
  set (d1 := two [] 0 G [] [WDone false; WDone false] (MJoin ROk) sv1 0 [7%N] 1).
  set (d2 := two [] 0 G [] [WDone false; WDone false] (MDone ROk) sv1 0 [7%N] 1).
  assert (R0 : stopped (cls 2) G 0 = false) by (vm_compute; reflexivity).
  assert (R1 : stopped (cls 2) G 1 = true) by (vm_compute; reflexivity).
  assert (T1 : step (cls 2) Main a0 a1) by (apply (st_start _ a0); easy).
  assert (T2 : step (cls 2) Main a1 a2) by (apply (st_start_wake _ a1); easy).
  assert (T3 : step (cls 2) (Worker 1) a2 a3)
    by (eapply (worker_go 2 a2 1); [reflexivity|apply w_signal; easy|reflexivity]).
  assert (T4 : step (cls 2) (Worker 1) a3 a4)
    by (eapply (worker_go 2 a3 1); [reflexivity|apply w_take|reflexivity]).
  assert (T5 : step (cls 2) (Worker 1) a4 a5)
    by (eapply (worker_go 2 a4 1); [reflexivity|apply w_start, running_two; lia|reflexivity]).
  assert (T6 : step (cls 2) (Worker 0) a5 a6)
    by (eapply (worker_go 2 a5 0); [reflexivity|apply w_signal; easy|reflexivity]).
  assert (T7 : step (cls 2) (Worker 0) a6 a7)
    by (eapply (worker_go 2 a6 0); [reflexivity|apply w_empty; easy|reflexivity]).
  assert (T8 : step (cls 2) (Worker 0) a7 a8)
    by (eapply (worker_go 2 a7 0); [reflexivity|apply w_no_signal; easy|reflexivity]).
  assert (T9 : step (cls 2) (Worker 0) a8 a9)
    by (eapply (worker_go 2 a8 0); [reflexivity|apply w_sleep; easy|reflexivity]).
  assert (U0 : step (cls 2) Idle a9 b0) by (apply (st_iterate _ a9); easy).
  assert (U1 : step (cls 2) Idle b0 b1)
    by (eapply (st_timeout_running _ b0 elapsed0 150%N sv1 G); [easy|easy|exact Hmon]).
  assert (U2 : step (cls 2) (Worker 1) b1 b2)
    by (eapply (worker_go 2 b1 1); [reflexivity|apply w_killed; exact R1|reflexivity]).
  assert (U3 : step (cls 2) (Worker 1) b2 b3)
    by (eapply (worker_go 2 b2 1); [reflexivity|apply w_send_killed|reflexivity]).
  assert (U4 : step (cls 2) Idle b3 b4) by (apply (st_iterate _ b3); easy).
  assert (U5 : step (cls 2) Main b4 b5) by (apply (st_recv_killed _ b4 7%N []); easy).
  assert (U6 : step (cls 2) Main b5 b6) by (apply (st_push _ b5 7%N); easy).
  assert (U7 : step (cls 2) Main b6 b7) by (apply (st_push_signal _ b6); easy).
  assert (U8 : step (cls 2) Main b7 b8)
    by (apply (st_push_wake _ b7); [easy|apply (wake_one_some (s_workers b7) 0 2%N); easy]).
  assert (U9 : step (cls 2) (Worker 0) b8 b9)
    by (eapply (worker_go 2 b8 0); [reflexivity|apply w_signal; easy|reflexivity]).
  assert (V0 : step (cls 2) (Worker 0) b9 c0)
    by (eapply (worker_go 2 b9 0); [reflexivity|apply w_take|reflexivity]).
  assert (V1 : step (cls 2) (Worker 0) c0 c1)
    by (eapply (worker_go 2 c0 0); [reflexivity|apply w_start; exact R0|reflexivity]).
  assert (V2 : step (cls 2) (Worker 0) c1 c2)
    by (eapply (worker_go 2 c1 0); [reflexivity|apply w_ok|reflexivity]).
  assert (V3 : step (cls 2) (Worker 0) c2 c3)
    by (eapply (worker_go 2 c2 0); [reflexivity|apply w_send_ok|reflexivity]).
  assert (V4 : step (cls 2) Idle c3 c4) by (apply (st_iterate _ c3); easy).
  assert (V5 : step (cls 2) Main c4 c5) by (apply (st_recv_ok _ c4 7%N []); easy).
  assert (V6 : step (cls 2) Main c5 c6) by (apply (st_finish _ c5 ROk); auto).
  assert (V7 : step (cls 2) Main c6 c7) by (apply (st_close _ c6); easy).
  assert (V8 : step (cls 2) Main c7 c8) by (apply (st_close_wake _ c7); easy).
  assert (V9 : step (cls 2) (Worker 0) c8 c9)
    by (eapply (worker_go 2 c8 0); [reflexivity|apply w_empty; easy|reflexivity]).
  assert (W0 : step (cls 2) (Worker 0) c9 d0)
    by (eapply (worker_go 2 c9 0); [reflexivity|apply w_signal; easy|reflexivity]).
  assert (W1 : step (cls 2) (Worker 0) d0 d1)
    by (eapply (worker_go 2 d0 0); [reflexivity|apply w_finished; easy|reflexivity]).
  assert (W2 : step (cls 2) Main d1 d2) by (apply (st_join _ d1 ROk); easy).
  eexists _, d2. split; [|split; [reflexivity|split; [reflexivity|exact R1]]].
  eapply exec_app; [apply exec_one, T1|]. eapply exec_app; [apply exec_one, T2|].
  eapply exec_app; [apply exec_one, T3|]. eapply exec_app; [apply exec_one, T4|].
  eapply exec_app; [apply exec_one, T5|]. eapply exec_app; [apply exec_one, T6|].
  eapply exec_app; [apply exec_one, T7|]. eapply exec_app; [apply exec_one, T8|].
  eapply exec_app; [apply exec_one, T9|]. eapply exec_app; [apply exec_one, U0|].
  eapply exec_app; [apply exec_one, U1|]. eapply exec_app; [apply exec_one, U2|].
  eapply exec_app; [apply exec_one, U3|]. eapply exec_app; [apply exec_one, U4|].
  eapply exec_app; [apply exec_one, U5|]. eapply exec_app; [apply exec_one, U6|].
  eapply exec_app; [apply exec_one, U7|]. eapply exec_app; [apply exec_one, U8|].
  eapply exec_app; [apply exec_one, U9|]. eapply exec_app; [apply exec_one, V0|].
  eapply exec_app; [apply exec_one, V1|]. eapply exec_app; [apply exec_one, V2|].
  eapply exec_app; [apply exec_one, V3|]. eapply exec_app; [apply exec_one, V4|].
  eapply exec_app; [apply exec_one, V5|]. eapply exec_app; [apply exec_one, V6|].
  eapply exec_app; [apply exec_one, V7|]. eapply exec_app; [apply exec_one, V8|].
  eapply exec_app; [apply exec_one, V9|]. eapply exec_app; [apply exec_one, W0|].
  eapply exec_app; [apply exec_one, W1|]. apply exec_one, W2.
Qed.

(** *** 64 workers or more *)
Lemma stops_some n l : NoDup l -> (forall i, In i l -> i < n) -> exists f, stops n l f.
Proof.
  induction l as [|i l IH] using rev_ind; intros Hnd Hlt; [exists (flags_new n); constructor|].
  assert (Hnd' : NoDup l /\ ~ In i l).
  { apply NoDup_remove in Hnd. rewrite app_nil_r in Hnd. easy. }
  destruct (IH (proj1 Hnd')) as (f & Hf).
  { intros k Hk. apply Hlt, in_app_iff. auto. }
  destruct (flags_ok n l f _ Hf (clients_new n)) as (_ & _ & _ & _ & _ & Hst & _).
  assert (Hi : i < n) by (apply Hlt, in_app_iff; right; left; easy).
  destruct (stop f i) as [f'|] eqn:E.
  - exists f'. econstructor; eassumption.
  - exfalso. apply (proj2 Hnd'). apply (Hst i Hi). easy.
Qed.

Theorem listing_panics n : 64 <= n -> exists l f, stops n l f /\ In 63 (running n l) /\
  enumerate_active f = Panic.
Proof.
  intros Hn. destruct (stops_some n (seq 0 63)) as (f & Hf).
  - apply seq_NoDup.
  - intros i Hi. apply in_seq in Hi. lia.
  - exists (seq 0 63), f. split; [easy|]. split.
    + apply running_in. split; [lia|]. intros H. apply in_seq in H. lia.
    + destruct (flags_ok n _ f _ Hf (clients_new n)) as (_ & _ & _ & _ & Hp & _). apply Hp.
      exists 0. split; [lia|]. intros b Hb. rewrite running_in, in_seq. lia.
Qed.

Theorem oom_panics n l f elapsed available sv :
  stops n l f -> only_last_of_word n l ->
  (available < adapted_margin sv (length (running n l) + sv_bkg sv) available)%N ->
  monitor_update elapsed available sv f = Panic.
Proof.
  intros Hf Hol Hlt. destruct (flags_ok n _ f _ Hf (clients_new n)) as (_ & _ & Hnum & _ & Hp & _).
  specialize (Hp Hol). unfold monitor_update, update_oom_threshold, adapted_margin in *.
  unfold assumed_threads. cbn [sv_margin sv_bkg]. rewrite Hnum.
  assert (Hpos : N.of_nat (length (running n l) + sv_bkg sv) <> 0%N).
  { destruct Hol as (k & Hk & Hb). destruct (Hb 63 ltac:(lia)) as [_ H]. specialize (H eq_refl).
    destruct (running n l); [destruct H|]. cbn [length]. lia. }
  destruct (N.ltb_spec (sv_margin sv) (sv_last_available sv - available)) as [Hc|Hc].
  - unfold udiv. destruct (N.eqb_spec (N.of_nat (length (running n l) + sv_bkg sv)) 0); [easy|].
    cbn [obind]. unfold handle_oom. cbn [oom_loop sv_margin].
    apply N.ltb_lt in Hlt. rewrite Hlt, Hp. easy.
  - cbn [obind]. unfold handle_oom. cbn [oom_loop sv_margin].
    apply N.ltb_lt in Hlt. rewrite Hlt, Hp. easy.
Qed.

(** *** One worker per entry *)
Lemma NoDup_app_cases {A} (a b : list A) : NoDup (a ++ b) ->
  (forall x, In x a -> ~ In x b) /\ NoDup b /\ NoDup a.
Proof.
  induction a as [|x a IH]; intros H; simpl in *.
  - split; [intros y []|]. split; [easy|constructor].
  - apply NoDup_cons_iff in H. destruct H as [Hx H]. destruct (IH H) as (H1 & H2 & H3).
    rewrite in_app_iff in Hx. split; [|split; [easy|constructor; tauto]].
    intros y [<-|Hy]; [tauto|apply H1; easy].
Qed.
Lemma nodup_held ws : NoDup (concat (map held ws)) -> forall i k l l' j,
  nth_error ws i = Some (WRunning l j) -> nth_error ws k = Some (WRunning l' j) -> i = k.
Proof.
  induction ws as [|w ws IH]; intros Hn [|i] [|k] l l' j Hi Hk; simpl in Hi, Hk; try discriminate; auto.
  - injection Hi as ->. exfalso. cbn in Hn. apply NoDup_cons_iff in Hn. apply (proj1 Hn).
    apply in_concat. exists [j]. split; [|left; easy]. apply nth_error_In in Hk.
    apply (in_map held) in Hk. exact Hk.
  - injection Hk as ->. exfalso. cbn in Hn. apply NoDup_cons_iff in Hn. apply (proj1 Hn).
    apply in_concat. exists [j]. split; [|left; easy]. apply nth_error_In in Hi.
    apply (in_map held) in Hi. exact Hi.
  - f_equal. simpl in Hn. apply NoDup_app_split in Hn. eapply IH; eassumption.
Qed.
Theorem no_concurrent_work n jobs sv clients tr s : NoDup jobs ->
  exec clients (init n jobs sv) tr s ->
  forall i j, compiles s i j -> ~ In j (s_written s) /\ ~ In j (s_queue s) /\
    forall i', compiles s i' j -> i' = i.
Proof.
  intros Hnd H i j (l & Hi). apply conservation in H. apply (Permutation_NoDup H) in Hnd. clear H.
  unfold all_jobs in Hnd.
  assert (Hin : In j (concat (map held (s_workers s)))).
  { apply in_concat. exists [j]. split; [|left; easy]. apply nth_error_In in Hi.
    apply (in_map held) in Hi. exact Hi. }
  apply NoDup_app_cases in Hnd. destruct Hnd as (Hd1 & Hn2 & _).
  apply NoDup_app_cases in Hn2. destruct Hn2 as (Hd2 & _ & Hn3).
  split; [|split].
  - intros Hw. apply (Hd2 j Hin). rewrite !in_app_iff. auto.
  - intros Hq. apply (Hd1 j Hq). apply in_app_iff. auto.
  - intros k (l' & Hk). eapply nodup_held; eassumption.
Qed.

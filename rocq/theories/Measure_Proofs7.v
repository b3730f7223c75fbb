(** What happens to the other jobs after an error; process trees; compiler output. *)
From Coq Require Import NArith Permutation Relations.
From Verif Require Import Base Measure_Model Measure_Spec Measure_Proofs1 Measure_Proofs2 Measure_Proofs3
  Measure_Proofs4 Measure_Proofs5 Measure_Proofs6.
Local Open Scope nat_scope.

(** *** After an error *)
Definition mk q f c ws m sv rem wr cb fa : sys :=
  {| s_queue := q; s_futex := f; s_flags := flags_new 2; s_chan := c; s_workers := ws; s_main := m;
     s_server := sv; s_kill := false; s_remaining := rem; s_written := wr; s_callbacks := cb;
     s_failed := fa |}.

Lemma worker_go n s i w q' c' w' s' : nth_error (s_workers s) i = Some w ->
  worker_step (s_futex s) (stopped (cls n) (s_flags s) i) (s_queue s) (s_chan s) w q' c' w' ->
  s' = with_workers (with_chan (with_queue s q') c') (set_nth (s_workers s) i w') ->
  step (cls n) (Worker i) s s'.
Proof. intros H1 H2 ->. eapply st_worker; eassumption. Qed.

Lemma running_two i : i < 2 -> stopped (cls 2) (flags_new 2) i = false.
Proof.
  intros H. apply (stopped_running 2 [] _ i (stops_nil 2) H). destruct i as [|[|i]]; simpl; auto. lia.
Qed.

(** One worker goes through the whole queue while the main thread waits for it to end. *)
Lemma drain js sv rem wr cb fa : forall c,
  exists tr, exec (cls 2) (mk js 0 c [WDone false; WLooking 0] (MJoin RJob) sv rem wr cb fa) tr
    (mk [] 0 (c ++ map MOk js) [WDone false; WLooking 0] (MJoin RJob) sv rem wr cb fa) /\
    forall j, In j js -> exists tr1 s1, exec (cls 2)
      (mk js 0 c [WDone false; WLooking 0] (MJoin RJob) sv rem wr cb fa) tr1 s1 /\
      s_main s1 = MJoin RJob /\ compiles s1 1 j.
Proof.
  induction js as [|j js IH]; intros c.
  - exists []. split; [rewrite app_nil_r; constructor|intros j []].
  - set (s0 := mk (j :: js) 0 c [WDone false; WLooking 0] (MJoin RJob) sv rem wr cb fa).
    set (s1 := mk js 0 c [WDone false; WTook 0 j] (MJoin RJob) sv rem wr cb fa).
    set (s2 := mk js 0 c [WDone false; WRunning 0 j] (MJoin RJob) sv rem wr cb fa).
    set (s3 := mk js 0 c [WDone false; WSending 0 (MOk j)] (MJoin RJob) sv rem wr cb fa).
    set (s4 := mk js 0 (c ++ [MOk j]) [WDone false; WLooking 0] (MJoin RJob) sv rem wr cb fa).
    assert (T1 : step (cls 2) (Worker 1) s0 s1)
      by (eapply (worker_go 2 s0 1); [reflexivity|apply w_take|reflexivity]).
    assert (T2 : step (cls 2) (Worker 1) s1 s2)
      by (eapply (worker_go 2 s1 1); [reflexivity|apply w_start; apply running_two; lia|reflexivity]).
    assert (T3 : step (cls 2) (Worker 1) s2 s3)
      by (eapply (worker_go 2 s2 1); [reflexivity|apply w_ok|reflexivity]).
    assert (T4 : step (cls 2) (Worker 1) s3 s4)
      by (eapply (worker_go 2 s3 1); [reflexivity|apply w_send_ok|reflexivity]).
    assert (E2 : exec (cls 2) s0 ([Worker 1] ++ [Worker 1]) s2)
      by (eapply exec_app; apply exec_one; eassumption).
    assert (E4 : exec (cls 2) s0 (([Worker 1] ++ [Worker 1]) ++ [Worker 1] ++ [Worker 1]) s4).
    { eapply exec_app; [exact E2|]. eapply exec_app; apply exec_one; eassumption. }
    destruct (IH (c ++ [MOk j])) as (tr & Htr & Hall).
    exists ((([Worker 1] ++ [Worker 1]) ++ [Worker 1] ++ [Worker 1]) ++ tr). split.
    + eapply exec_app; [exact E4|]. cbn [map]. change (MOk j :: map MOk js) with ([MOk j] ++ map MOk js).
      rewrite app_assoc. exact Htr.
    + intros j' [<-|Hj].
      * exists ([Worker 1] ++ [Worker 1]), s2. split; [exact E2|]. split; [easy|]. exists 0%N. easy.
      * destruct (Hall j' Hj) as (tr1 & s1' & He & Hm & Hc).
        exists ((([Worker 1] ++ [Worker 1]) ++ [Worker 1] ++ [Worker 1]) ++ tr1), s1'.
        split; [eapply exec_app; [exact E4|exact He]|easy].
Qed.

(** Up to there: the first entry fails and the main thread gives up. *)
Lemma give_up j js sv : exists tr, exec (cls 2) (init 2 (j :: js) sv) tr
  (mk js 0 [] [WDone false; WLooking 0] (MJoin RJob) sv (S (length js)) [] 0 [j]).
Proof.
  set (r := S (length js)).
  set (a0 := init 2 (j :: js) sv).
  set (a1 := mk (j :: js) 2 [] [WWaiting 1; WWaiting 1] MStartWake sv r [] 0 []).
  set (a2 := mk (j :: js) 2 [] [WWaiting 1; WWaiting 1] MLoop sv r [] 0 []).
  set (a3 := mk (j :: js) 2 [] [WLooking 2; WWaiting 1] MLoop sv r [] 0 []).
  set (a4 := mk js 2 [] [WTook 2 j; WWaiting 1] MLoop sv r [] 0 []).
  set (a5 := mk js 2 [] [WRunning 2 j; WWaiting 1] MLoop sv r [] 0 []).
  set (a6 := mk js 2 [] [WSending 2 (MErr j); WWaiting 1] MLoop sv r [] 0 []).
  set (a7 := mk js 2 [MErr j] [WDone false; WWaiting 1] MLoop sv r [] 0 []).
  set (a8 := mk js 2 [MErr j] [WDone false; WWaiting 1] MRecv sv r [] 0 []).
  set (a9 := mk js 2 [] [WDone false; WWaiting 1] (MClose RJob) sv r [] 0 [j]).
  set (b1 := mk js 0 [] [WDone false; WWaiting 1] (MCloseWake RJob) sv r [] 0 [j]).
  set (b2 := mk js 0 [] [WDone false; WWaiting 1] (MJoin RJob) sv r [] 0 [j]).
  set (b3 := mk js 0 [] [WDone false; WLooking 0] (MJoin RJob) sv r [] 0 [j]).
  assert (T1 : step (cls 2) Main a0 a1) by (apply (st_start _ a0); easy).
  assert (T2 : step (cls 2) Main a1 a2) by (apply (st_start_wake _ a1); easy).
  assert (T3 : step (cls 2) (Worker 0) a2 a3)
    by (eapply (worker_go 2 a2 0); [reflexivity|apply w_signal; easy|reflexivity]).
  assert (T4 : step (cls 2) (Worker 0) a3 a4)
    by (eapply (worker_go 2 a3 0); [reflexivity|apply w_take|reflexivity]).
  assert (T5 : step (cls 2) (Worker 0) a4 a5)
    by (eapply (worker_go 2 a4 0); [reflexivity|apply w_start, running_two; lia|reflexivity]).
  assert (T6 : step (cls 2) (Worker 0) a5 a6)
    by (eapply (worker_go 2 a5 0); [reflexivity|apply w_fails|reflexivity]).
  assert (T7 : step (cls 2) (Worker 0) a6 a7)
    by (eapply (worker_go 2 a6 0); [reflexivity|apply w_send_err|reflexivity]).
  assert (T8 : step (cls 2) Idle a7 a8) by (apply (st_iterate _ a7); easy).
  assert (T9 : step (cls 2) Main a8 a9) by (apply (st_recv_err _ a8 j []); easy).
  assert (U1 : step (cls 2) Main a9 b1) by (apply (st_close _ a9); easy).
  assert (U2 : step (cls 2) Main b1 b2) by (apply (st_close_wake _ b1); easy).
  assert (U3 : step (cls 2) (Worker 1) b2 b3)
    by (eapply (worker_go 2 b2 1); [reflexivity|apply w_signal; easy|reflexivity]).
  eexists.
  eapply exec_app; [apply exec_one, T1|]. eapply exec_app; [apply exec_one, T2|].
  eapply exec_app; [apply exec_one, T3|]. eapply exec_app; [apply exec_one, T4|].
  eapply exec_app; [apply exec_one, T5|]. eapply exec_app; [apply exec_one, T6|].
  eapply exec_app; [apply exec_one, T7|]. eapply exec_app; [apply exec_one, T8|].
  eapply exec_app; [apply exec_one, T9|]. eapply exec_app; [apply exec_one, U1|].
  eapply exec_app; [apply exec_one, U2|]. apply exec_one, U3.
Qed.

Theorem error_does_not_stop j js sv :
  exists tr s, exec (cls 2) (init 2 (j :: js) sv) tr s /\ s_main s = MDone RJob /\
    s_chan s = map MOk js /\ s_written s = [] /\ s_kill s = false /\
    forall j', In j' js -> exists tr1 s1, exec (cls 2) (init 2 (j :: js) sv) tr1 s1 /\
      s_main s1 = MJoin RJob /\ compiles s1 1 j'.
Proof.
  destruct (give_up j js sv) as (tr1 & H1).
  destruct (drain js sv (S (length js)) [] 0 [j] []) as (tr2 & H2 & H3).
  set (e1 := mk [] 0 ([] ++ map MOk js) [WDone false; WLooking 0] (MJoin RJob) sv (S (length js)) [] 0 [j]) in *.
  set (e2 := mk [] 0 ([] ++ map MOk js) [WDone false; WDone false] (MJoin RJob) sv (S (length js)) [] 0 [j]).
  set (e3 := mk [] 0 ([] ++ map MOk js) [WDone false; WDone false] (MDone RJob) sv (S (length js)) [] 0 [j]).
  assert (T1 : step (cls 2) (Worker 1) e1 e2)
    by (eapply (worker_go 2 e1 1); [reflexivity|apply w_finished; easy|reflexivity]).
  assert (T2 : step (cls 2) Main e2 e3) by (apply (st_join _ e2 RJob); easy).
  exists ((tr1 ++ tr2) ++ [Worker 1] ++ [Main]), e3. split.
  - eapply exec_app; [eapply exec_app; [exact H1|exact H2]|]. eapply exec_app; apply exec_one; eassumption.
  - repeat (split; [reflexivity|]). intros j' Hj. destruct (H3 j' Hj) as (tr3 & s3 & He & Hm & Hc).
    exists (tr1 ++ tr3), s3. split; [eapply exec_app; eassumption|]. auto.
Qed.

(** *** Compiler output *)
Lemma pipe_inv cap out c : child_reach cap (child_new out) c ->
  (ch_read c = false -> ch_todo c + ch_pipe c = out) /\ ch_pipe c <= cap /\
  (ch_exited c = true -> ch_todo c = 0 /\ out <= cap) /\ (ch_read c = true -> ch_exited c = true).
Proof.
  unfold child_reach. intros H. apply clos_rt_rtn1 in H.
  induction H as [|c c' Hs _ IH].
  - cbn. repeat split; try lia; try discriminate.
  - inversion Hs; subst; cbn in *.
    + destruct IH as (I1 & I2 & I3 & I4). specialize (I1 eq_refl). repeat split; try lia; try discriminate.
    + destruct IH as (I1 & I2 & I3 & I4). specialize (I1 eq_refl). repeat split; try lia; try discriminate.
    + destruct IH as (I1 & I2 & I3 & I4). specialize (I1 eq_refl). destruct I3; [easy|].
      repeat split; try lia; try discriminate.
Qed.
Theorem pipe_blocks cap out c : cap < out -> child_reach cap (child_new out) c ->
  ch_exited c = false /\ ch_read c = false.
Proof.
  intros Hlt H. destruct (pipe_inv _ _ _ H) as (_ & _ & H3 & H4).
  assert (E : ch_exited c = false).
  { destruct (ch_exited c); [|easy]. destruct (H3 eq_refl). lia. }
  split; [easy|]. destruct (ch_read c); [|easy]. rewrite (H4 eq_refl) in E. easy.
Qed.
Theorem pipe_finishes cap out : out <= cap ->
  exists c, child_reach cap (child_new out) c /\ ch_read c = true.
Proof.
  intros Hle.
  assert (H : forall k, k <= out -> child_reach cap (child_new out)
    {| ch_todo := out - k; ch_pipe := k; ch_exited := false; ch_read := false |}).
  { induction k as [|k IH]; intros Hk.
    - rewrite Nat.sub_0_r. apply rt_refl.
    - eapply rt_trans; [apply IH; lia|]. apply rt_step.
      replace (out - k) with (S (out - S k)) by lia. apply ch_write. lia. }
  specialize (H out (le_n _)). rewrite Nat.sub_diag in H.
  exists {| ch_todo := 0; ch_pipe := 0; ch_exited := true; ch_read := true |}. split; [|easy].
  eapply rt_trans; [exact H|]. eapply rt_trans; [apply rt_step, ch_exit|]. apply rt_step, ch_collect.
Qed.

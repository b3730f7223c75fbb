(** Properties C42-C48, C58, C59 (full-build measurement). *)
From Coq Require Import NArith Permutation Relations.
From Verif Require Import Base Measure_Model Measure_Spec Measure_Proofs1 Measure_Proofs2 Measure_Proofs3
  Measure_Proofs4 Measure_Proofs5 Measure_Proofs6 Measure_Proofs7 Measure_Proofs8 Measure_Proofs9.
Local Open Scope nat_scope.

Ltac with_clients Hc := rewrite clients_new in Hc; injection Hc as <-; fold (cls).

(** ** C42: a successful measurement has one row per entry *)
Theorem C42_success_is_one_row_per_entry :
  forall n jobs sv clients tr s,
  exec clients (init n jobs sv) tr s -> s_main s = MDone ROk ->
  Permutation jobs (s_written s) /\ s_callbacks s = length jobs /\
  s_queue s = [] /\ s_chan s = [] /\ s_failed s = [].
Proof. intros n jobs sv clients tr s. apply success_exact. Qed.
Print Assumptions C42_success_is_one_row_per_entry.

(** Success is possible whatever the entries ... *)
Theorem C42_success_is_possible :
  forall jobs sv, exists clients tr s, flags_clients (flags_new 1) = Ret clients /\
    exec clients (init 1 jobs sv) tr s /\ s_main s = MDone ROk /\ s_written s = jobs.
Proof.
  intros jobs sv. destruct (success_possible jobs sv) as (tr & s & H).
  exists (cls 1), tr, s. split; [apply clients_new|exact H].
Qed.
Print Assumptions C42_success_is_possible.
(** ... also when a worker is killed in the middle of a compilation. *)
Example C42_witness : exists clients tr s, flags_clients (flags_new 2) = Ret clients /\
  exec clients (init 2 [7%N] sv0) tr s /\ s_main s = MDone ROk /\ s_written s = [7%N] /\
  stopped clients (s_flags s) 1 = true.
Proof.
  destruct killed_job_is_done as (tr & s & H). exists (cls 2), tr, s.
  split; [apply clients_new|exact H].
Qed.

(** ** C43: jobs are neither lost nor duplicated *)
Theorem C43_every_job_is_in_exactly_one_place :
  forall n jobs sv clients tr s,
  exec clients (init n jobs sv) tr s -> Permutation jobs (all_jobs s).
Proof. intros n jobs sv clients tr s. apply conservation. Qed.
Print Assumptions C43_every_job_is_in_exactly_one_place.
(** in particular nothing is compiled twice at the same time, or compiled when written *)
Theorem C43_no_concurrent_work_on_one_entry :
  forall n jobs sv clients tr s, NoDup jobs ->
  exec clients (init n jobs sv) tr s ->
  forall i j, compiles s i j -> ~ In j (s_written s) /\ ~ In j (s_queue s) /\
    forall i', compiles s i' j -> i' = i.
Proof. exact no_concurrent_work. Qed.
Print Assumptions C43_no_concurrent_work_on_one_entry.
Example C43_witness : forall sv, exists clients tr s, flags_clients (flags_new 2) = Ret clients /\
  exec clients (init 2 [1%N; 2%N] sv) tr s /\ compiles s 1 2%N.
Proof.
  intros sv. destruct (error_does_not_stop 1%N [2%N] sv) as (_ & _ & _ & _ & _ & _ & _ & H).
  destruct (H 2%N (or_introl eq_refl)) as (tr1 & s1 & He & _ & Hc).
  exists (cls 2), tr1, s1. split; [apply clients_new|]. split; [exact He|exact Hc].
Qed.

(** ** C44: no deadlock *)
(** While entries remain and there is no result to receive, some worker is awake: it works
    on an entry, looks for one, or is about to see that the futex has changed. *)
Theorem C44_no_lost_wakeup :
  forall n jobs sv clients tr s, few n -> flags_clients (flags_new n) = Ret clients ->
  exec clients (init n jobs sv) tr s ->
  (s_main s = MLoop \/ s_main s = MRecv) -> s_chan s = [] -> s_remaining s <> 0 ->
  exists i w, nth_error (s_workers s) i = Some w /\ awake (s_futex s) w.
Proof.
  intros n jobs sv clients tr s Hn Hc. with_clients Hc. apply (someone_awake n jobs sv tr s Hn).
Qed.
Print Assumptions C44_no_lost_wakeup.
(** Unless it has ended, the measurement can make a productive step, at worst after a trip
    through the main loop ... *)
Theorem C44_progress :
  forall n jobs sv clients tr s, few n -> flags_clients (flags_new n) = Ret clients ->
  exec clients (init n jobs sv) tr s ->
  (exists r, s_main s = MDone r) \/
  exists s1 a s2, (s1 = s \/ step clients Idle s s1) /\ step clients a s1 s2 /\ productive a = true.
Proof.
  intros n jobs sv clients tr s Hn Hc. with_clients Hc. apply (progress n jobs sv tr s Hn).
Qed.
Print Assumptions C44_progress.
(** ... and there is a bound on the number of productive steps, whatever the schedule. *)
Theorem C44_bounded_work :
  forall n jobs sv clients tr s, flags_clients (flags_new n) = Ret clients ->
  exec clients (init n jobs sv) tr s ->
  count productive tr <= 12 * length jobs + 5 * n * n + 44 * n + 6 + 4 * count is_spurious tr.
Proof.
  intros n jobs sv clients tr s Hc. with_clients Hc. apply bounded_work.
Qed.
Print Assumptions C44_bounded_work.
(** Hence it can always be driven to its end. *)
Theorem C44_can_always_finish :
  forall n jobs sv clients tr s, few n -> flags_clients (flags_new n) = Ret clients ->
  exec clients (init n jobs sv) tr s ->
  exists tr' s' r, exec clients s tr' s' /\ s_main s' = MDone r /\ ~ In Spurious tr'.
Proof.
  intros n jobs sv clients tr s Hn Hc. with_clients Hc. apply (can_finish n jobs sv tr s Hn).
Qed.
Print Assumptions C44_can_always_finish.
Example C44_witness : few 8 /\ exists clients, flags_clients (flags_new 8) = Ret clients.
Proof. split; [split; [lia|easy]|]. eexists. apply clients_new. Qed.

(** ** C45: termination of the workers *)
(** Once the main loop has been left and the workers told so, each one can act until it
    ends; with C44_bounded_work it does end. *)
Theorem C45_every_worker_can_act_until_it_ends :
  forall n jobs sv clients tr s r, few n -> flags_clients (flags_new n) = Ret clients ->
  exec clients (init n jobs sv) tr s ->
  s_main s = MJoin r -> forall i w, nth_error (s_workers s) i = Some w -> done w = false ->
  exists s', step clients (Worker i) s s'.
Proof.
  intros n jobs sv clients tr s r Hn Hc. with_clients Hc. apply (join_all_can_act n jobs sv tr s r Hn).
Qed.
Print Assumptions C45_every_worker_can_act_until_it_ends.
(** When the measurement is dropped, the next trip through the main loop stops everyone. *)
Theorem C45_kill_is_seen :
  forall clients s a s', step clients a s s' ->
  s_main s = MLoop -> s_kill s = true -> s_remaining s <> 0 ->
  s_kill s' = true /\
  (s_main s' = MLoop /\ s_remaining s' = s_remaining s \/
   s_main s' = MClose RKilled /\ forall i, stopped clients (s_flags s') i = true).
Proof. exact kill_seen. Qed.
Print Assumptions C45_kill_is_seen.
(** From then on no compilation is started. *)
Theorem C45_nothing_starts_after_a_kill :
  forall n jobs sv clients tr s a s', exec clients (init n jobs sv) tr s ->
  ending RKilled (s_main s) -> step clients a s s' ->
  forall i j, compiles s' i j -> compiles s i j.
Proof.
  intros n jobs sv clients tr s a s' H He Hs i j (l & Hi). exists l.
  eapply no_start_when_stopped; [exact Hs|eapply killed_flags; eassumption|exact Hi].
Qed.
Print Assumptions C45_nothing_starts_after_a_kill.
Example C45_witness : forall sv, exists clients tr s, flags_clients (flags_new 2) = Ret clients /\
  exec clients (init 2 [1%N; 2%N] sv) tr s /\ s_main s = MJoin RJob /\ compiles s 1 2%N.
Proof.
  intros sv. destruct (error_does_not_stop 1%N [2%N] sv) as (_ & _ & _ & _ & _ & _ & _ & H).
  destruct (H 2%N (or_introl eq_refl)) as (tr1 & s1 & He & Hm & Hc).
  exists (cls 2), tr1, s1. split; [apply clients_new|]. split; [exact He|]. split; [exact Hm|exact Hc].
Qed.

(** ** C46: stop flags *)
Theorem C46_flags_are_the_set_of_running_workers :
  forall n l f clients, stops n l f -> flags_clients (flags_new n) = Ret clients ->
  length clients = n /\
  (forall i c, nth_error clients i = Some c -> must_stop f c = true <-> In i l) /\
  num_active f = length (running n l) /\
  (~ only_last_of_word n l -> enumerate_active f = Ret (running n l)) /\
  (only_last_of_word n l -> enumerate_active f = Panic) /\
  (forall i, i < n -> (In i l <-> stop f i = Panic)) /\
  (forall c, In c clients -> must_stop (stop_all f) c = true) /\ num_active (stop_all f) = 0.
Proof. exact flags_ok. Qed.
Print Assumptions C46_flags_are_the_set_of_running_workers.
(** The clients exist for every number of workers, and any workers can be stopped in any order. *)
Theorem C46_any_workers_can_be_stopped :
  forall n l, NoDup l -> (forall i, In i l -> i < n) ->
  (exists clients, flags_clients (flags_new n) = Ret clients) /\ exists f, stops n l f.
Proof. intros n l H1 H2. split; [eexists; apply clients_new|apply stops_some; easy]. Qed.
Print Assumptions C46_any_workers_can_be_stopped.
(** With 64 workers or more, the list of running workers may not be available. *)
Theorem C46_listing_refuted :
  forall n, 64 <= n -> exists l f, stops n l f /\ In 63 (running n l) /\ enumerate_active f = Panic.
Proof. exact listing_panics. Qed.
Print Assumptions C46_listing_refuted.
Example C46_witness : exists f, stops 70 [3; 69; 64] f /\ ~ only_last_of_word 70 [3; 69; 64].
Proof.
  destruct (stops_some 70 [3; 69; 64]) as (f & Hf).
  - repeat constructor; simpl; intuition discriminate.
  - intros i Hi. simpl in Hi. intuition lia.
  - exists f. split; [exact Hf|]. intros (k & Hk & Hb).
    assert (k = 0) by lia. subst k. destruct (Hb 0 ltac:(lia)) as [H _].
    specialize (H ltac:(apply running_in; simpl; intuition lia)). discriminate.
Qed.

(** ** C47: the out-of-memory killer *)
Theorem C47_a_memory_check_is_a_round_of_the_killer :
  forall n elapsed available sv l f,
  n <= 63 -> stops n l f -> running n l <> [] ->
  exists sv' f' st l', monitor_update elapsed available sv f = Ret (sv', f', st) /\
    stops n (l ++ l') f' /\
    sv_bkg sv' = sv_bkg sv /\ sv_last_available sv' = available /\
    kill_round elapsed available (sv_bkg sv) 0
      (adapted_margin sv (length (running n l) + sv_bkg sv) available) (running n l)
      (sv_margin sv') (running n (l ++ l')) st.
Proof. exact update_small. Qed.
Print Assumptions C47_a_memory_check_is_a_round_of_the_killer.
Theorem C47_what_a_round_does :
  forall elapsed available bkg k margin l margin' l' st,
  kill_round elapsed available bkg k margin l margin' l' st -> l <> [] ->
  (st = KilledEveryone <-> l' = []) /\ (st = Running -> (margin' <= available)%N) /\
  (margin' <= margin)%N /\ incl l' l /\
  ((margin <= available)%N -> l' = l /\ margin' = margin) /\
  ((available < margin)%N -> length l' < length l).
Proof. exact kill_round_facts. Qed.
Print Assumptions C47_what_a_round_does.
(** The limit on the number of workers is needed. *)
Theorem C47_many_workers_refuted :
  forall n l f elapsed available sv,
  stops n l f -> only_last_of_word n l ->
  (available < adapted_margin sv (length (running n l) + sv_bkg sv) available)%N ->
  monitor_update elapsed available sv f = Panic.
Proof. exact oom_panics. Qed.
Print Assumptions C47_many_workers_refuted.
Example C47_witness :
  monitor_update (fun k i => nth i [5; 3; 9; 3] 0) 250 {| sv_bkg := 1; sv_margin := 500%N; sv_last_available := 700%N |}
    (flags_new 4) = Ret ({| sv_bkg := 1; sv_margin := 200%N; sv_last_available := 250%N |}, [4%N], Running).
Proof. vm_compute. reflexivity. Qed.

(** ** C48: process trees *)
Theorem C48_refresh_finds_exactly_the_descendants :
  forall table root, table_ok table -> acyclic_below table root ->
  forall fuel, S (length table) <= fuel ->
  exists tree, refresh fuel table root = Some tree /\ NoDup tree /\
    forall p, In p tree <-> descendant table root p.
Proof. exact refresh_ok. Qed.
Print Assumptions C48_refresh_finds_exactly_the_descendants.
(** The memory use is the sum over the processes of the table that descend from the root, and
    these are the processes that are killed, once each. *)
Theorem C48_memory_and_kill :
  forall table root, table_ok table -> acyclic_below table root ->
  forall descends : process -> bool,
  (forall x, descends x = true <-> descendant table root (p_pid x)) ->
  forall fuel, S (length table) <= fuel ->
  exists tree, refresh fuel table root = Some tree /\
    tree_memory table tree = fold_right N.add 0%N (map p_memory (filter descends table)) /\
    Permutation (tree_killed table tree) (map p_pid (filter descends table)).
Proof. exact memory_and_kill. Qed.
Print Assumptions C48_memory_and_kill.
(** A cycle of parents below the root makes the search endless. *)
Theorem C48_cyclic_table_refuted :
  forall table root p, descendant table root p -> clos_trans pid (child_rel table) p p ->
  forall fuel, refresh fuel table root = None.
Proof. exact cyclic_diverges. Qed.
Print Assumptions C48_cyclic_table_refuted.
Definition example_table : list process :=
  [ {| p_pid := 12%N; p_parent := Some 11%N; p_memory := 7%N |};
    {| p_pid := 10%N; p_parent := Some 1%N; p_memory := 1%N |};
    {| p_pid := 11%N; p_parent := Some 10%N; p_memory := 20%N |};
    {| p_pid := 20%N; p_parent := None; p_memory := 300%N |} ].
Example C48_witness :
  refresh 5 example_table 10%N = Some [10%N; 11%N; 12%N] /\
  tree_memory example_table [10%N; 11%N; 12%N] = 28%N /\ table_ok example_table /\
  acyclic_below example_table 10%N.
Proof.
  split; [reflexivity|]. split; [reflexivity|]. split.
  - unfold table_ok, example_table. cbn [map p_pid]. repeat constructor; simpl; intuition discriminate.
  - assert (Hlt : forall a b, child_rel example_table a b -> (a < b)%N).
    { intros a b (x & Hx & <- & Ep). simpl in Hx.
      destruct Hx as [<-|[<-|[<-|[<-|[]]]]]; cbn in *; try discriminate; injection Ep as <-; lia. }
    intros p _ Hc. apply (N.lt_irrefl p).
    assert (Ht : forall a b, clos_trans pid (child_rel example_table) a b -> (a < b)%N).
    { induction 1 as [a b Hab|a b c _ IH1 _ IH2]; [apply Hlt; easy|lia]. }
    apply Ht. easy.
Qed.

(** ** C58: compiler output *)
(** A compiler that writes more than a pipe holds never ends, whatever the schedule: nobody
    reads the pipe before it ends. *)
Theorem C58_large_output_refuted :
  forall capacity output c, capacity < output -> child_reach capacity (child_new output) c ->
  ch_exited c = false /\ ch_read c = false.
Proof. exact pipe_blocks. Qed.
Print Assumptions C58_large_output_refuted.
Theorem C58_small_output_is_collected :
  forall capacity output, output <= capacity ->
  exists c, child_reach capacity (child_new output) c /\ ch_read c = true.
Proof. exact pipe_finishes. Qed.
Print Assumptions C58_small_output_is_collected.

(** ** C59: errors do not stop the other workers *)
(** Whatever the entries after it, there is an execution where the first one fails, and all
    the others are compiled after the measurement has decided to report the error - and
    their profiles discarded. *)
Theorem C59_error_stops_compilations_refuted :
  forall j js sv, exists clients tr s, flags_clients (flags_new 2) = Ret clients /\
    exec clients (init 2 (j :: js) sv) tr s /\ s_main s = MDone RJob /\
    s_chan s = map MOk js /\ s_written s = [] /\ s_kill s = false /\
    forall j', In j' js -> exists tr1 s1, exec clients (init 2 (j :: js) sv) tr1 s1 /\
      s_main s1 = MJoin RJob /\ compiles s1 1 j'.
Proof.
  intros j js sv. destruct (error_does_not_stop j js sv) as (tr & s & H).
  exists (cls 2), tr, s. split; [apply clients_new|exact H].
Qed.
Print Assumptions C59_error_stops_compilations_refuted.

(** Model of the full-build measurement: cmakeperf/src/measure/{mod,main,worker}.rs.

    Simplifications that apply to the whole file:
    - Threads interleave one atomic action at a time (sequential consistency).  The code
      publishes jobs through the queue and the futex with Release stores and Acquire loads,
      and stop flags only go from running to stopped.
    - A database entry is its identity, a number; so is a row of the CSV file (the entry
      whose profile the row holds).
    - Numbers that the code computes without a realistic risk of overflow (memory sizes,
      job and worker counts) are unbounded; the futex value is a u32 that wraps. *)
From Coq Require Import NArith.
From Verif Require Import Base.
Local Open Scope nat_scope.

(** ** Stop flags (cmakeperf/src/measure/mod.rs:214-277, main.rs:408-471, worker.rs:446-470) *)

(** cmakeperf/src/measure/mod.rs:277, on a 64-bit target *)
Definition bits_per_usize : nat := 64.
Definition usize_max : N := N.ones 64.

(** Bits of a word from the least significant one, and the integer methods used. *)
Definition bits (word : N) : list bool :=
  map (fun i => N.testbit word (N.of_nat i)) (seq 0 bits_per_usize).
Fixpoint leading_run (b : bool) (l : list bool) : nat :=
  match l with x :: r => if Bool.eqb x b then S (leading_run b r) else 0 | [] => 0 end.
Definition count_ones (word : N) : nat := length (filter (fun b => b) (bits word)).
Definition count_zeros (word : N) : nat := bits_per_usize - count_ones word.
Definition trailing_zeros (word : N) : nat := leading_run false (bits word).
Definition trailing_ones (word : N) : nat := leading_run true (bits word).
Definition leading_zeros (word : N) : nat := leading_run false (rev (bits word)).
(** `word >> n`: overflows (panic in debug builds) when n is the number of bits or more.
    (In release builds the shift is by n modulo 64, here 0: enumerate_active then yields
    indices past the end, and indexing `elapsed` panics.) *)
Definition shr (word : N) (n : nat) : outcome N :=
  if n <? bits_per_usize then Ret (N.shiftr word (N.of_nat n)) else Panic.

(** StopFlags: one bit per worker, set as long as it may run *)
Definition flags := list N.

(** cmakeperf/src/measure/mod.rs:223-231 *)
Definition flags_new (len : nat) : flags :=
  let trailing_bits := len mod bits_per_usize in
  repeat usize_max (len / bits_per_usize) ++
  (if trailing_bits =? 0 then [] else [(N.shiftl 1 (N.of_nat trailing_bits) - 1)%N]).

(** StopClient (worker.rs:447-453): the word (by index) and the mask of the flag *)
Definition stop_client := (nat * N)%type.

(** cmakeperf/src/measure/mod.rs:261-271: the masks handed out for one word *)
Fixpoint client_masks (num_iters : nat) (mask : N) : list N :=
  match num_iters with
  | 0 => []
  | S n => mask :: client_masks n (if 1 <? num_iters then N.shiftl mask 1 else mask)
  end.
(** cmakeperf/src/measure/mod.rs:239-273; StopClient::new checks its mask (worker.rs:457-460) *)
Fixpoint flags_clients_from (idx : nat) (words : flags) : outcome (list stop_client) :=
  match words with
  | [] => Ret []
  | word :: rest =>
      let is_last := match rest with [] => true | _ => false end in
      obind (if negb is_last
             then (if N.eqb word usize_max then Ret bits_per_usize else Panic)
             else if leading_zeros word =? count_zeros word then Ret (trailing_ones word)
             else Panic) (fun num_iters =>
        let masks := client_masks num_iters 1 in
        if forallb (fun m => count_ones m =? 1) masks
        then obind (flags_clients_from (S idx) rest) (fun others =>
               Ret (map (fun m => (idx, m)) masks ++ others))
        else Panic)
  end.
Definition flags_clients (words : flags) : outcome (list stop_client) := flags_clients_from 0 words.

(** cmakeperf/src/measure/worker.rs:463-469 *)
Definition must_stop (words : flags) (c : stop_client) : bool :=
  N.eqb (N.land (nth (fst c) words 0%N) (snd c)) 0.

(** cmakeperf/src/measure/main.rs:418-422 *)
Definition num_active (words : flags) : nat := list_sum (map count_ones words).

(** cmakeperf/src/measure/main.rs:430-438: at most one index per bit is produced, [fuel]
    is the number of bits plus one *)
Fixpoint enumerate_word (fuel bit_offset : nat) (word_value : N) : outcome (list nat) :=
  match fuel with
  | 0 => Panic
  | S fuel' =>
      if N.eqb word_value 0 then Ret []
      else
        let offset_after_first_one := trailing_zeros word_value + 1 in
        let bit_offset := bit_offset + offset_after_first_one in
        obind (shr word_value offset_after_first_one) (fun word_value =>
          obind (enumerate_word fuel' bit_offset word_value) (fun rest =>
            Ret (bit_offset - 1 :: rest)))
  end.
(** cmakeperf/src/measure/main.rs:425-440 *)
Fixpoint enumerate_from (word_idx : nat) (words : flags) : outcome (list nat) :=
  match words with
  | [] => Ret []
  | word :: rest =>
      obind (enumerate_word (S bits_per_usize) (word_idx * bits_per_usize) word) (fun here =>
        obind (enumerate_from (S word_idx) rest) (fun others => Ret (here ++ others)))
  end.
Definition enumerate_active (words : flags) : outcome (list nat) := enumerate_from 0 words.

(** Store to an element of a vector; indexing out of bounds panics. *)
Fixpoint set_nth {A} (l : list A) (i : nat) (x : A) : list A :=
  match l, i with
  | [], _ => []
  | _ :: r, 0 => x :: r
  | y :: r, S i' => y :: set_nth r i' x
  end.

(** cmakeperf/src/measure/main.rs:443-449, 466-470 *)
Definition stop (words : flags) (idx : nat) : outcome flags :=
  let word_idx := idx / bits_per_usize in
  let mask := N.shiftl 1 (N.of_nat (idx mod bits_per_usize)) in
  obind (expect (nth_error words word_idx)) (fun old_word =>
    if N.eqb (N.land old_word mask) 0 then Panic
    else Ret (set_nth words word_idx (N.ldiff old_word mask))).

(** cmakeperf/src/measure/main.rs:452-457 *)
Definition stop_all (words : flags) : flags := map (fun _ => 0%N) words.

(** ** Out-of-memory handling (cmakeperf/src/measure/main.rs:251-406) *)

(** main.rs:252-273 (without the references and the refresh settings) *)
Record server := { sv_bkg : nat; sv_margin : N; sv_last_available : N }.
Inductive monitor_status := Running | KilledEveryone.

(** main.rs:390 *)
Definition oom_margin_per_thread : N := 100000000.

(** main.rs:277-290; [available] is the memory seen by the first refresh *)
Definition server_new (concurrency bkg : nat) (available : N) : server :=
  {| sv_bkg := bkg;
     sv_margin := (oom_margin_per_thread * N.of_nat (concurrency + bkg))%N;
     sv_last_available := available |}.

(** main.rs:364-366 *)
Definition assumed_threads (sv : server) (words : flags) : nat := num_active words + sv_bkg sv.

(** u64 division: panics on a zero divisor *)
Definition udiv (a b : N) : outcome N := if N.eqb b 0 then Panic else Ret (a / b)%N.

(** main.rs:316-333; subtraction saturates like N's *)
Definition update_oom_threshold (sv : server) (words : flags) (available : N) : outcome server :=
  let newly_used := (sv_last_available sv - available)%N in
  let sv := {| sv_bkg := sv_bkg sv; sv_margin := sv_margin sv; sv_last_available := available |} in
  if (sv_margin sv <? newly_used)%N then
    let threads := N.of_nat (assumed_threads sv words) in
    obind (udiv (sv_margin sv) threads) (fun _old_margin_per_thread =>
      obind (udiv newly_used threads) (fun q =>
        Ret {| sv_bkg := sv_bkg sv; sv_margin := ((q + 1) * threads)%N;
               sv_last_available := available |}))
  else Ret sv.

(** `Iterator::min_by_key`: the first of the minimal elements *)
Fixpoint min_by_key (key : nat -> nat) (l : list nat) : option nat :=
  match l with
  | [] => None
  | x :: r =>
      match min_by_key key r with
      | None => Some x
      | Some y => if key y <? key x then Some y else Some x
      end
  end.

(** main.rs:336-361.  [elapsed k i] is the time on its job that worker [i] has published
    when the loop is entered for the k-th time.  Every iteration but the last stops a
    worker, hence the fuel of [handle_oom]. *)
Fixpoint oom_loop (fuel k : nat) (elapsed : nat -> nat -> nat) (available : N)
    (sv : server) (words : flags) : outcome (server * flags * monitor_status) :=
  match fuel with
  | 0 => Panic
  | S fuel' =>
      if (available <? sv_margin sv)%N then
        let old_assumed := assumed_threads sv words in
        obind (enumerate_active words) (fun active =>
          obind (expect (min_by_key (elapsed k) active)) (fun youngest =>
            obind (stop words youngest) (fun words =>
              let new_assumed := old_assumed - 1 in
              obind (udiv (sv_margin sv) (N.of_nat old_assumed)) (fun q =>
                let sv := {| sv_bkg := sv_bkg sv; sv_margin := (q * N.of_nat new_assumed)%N;
                             sv_last_available := sv_last_available sv |} in
                if num_active words =? 0 then Ret (sv, words, KilledEveryone)
                else oom_loop fuel' (S k) elapsed available sv words))))
      else Ret (sv, words, Running)
  end.
Definition handle_oom (elapsed : nat -> nat -> nat) (available : N) (sv : server) (words : flags)
  : outcome (server * flags * monitor_status) :=
  oom_loop (S (num_active words)) 0 elapsed available sv words.

(** main.rs:293-297 *)
Definition monitor_update (elapsed : nat -> nat -> nat) (available : N) (sv : server) (words : flags)
  : outcome (server * flags * monitor_status) :=
  obind (update_oom_threshold sv words available) (fun sv =>
    handle_oom elapsed available sv words).

(** ** Threads *)
Definition job := N.

(** mod.rs:148,151 *)
Definition futex_finished : N := 0.
Definition futex_initial : N := 1.
(** main.rs:222-224 *)
Definition futex_next (v : N) : N :=
  if (v =? 2 ^ 32 - 1)%N then (futex_initial + 1)%N else (v + 1)%N.

(** What workers send: `Result<UnitProfile, JobError>`.  The errors other than Killed do not
    carry the job; it is recorded here so that its fate can be followed. *)
Inductive msg := MOk (j : job) | MKilled (j : job) | MErr (j : job).
Definition msg_job (m : msg) : job := match m with MOk j | MKilled j | MErr j => j end.

(** Where a worker is (worker.rs:22-97, 306-371); [last] is its `last_futex_value`.  Local
    queues start empty (mod.rs:133) and are only filled by stealing from another one, so
    that they stay empty: only the global queue is modelled. *)
Inductive worker :=
| WWaiting (last : N)                  (* wait(), line 316: about to load the futex *)
| WCalling (last : N)                  (* wait(), line 320: about to call atomic_wait::wait *)
| WSleeping (last : N)                 (* blocked in atomic_wait::wait *)
| WLooking (last : N)                  (* next(), line 340: about to look for a job *)
| WTook (last : N) (j : job)           (* process_job, line 58 *)
| WRunning (last : N) (j : job)        (* process_job, lines 62-96 *)
| WSending (last : N) (m : msg)        (* run, line 36 *)
| WPanicking (j : job)                 (* run, line 43: WorkerPanicked is about to be sent *)
| WDone (panicked : bool).

(** One action of a worker, given the futex and whether its stop flag is raised; it may
    change the queue and the channel of results. *)
Inductive worker_step (futex : N) (stopped : bool)
  : list job -> list msg -> worker -> list job -> list msg -> worker -> Prop :=
| w_signal q c last :                  (* worker.rs:316-318 *)
    futex <> last ->
    worker_step futex stopped q c (WWaiting last) q c (WLooking futex)
| w_no_signal q c last :               (* worker.rs:316-320 *)
    futex = last ->
    worker_step futex stopped q c (WWaiting last) q c (WCalling last)
| w_sleep q c last :                   (* worker.rs:320: the value is as expected, block *)
    futex = last ->
    worker_step futex stopped q c (WCalling last) q c (WSleeping last)
| w_no_sleep q c last :                (* worker.rs:320: the value has changed, return *)
    futex <> last ->
    worker_step futex stopped q c (WCalling last) q c (WWaiting last)
| w_take q c last j :                  (* worker.rs:342-363 *)
    worker_step futex stopped (j :: q) c (WLooking last) q c (WTook last j)
| w_empty c last :                     (* worker.rs:366-367, 309 *)
    last <> futex_finished ->
    worker_step futex stopped [] c (WLooking last) [] c (WWaiting last)
| w_finished c last :                  (* worker.rs:309-311, 368 *)
    last = futex_finished ->
    worker_step futex stopped [] c (WLooking last) [] c (WDone false)
| w_refuse q c last j :                (* worker.rs:58-60: switch_job *)
    stopped = true ->
    worker_step futex stopped q c (WTook last j) q c (WSending last (MKilled j))
| w_start q c last j :                 (* worker.rs:62 *)
    stopped = false ->
    worker_step futex stopped q c (WTook last j) q c (WRunning last j)
| w_start_fails q c last j :           (* worker.rs:62, 128-145 *)
    stopped = false ->
    worker_step futex stopped q c (WTook last j) q c (WSending last (MErr j))
| w_killed q c last j :                (* worker.rs:73-75: keep_job *)
    stopped = true ->
    worker_step futex stopped q c (WRunning last j) q c (WSending last (MKilled j))
| w_ok q c last j :                    (* worker.rs:80-96 *)
    worker_step futex stopped q c (WRunning last j) q c (WSending last (MOk j))
| w_fails q c last j :                 (* worker.rs:81, 87 *)
    worker_step futex stopped q c (WRunning last j) q c (WSending last (MErr j))
| w_panics q c last j :                (* worker.rs:30, 42: anything in process_job *)
    worker_step futex stopped q c (WRunning last j) q c (WPanicking j)
| w_send_ok q c last j :               (* worker.rs:36 *)
    worker_step futex stopped q c (WSending last (MOk j)) q (c ++ [MOk j]) (WLooking last)
| w_send_killed q c last j :           (* worker.rs:36-39 *)
    worker_step futex stopped q c (WSending last (MKilled j)) q (c ++ [MKilled j]) (WDone false)
| w_send_err q c last j :              (* worker.rs:36-39 *)
    worker_step futex stopped q c (WSending last (MErr j)) q (c ++ [MErr j]) (WDone false)
| w_send_panic q c j :                 (* worker.rs:43-46 *)
    worker_step futex stopped q c (WPanicking j) q (c ++ [MErr j]) (WDone true).

(** main.rs:128-152 *)
Inductive measure_result := ROk | RJob | ROutOfMemory | RCsv | RIo | RPanicked | RKilled.

(** Where the main thread is (main.rs:65-121). *)
Inductive main_state :=
| MStart                               (* line 68: about to set the futex *)
| MStartWake                           (* line 68: about to wake everyone *)
| MLoop                                (* line 70 *)
| MRecv                                (* line 80 *)
| MPush (j : job)                      (* line 84, push: about to push on the queue *)
| MPushSignal                          (* push: about to change the futex *)
| MPushWake                            (* push: about to wake one worker *)
| MClose (r : measure_result)          (* the sender is dropped: about to change the futex *)
| MCloseWake (r : measure_result)      (* about to wake everyone *)
| MJoin (r : measure_result)           (* end of thread::scope *)
| MDone (r : measure_result).

Record sys := {
  s_queue : list job;
  s_futex : N;
  s_flags : flags;
  s_chan : list msg;
  s_workers : list worker;
  s_main : main_state;
  s_server : server;
  s_kill : bool;
  s_remaining : nat;
  s_written : list job;                (* rows of the CSV file *)
  s_callbacks : nat;                   (* calls of step_done *)
  s_failed : list job }.               (* jobs whose error has been received *)

(** atomic_wait::wake_all and wake_one (the latter wakes any one of the sleepers) *)
Definition wake (w : worker) : worker :=
  match w with WSleeping last => WWaiting last | _ => w end.
Inductive wake_one : list worker -> list worker -> Prop :=
| wake_one_none ws : (forall last, ~ In (WSleeping last) ws) -> wake_one ws ws
| wake_one_some ws i last : nth_error ws i = Some (WSleeping last) ->
    wake_one ws (set_nth ws i (WWaiting last)).

Definition panicked (w : worker) : bool := match w with WDone p => p | _ => false end.
Definition done (w : worker) : bool := match w with WDone _ => true | _ => false end.

(** State updates *)
Definition to_main (s : sys) (m : main_state) : sys :=
  {| s_queue := s_queue s; s_futex := s_futex s; s_flags := s_flags s; s_chan := s_chan s;
     s_workers := s_workers s; s_main := m; s_server := s_server s; s_kill := s_kill s;
     s_remaining := s_remaining s; s_written := s_written s; s_callbacks := s_callbacks s;
     s_failed := s_failed s |}.
Definition with_futex (s : sys) (v : N) : sys :=
  {| s_queue := s_queue s; s_futex := v; s_flags := s_flags s; s_chan := s_chan s;
     s_workers := s_workers s; s_main := s_main s; s_server := s_server s; s_kill := s_kill s;
     s_remaining := s_remaining s; s_written := s_written s; s_callbacks := s_callbacks s;
     s_failed := s_failed s |}.
Definition with_queue (s : sys) (q : list job) : sys :=
  {| s_queue := q; s_futex := s_futex s; s_flags := s_flags s; s_chan := s_chan s;
     s_workers := s_workers s; s_main := s_main s; s_server := s_server s; s_kill := s_kill s;
     s_remaining := s_remaining s; s_written := s_written s; s_callbacks := s_callbacks s;
     s_failed := s_failed s |}.
Definition with_chan (s : sys) (c : list msg) : sys :=
  {| s_queue := s_queue s; s_futex := s_futex s; s_flags := s_flags s; s_chan := c;
     s_workers := s_workers s; s_main := s_main s; s_server := s_server s; s_kill := s_kill s;
     s_remaining := s_remaining s; s_written := s_written s; s_callbacks := s_callbacks s;
     s_failed := s_failed s |}.
Definition with_workers (s : sys) (ws : list worker) : sys :=
  {| s_queue := s_queue s; s_futex := s_futex s; s_flags := s_flags s; s_chan := s_chan s;
     s_workers := ws; s_main := s_main s; s_server := s_server s; s_kill := s_kill s;
     s_remaining := s_remaining s; s_written := s_written s; s_callbacks := s_callbacks s;
     s_failed := s_failed s |}.
Definition with_monitor (s : sys) (f : flags) (sv : server) : sys :=
  {| s_queue := s_queue s; s_futex := s_futex s; s_flags := f; s_chan := s_chan s;
     s_workers := s_workers s; s_main := s_main s; s_server := sv; s_kill := s_kill s;
     s_remaining := s_remaining s; s_written := s_written s; s_callbacks := s_callbacks s;
     s_failed := s_failed s |}.
Definition with_kill (s : sys) : sys :=
  {| s_queue := s_queue s; s_futex := s_futex s; s_flags := s_flags s; s_chan := s_chan s;
     s_workers := s_workers s; s_main := s_main s; s_server := s_server s; s_kill := true;
     s_remaining := s_remaining s; s_written := s_written s; s_callbacks := s_callbacks s;
     s_failed := s_failed s |}.
Definition row_written (s : sys) (j : job) : sys :=
  {| s_queue := s_queue s; s_futex := s_futex s; s_flags := s_flags s; s_chan := s_chan s;
     s_workers := s_workers s; s_main := s_main s; s_server := s_server s; s_kill := s_kill s;
     s_remaining := s_remaining s; s_written := s_written s ++ [j]; s_callbacks := s_callbacks s;
     s_failed := s_failed s |}.
Definition step_done (s : sys) : sys :=
  {| s_queue := s_queue s; s_futex := s_futex s; s_flags := s_flags s; s_chan := s_chan s;
     s_workers := s_workers s; s_main := s_main s; s_server := s_server s; s_kill := s_kill s;
     s_remaining := s_remaining s - 1; s_written := s_written s;
     s_callbacks := S (s_callbacks s); s_failed := s_failed s |}.
Definition job_failed (s : sys) (j : job) : sys :=
  {| s_queue := s_queue s; s_futex := s_futex s; s_flags := s_flags s; s_chan := s_chan s;
     s_workers := s_workers s; s_main := s_main s; s_server := s_server s; s_kill := s_kill s;
     s_remaining := s_remaining s; s_written := s_written s; s_callbacks := s_callbacks s;
     s_failed := s_failed s ++ [j] |}.

(** Who acts.  [Idle] marks the actions that only wait for something: a trip through the
    main loop without a message, a poll of a running compilation, and the external request
    to stop. *)
Inductive actor := Main | Worker (i : nat) | Spurious | Idle.

(** One action of the measurement (main.rs:48-124). *)
Section System.
  (** the stop clients handed to the workers, in order (mod.rs:205-211) *)
  Variable clients : list stop_client.
  Definition stopped (f : flags) (i : nat) : bool :=
    match nth_error clients i with Some c => must_stop f c | None => true end.

  Inductive step : actor -> sys -> sys -> Prop :=
  (* workers *)
  | st_worker s i w q' c' w' :
      nth_error (s_workers s) i = Some w ->
      worker_step (s_futex s) (stopped (s_flags s) i) (s_queue s) (s_chan s) w q' c' w' ->
      step (Worker i) s (with_workers (with_chan (with_queue s q') c') (set_nth (s_workers s) i w'))
  | st_spurious s i last :             (* atomic_wait::wait may return at any time *)
      nth_error (s_workers s) i = Some (WSleeping last) ->
      step Spurious s (with_workers s (set_nth (s_workers s) i (WWaiting last)))
  | st_poll s i last j :               (* worker.rs:70-79 without a request to stop *)
      nth_error (s_workers s) i = Some (WRunning last j) ->
      stopped (s_flags s) i = false ->
      step Idle s s
  (* the user drops the Measurement: mod.rs:84 *)
  | st_kill s : step Idle s (with_kill s)
  (* main thread *)
  | st_start s :                       (* main.rs:68, 205-209 *)
      s_main s = MStart ->
      step Main s (to_main (with_futex s (futex_initial + 1)%N) MStartWake)
  | st_start_wake s :                  (* main.rs:210 *)
      s_main s = MStartWake ->
      step Main s (to_main (with_workers s (map wake (s_workers s))) MLoop)
  | st_finish s r :                    (* main.rs:70, 120-121: flush may fail *)
      s_main s = MLoop -> s_remaining s = 0 -> r = ROk \/ r = RIo ->
      step Main s (to_main s (MClose r))
  | st_killed s :                      (* main.rs:72-76 *)
      s_main s = MLoop -> s_remaining s <> 0 -> s_kill s = true ->
      step Main s (to_main (with_monitor s (stop_all (s_flags s)) (s_server s)) (MClose RKilled))
  | st_iterate s :                     (* main.rs:70-72 *)
      s_main s = MLoop -> s_remaining s <> 0 -> s_kill s = false ->
      step Idle s (to_main s MRecv)
  | st_recv_killed s j c :             (* main.rs:83-85 *)
      s_main s = MRecv -> s_chan s = MKilled j :: c ->
      step Main s (to_main (with_chan s c) (MPush j))
  | st_recv_err s j c :                (* main.rs:89 *)
      s_main s = MRecv -> s_chan s = MErr j :: c ->
      step Main s (to_main (job_failed (with_chan s c) j) (MClose RJob))
  | st_recv_ok s j c :                 (* main.rs:96-98 *)
      s_main s = MRecv -> s_chan s = MOk j :: c ->
      step Main s (to_main (step_done (row_written (with_chan s c) j)) MLoop)
  | st_recv_csv s j c :                (* main.rs:96: serialize may fail *)
      s_main s = MRecv -> s_chan s = MOk j :: c ->
      step Main s (to_main (job_failed (with_chan s c) j) (MClose RCsv))
  | st_recv_callback_panics s j c :    (* main.rs:97: step_done may panic *)
      s_main s = MRecv -> s_chan s = MOk j :: c ->
      step Main s (to_main (row_written (with_chan s c) j) (MClose RPanicked))
  | st_timeout_running s elapsed available sv f :     (* main.rs:102-103 *)
      s_main s = MRecv -> s_chan s = [] ->
      monitor_update elapsed available (s_server s) (s_flags s) = Ret (sv, f, Running) ->
      step Idle s (to_main (with_monitor s f sv) MLoop)
  | st_timeout_oom s elapsed available sv f :         (* main.rs:104 *)
      s_main s = MRecv -> s_chan s = [] ->
      monitor_update elapsed available (s_server s) (s_flags s) = Ret (sv, f, KilledEveryone) ->
      step Main s (to_main (with_monitor s f sv) (MClose ROutOfMemory))
  | st_timeout_panics s elapsed available f :         (* main.rs:102: some workers may have
                                                         been stopped before the panic *)
      s_main s = MRecv -> s_chan s = [] ->
      monitor_update elapsed available (s_server s) (s_flags s) = Panic ->
      Forall2 (fun a b => N.land a b = a) f (s_flags s) ->
      step Main s (to_main (with_monitor s f (s_server s)) (MClose RPanicked))
  | st_push s j :                      (* main.rs:215 *)
      s_main s = MPush j ->
      step Main s (to_main (with_queue s (s_queue s ++ [j])) MPushSignal)
  | st_push_signal s :                 (* main.rs:216-225, 236-241 *)
      s_main s = MPushSignal ->
      step Main s (to_main (with_futex s (futex_next (s_futex s))) MPushWake)
  | st_push_wake s ws :                (* main.rs:226 *)
      s_main s = MPushWake -> wake_one (s_workers s) ws ->
      step Main s (to_main (with_workers s ws) MLoop)
  | st_close s r :                     (* main.rs:231, 246 *)
      s_main s = MClose r ->
      step Main s (to_main (with_futex s futex_finished) (MCloseWake r))
  | st_close_wake s r :                (* main.rs:232 *)
      s_main s = MCloseWake r ->
      step Main s (to_main (with_workers s (map wake (s_workers s))) (MJoin r))
  | st_join s r :                      (* std::thread::scope, main.rs:33, 48, 122-123 *)
      s_main s = MJoin r -> forallb done (s_workers s) = true ->
      step Main s (to_main s (MDone (if existsb panicked (s_workers s) then RPanicked else r))).

  (** main.rs:42-67 *)
  Definition init (n : nat) (jobs : list job) (sv : server) : sys :=
    {| s_queue := jobs; s_futex := futex_initial; s_flags := flags_new n; s_chan := [];
       s_workers := repeat (WWaiting futex_initial) n; s_main := MStart; s_server := sv;
       s_kill := false; s_remaining := length jobs; s_written := []; s_callbacks := 0;
       s_failed := [] |}.

  (** Executions, with who acted *)
  Inductive exec (s0 : sys) : list actor -> sys -> Prop :=
  | exec_nil : exec s0 [] s0
  | exec_snoc tr s a s' : exec s0 tr s -> step a s s' -> exec s0 (tr ++ [a]) s'.
End System.

(** ** Process trees (cmakeperf/src/measure/worker.rs:147-229) *)
Definition pid := N.
(** System::processes: pid, parent and memory of each process, in the iteration order of
    the hash map *)
Record process := { p_pid : pid; p_parent : option pid; p_memory : N }.

Definition is_child_of (parent : pid) (p : process) : bool :=
  match p_parent p with Some q => N.eqb q parent | None => false end.

(** worker.rs:193-203: one generation of parents *)
Definition children_of (table : list process) (parents : list pid) : list pid :=
  flat_map (fun parent => map p_pid (filter (is_child_of parent) table)) parents.

(** worker.rs:191-206; None if the loop is still going after [fuel] generations *)
Fixpoint refresh_loop (fuel : nat) (table : list process) (parents tree : list pid)
  : option (list pid) :=
  match parents with
  | [] => Some tree
  | _ :: _ =>
      match fuel with
      | 0 => None
      | S fuel' => refresh_loop fuel' table (children_of table parents) (tree ++ parents)
      end
  end.
(** worker.rs:178-207, for a tree whose root was set *)
Definition refresh (fuel : nat) (table : list process) (root : pid) : option (list pid) :=
  refresh_loop fuel table [root] [].

(** worker.rs:210-212: System::process looks a pid up *)
Definition tree_processes (table : list process) (tree : list pid) : list process :=
  flat_map (fun p => match find (fun x => N.eqb (p_pid x) p) table with
                     | Some x => [x] | None => [] end) tree.
(** worker.rs:215-217 *)
Definition tree_memory (table : list process) (tree : list pid) : N :=
  fold_right N.add 0%N (map p_memory (tree_processes table tree)).
(** worker.rs:220-228: the processes signalled *)
Definition tree_killed (table : list process) (tree : list pid) : list pid :=
  map p_pid (tree_processes table tree).

(** ** Output of a compilation (worker.rs:61-87, 128-145, 248-257)

    The compiler writes to a pipe of bounded capacity, and blocks when it is full.  The
    worker waits for the exit of the process and only then reads the pipe. *)
Record child := { ch_todo : nat; ch_pipe : nat; ch_exited : bool; ch_read : bool }.
Inductive child_step (capacity : nat) : child -> child -> Prop :=
| ch_write todo pipe : pipe < capacity ->
    child_step capacity {| ch_todo := S todo; ch_pipe := pipe; ch_exited := false; ch_read := false |}
      {| ch_todo := todo; ch_pipe := S pipe; ch_exited := false; ch_read := false |}
| ch_exit pipe :
    child_step capacity {| ch_todo := 0; ch_pipe := pipe; ch_exited := false; ch_read := false |}
      {| ch_todo := 0; ch_pipe := pipe; ch_exited := true; ch_read := false |}
| ch_collect pipe :                    (* worker.rs:80, 87: wait_timeout returned, read to the end *)
    child_step capacity {| ch_todo := 0; ch_pipe := pipe; ch_exited := true; ch_read := false |}
      {| ch_todo := 0; ch_pipe := 0; ch_exited := true; ch_read := true |}.
Definition child_new (output : nat) : child :=
  {| ch_todo := output; ch_pipe := 0; ch_exited := false; ch_read := false |}.

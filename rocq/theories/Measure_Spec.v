(** Specification vocabulary for the measurement. *)
From Coq Require Import NArith Relations.
From Verif Require Import Base Measure_Model.
Local Open Scope nat_scope.

(** ** Sets of running workers *)

(** The workers of [0..n-1] that are not in a list of stopped ones, in increasing order. *)
Definition running (n : nat) (stopped : list nat) : list nat :=
  filter (fun i => negb (existsb (Nat.eqb i) stopped)) (seq 0 n).

(** The flags of [n] workers after stopping some of them in turn. *)
Inductive stops (n : nat) : list nat -> flags -> Prop :=
| stops_nil : stops n [] (flags_new n)
| stops_one l f i f' : stops n l f -> stop f i = Ret f' -> stops n (l ++ [i]) f'.

(** Worker 63 is the only running one among 0-63, or 127 among 64-127, etc. *)
Definition only_last_of_word (n : nat) (stopped : list nat) : Prop :=
  exists k, 64 * k + 63 < n /\
    forall b, b < 64 -> (In (64 * k + b) (running n stopped) <-> b = 63).

(** ** The out-of-memory killer in terms of the set of running workers *)

(** [i] has spent the least time on its job, and is the first such worker in [l]. *)
Definition youngest (elapsed : nat -> nat) (l : list nat) (i : nat) : Prop :=
  exists l1 l2, l = l1 ++ i :: l2 /\
    (forall j, In j l1 -> elapsed i < elapsed j) /\ (forall j, In j l2 -> elapsed i <= elapsed j).

(** A round of the killer: workers are stopped, youngest first, while less memory than the
    margin is available; the margin is kept proportional to the number of threads. *)
Inductive kill_round (elapsed : nat -> nat -> nat) (available : N) (bkg : nat)
  : nat -> N -> list nat -> N -> list nat -> monitor_status -> Prop :=
| kr_enough k margin l :
    (margin <= available)%N -> kill_round elapsed available bkg k margin l margin l Running
| kr_last k margin i :
    (available < margin)%N ->
    kill_round elapsed available bkg k margin [i]
      (margin / N.of_nat (1 + bkg) * N.of_nat bkg) [] KilledEveryone
| kr_kill k margin l1 i l2 margin' l' st :
    (available < margin)%N -> youngest (elapsed k) (l1 ++ i :: l2) i -> l1 ++ l2 <> [] ->
    kill_round elapsed available bkg (S k)
      (margin / N.of_nat (S (length (l1 ++ l2)) + bkg) * N.of_nat (length (l1 ++ l2) + bkg))
      (l1 ++ l2) margin' l' st ->
    kill_round elapsed available bkg k margin (l1 ++ i :: l2) margin' l' st.

(** The margin after a memory check, before any kill: raised (to a multiple of the number
    of threads) if more memory than that was used since the last check. *)
Definition adapted_margin (sv : server) (threads : nat) (available : N) : N :=
  let newly_used := (sv_last_available sv - available)%N in
  if (sv_margin sv <? newly_used)%N
  then ((newly_used / N.of_nat threads + 1) * N.of_nat threads)%N else sv_margin sv.

(** ** Jobs *)

(** The job a worker has taken and not reported on. *)
Definition held (w : worker) : list job :=
  match w with
  | WTook _ j | WRunning _ j | WPanicking j => [j]
  | WSending _ m => [msg_job m]
  | _ => []
  end.
(** The job the main thread is about to give back to the workers. *)
Definition in_hand (m : main_state) : list job := match m with MPush j => [j] | _ => [] end.
(** All jobs, wherever they are. *)
Definition all_jobs (s : sys) : list job :=
  s_queue s ++ concat (map held (s_workers s)) ++ map msg_job (s_chan s) ++ in_hand (s_main s)
  ++ s_written s ++ s_failed s.

(** States of a measurement of [jobs] by [n] workers. *)
Definition reachable (n : nat) (jobs : list job) (s : sys) : Prop :=
  exists clients sv tr, flags_clients (flags_new n) = Ret clients /\
    exec clients (init n jobs sv) tr s.

(** How often something happened *)
Definition count (p : actor -> bool) (tr : list actor) : nat := length (filter p tr).
Definition productive (a : actor) : bool := match a with Main | Worker _ => true | _ => false end.
Definition is_spurious (a : actor) : bool := match a with Spurious => true | _ => false end.

(** ** Process trees *)
Definition child_rel (table : list process) (parent child : pid) : Prop :=
  exists p, In p table /\ p_pid p = child /\ p_parent p = Some parent.
Definition descendant (table : list process) : pid -> pid -> Prop :=
  clos_refl_trans pid (child_rel table).
(** pids identify processes *)
Definition table_ok (table : list process) : Prop := NoDup (map p_pid table).
Definition acyclic_below (table : list process) (root : pid) : Prop :=
  forall p, descendant table root p -> ~ clos_trans pid (child_rel table) p p.

(** ** Compiler output *)
Definition child_reach (capacity : nat) : child -> child -> Prop :=
  clos_refl_trans child (child_step capacity).

(** ** Progress *)

(** A worker that will act without waiting for anyone: it holds a job, looks for one, or is
    about to notice that the futex has changed. *)
Definition awake (futex : N) (w : worker) : Prop :=
  match w with
  | WWaiting last | WCalling last => last <> futex
  | WSleeping _ | WDone _ => False
  | _ => True
  end.
(** The worker threads are more than a futex value can tell apart only in theory. *)
Definition few (n : nat) : Prop := 1 <= n /\ (N.of_nat n + 3 < 2 ^ 32)%N.

(** ** Endings *)

(** The main loop has been left with this result. *)
Definition ending (r : measure_result) (m : main_state) : Prop :=
  m = MClose r \/ m = MCloseWake r \/ m = MJoin r \/ m = MDone r.

(** Entry [j] is being compiled by worker [i]. *)
Definition compiles (s : sys) (i : nat) (j : job) : Prop :=
  exists l, nth_error (s_workers s) i = Some (WRunning l j).

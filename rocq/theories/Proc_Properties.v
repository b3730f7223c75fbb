(** The processing thread of the text user interface: C52, C53.

    The theorems hold for any trace library (functions [parse], [render], [metadata] and
    [activities]) in which parsing an argument has no visible effect on other answers
    ([stable]); Proc_Proofs2.v shows that this holds of arguments that are interned. *)
From Coq Require Import String.
From Verif Require Import Base Asylum_Model Proc_Model Proc_Spec Proc_Proofs Proc_Proofs2.
Local Open Scope nat_scope. Local Open Scope bool_scope. Local Open Scope list_scope.

(** C52: after any history of instructions, a reply is the one that a fresh copy of the trace
    of the last load gives for the requested width. *)
Theorem C52_answers_are_current :
  forall trace arg info parse render metadata activities
    (l : list (instruction trace)) rs w i w' r,
    (forall t, In (LoadTrace (Some t)) l -> stable trace arg info parse render metadata activities t) ->
    worker_run trace arg info parse render metadata activities worker_init l = (rs, Ret w) ->
    worker_step trace arg info parse render metadata activities w i = Ret (w', r) ->
    (exists o, i = LoadTrace o) \/
    exists t, last_load trace l (Some t) /\ fresh_answer trace arg info parse render metadata activities t i r.
Proof. exact answers_fresh. Qed.
Print Assumptions C52_answers_are_current.

(** The caches introduce no crash: if the library does not panic on a request about the trace
    of the last load, neither does the thread. *)
Theorem C52_no_crash_of_its_own :
  forall trace arg info parse render metadata activities
    (l : list (instruction trace)) rs w i t,
    (forall t, In (LoadTrace (Some t)) l -> stable trace arg info parse render metadata activities t) ->
    worker_run trace arg info parse render metadata activities worker_init l = (rs, Ret w) ->
    last_load trace l (Some t) -> library_ok trace arg info parse render metadata activities t i ->
    worker_step trace arg info parse render metadata activities w i <> Panic.
Proof. exact no_panic. Qed.
Print Assumptions C52_no_crash_of_its_own.

(** But a request that is not preceded by a successful load, or that follows a failed one,
    crashes it: never answers about an older trace. *)
Theorem C52_no_stale_trace :
  forall trace arg info parse render metadata activities
    (l : list (instruction trace)) rs w i,
    worker_run trace arg info parse render metadata activities worker_init l = (rs, Ret w) ->
    (forall t, ~ last_load trace l (Some t)) -> (forall o, i <> LoadTrace o) ->
    worker_step trace arg info parse render metadata activities w i = Panic.
Proof. exact panic_without_trace. Qed.
Print Assumptions C52_no_stale_trace.

Theorem C52_interned_arguments_are_stable :
  forall (hash : str -> N) (probe : N -> N -> bool), (forall h, probe h h = true) ->
  forall texts, stable itrace key N (iparse hash probe) irender imetadata iactivities (iload texts).
Proof. exact iload_stable. Qed.
Print Assumptions C52_interned_arguments_are_stable.

(** C53: what the UI thread receives for a request, under any schedule of the two threads, is
    the right answer to this very request, about the last trace whose load was requested
    before it. *)
Theorem C53_replies_match_requests :
  forall trace arg info parse render metadata activities y i r,
    system_reach trace arg info parse render metadata activities y ->
    (forall t, In (LoadTrace (Some t)) (y_sent y) -> stable trace arg info parse render metadata activities t) ->
    In (i, r) (y_seen y) ->
    exists before after t, y_sent y = before ++ i :: after /\ last_load trace before (Some t) /\
      fresh_answer trace arg info parse render metadata activities t i r.
Proof. exact fetched_is_right. Qed.
Print Assumptions C53_replies_match_requests.

(** Replies come in the order of requests, one for each: the requests already answered are the
    ones sent, except the one being waited for if any. *)
Theorem C53_one_reply_each :
  forall trace arg info parse render metadata activities y,
    system_reach trace arg info parse render metadata activities y -> y_worker y <> Panic ->
    let is_request i := match i with LoadTrace _ => false | _ => true end in
    filter is_request (y_sent y) =
      map fst (y_seen y) ++ match y_waiting y with Some (i, _) => [i] | None => [] end.
Proof. exact one_reply_each. Qed.
Print Assumptions C53_one_reply_each.

(** And they come: as long as the UI thread waits and the worker has not crashed, something can
    happen, and whatever happens is the reply, a crash, or the end of an earlier instruction. *)
Theorem C53_replies_come :
  forall trace arg info parse render metadata activities y,
    system_reach trace arg info parse render metadata activities y ->
    y_waiting y <> None -> y_worker y <> Panic ->
    (exists y', system_step trace arg info parse render metadata activities y y') /\
    (forall y', system_step trace arg info parse render metadata activities y y' ->
       (y_waiting y' = None /\ length (y_seen y') = S (length (y_seen y))) \/
       y_worker y' = Panic \/ length (y_instructions y') < length (y_instructions y)).
Proof. exact reply_comes. Qed.
Print Assumptions C53_replies_come.

(** A session: two loads, descriptions at two widths, some of them from caches. *)
Definition demo_run :=
  worker_run itrace key N (iparse (fun s => N.of_nat (List.length s)) N.eqb) irender imetadata iactivities.
Example C52_witness :
  fst (demo_run worker_init
    [ LoadTrace (Some (iload [of_string "vector"; of_string "string"]));
      DescribeActivities [0%N; 1%N; 0%N] 4; DescribeActivities [1%N; 0%N] 4; DescribeActivities [0%N] 3;
      DescribeActivity 1 3;
      LoadTrace (Some (iload [of_string "map"]));
      DescribeActivities [0%N] 3; LoadTrace None ]) =
  [ RLoaded true; RDescs [of_string "vect"; of_string "stri"; of_string "vect"];
    RDescs [of_string "stri"; of_string "vect"]; RDescs [of_string "vec"];
    RString (of_string "string") true; RLoaded true; RDescs [of_string "map"]; RLoaded false ].
Proof. reflexivity. Qed.
Example C52_witness_stable t : In (LoadTrace (Some t))
    [LoadTrace (Some (iload [of_string "vector"; of_string "string"])); DescribeActivities [0%N] 4] ->
  stable itrace key N (iparse (fun s => N.of_nat (List.length s)) N.eqb) irender imetadata iactivities t.
Proof. intros [H|[H|[]]]; [|discriminate]. injection H as <-. apply iload_stable, N.eqb_refl. Qed.

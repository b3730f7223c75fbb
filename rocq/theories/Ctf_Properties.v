(** Properties C69 and C70 (from JSON documents to traces). *)
From Coq Require Import String Permutation.
From Verif Require Import Base Asylum_Model Tree_Model Tree_Spec Load_Model Load_Spec Load_Proofs3 Load_Properties
  Ctf_Model Ctf_Spec Ctf_Proofs2 Ctf_Proofs3 Ctf_Proofs4 Ctf_Proofs5 Ctf_Proofs6 Ctf_Proofs7.
Local Open Scope list_scope.

(** In all theorems [time] and [ident] give the value of numbers, [iter] is the iteration order
    of hash maps, [us] is one microsecond in the unit of [time], and [up], [al] are std's Unicode
    tables. *)

(** C69.  A document loads exactly when it is an object whose events and other fields read as
    such, and these fit together. *)
Theorem C69_loads_exactly :
  forall time ident iter us up al, (forall l, Permutation l (iter l)) -> forall d ct,
  from_document time ident iter us up al d = Loaded ct <->
  exists td, plain_document time ident d td /\ bot_reads (td_extra td) (ct_bot ct) /\
   one_pid (td_events td) /\
   (forall p, ct_pid ct = Some p <-> (1 < p)%Z /\ exists e, In e (td_events td) /\ event_pid e = Some p) /\
   exists ks, Forall2 (reads us (infer_from_detail up al)) (td_events td) ks /\
     tree_of (f_activities ks) (ct_activities ct) /\
     ct_globals ct = f_globals ks /\ NoDup (map fst (f_globals ks)) /\
     f_processes ks = [ct_process ct] /\
     f_threads ks = match ct_thread ct with Some t => [t] | None => [] end.
Proof.
  intros time ident iter us up al P d ct. rewrite (loaded_iff time ident iter P us up al d ct).
  split; intros [td [D H]]; exists td; (split; [exact D|]).
  - apply (C18_loads_exactly us up al td ct (plain_distinct time ident d td D)). exact H.
  - apply (C18_loads_exactly us up al td ct (plain_distinct time ident d td D)).
    split; [|exact H]. destruct D as [l [ev D]]. apply D.
Qed.
Print Assumptions C69_loads_exactly.

(** Other documents: those that are not of the Common Trace Format... *)
Theorem C69_format_errors_exactly :
  forall time ident iter us up al, (forall l, Permutation l (iter l)) -> forall d,
  from_document time ident iter us up al d = CtfError <-> ~ document time ident d.
Proof. intros time ident iter us up al P. exact (format_errors time ident iter P us up al). Qed.
Print Assumptions C69_format_errors_exactly.

(** ... and those that use more of it than clang does. *)
Theorem C69_metadata_errors_exactly :
  forall time ident iter us up al, (forall l, Permutation l (iter l)) -> forall d,
  from_document time ident iter us up al d = LoadError UnexpectedTraceMetadata <->
  document time ident d /\ ~ exists td, plain_document time ident d td.
Proof. intros time ident iter us up al P. exact (metadata_errors time ident iter P us up al). Qed.
Print Assumptions C69_metadata_errors_exactly.

(** The only documents whose loading panics: no event at all, or an activity whose argument is
    an empty detail. *)
Theorem C69_panics_only_if :
  forall time ident iter us up al, (forall l, Permutation l (iter l)) -> forall d,
  from_document time ident iter us up al d = Panicked ->
  exists l events, d = DObj l /\ In (key "traceEvents", DArr events) l /\
    (events = [] \/
     exists f a n, In (DObj f) events /\ In (key "ph", DStr (key "X")) f
       /\ In (key "ts", DNum n) f /\ (us < time n)%Z
       /\ In (key "args", DObj a) f
       /\ final a (key "detail") (DStr [])
       /\ forall k v, In (k, v) a -> k = key "detail").
Proof. intros time ident iter us up al P. exact (panic_cause time ident iter P us up al). Qed.
Print Assumptions C69_panics_only_if.

Theorem C69_no_event_panics_refuted :
  forall time ident iter us up al, (forall l, Permutation l (iter l)) ->
  from_document time ident iter us up al (DObj [(key "traceEvents", DArr [])]) = Panicked.
Proof.
  intros time ident iter us up al P. unfold from_document.
  replace (to_trace_data time ident iter (DObj [(key "traceEvents", DArr [])]))
    with (Some (mk_td [] true (iter []))) by reflexivity.
  destruct (iter []) as [|e r] eqn:E; [reflexivity|].
  specialize (P []). rewrite E in P. apply Permutation_nil in P. discriminate.
Qed.
Print Assumptions C69_no_event_panics_refuted.

(** A stack trace that is not well-formed is as good as none, although one that is makes the
    trace be rejected. *)
Theorem C69_malformed_stack_trace_ignored :
  forall time ident iter us up al before after l l' pre k v post,
  (k = key "sf" \/ k = key "esf") /\ ~ frame_id v \/ (k = key "stack" \/ k = key "estack") /\ ~ texts v ->
  (forall k', In k' [key "sf"; key "stack"; key "esf"; key "estack"] -> absent pre k' /\ absent post k') ->
  from_document time ident iter us up al
    (DObj (l ++ (key "traceEvents", DArr (before ++ DObj (pre ++ (k, v) :: post) :: after)) :: l')) =
  from_document time ident iter us up al
    (DObj (l ++ (key "traceEvents", DArr (before ++ DObj (pre ++ post) :: after)) :: l')).
Proof.
  intros time ident iter us up al before after l l' pre k v post H Ab.
  apply event_for_event. exact (malformed_ignored time ident iter pre k v post H Ab).
Qed.
Print Assumptions C69_malformed_stack_trace_ignored.

(** C70.  The order of fields in objects does not matter (and neither does that of hash maps):
    same trace, same absence of a trace, same panic, except for the choice between two stack
    traces. *)
Theorem C70_field_order_is_irrelevant :
  forall time ident us up al d d', reordered d d' ->
  forall iter iter', (forall l, Permutation l (iter l)) -> (forall l, Permutation l (iter' l)) ->
  (forall ct, from_document time ident iter us up al d = Loaded ct <->
              from_document time ident iter' us up al d' = Loaded ct)
  /\ (from_document time ident iter us up al d = Panicked <->
      from_document time ident iter' us up al d' = Panicked)
  /\ (from_document time ident iter us up al d = CtfError <->
      from_document time ident iter' us up al d' = CtfError).
Proof.
  intros time ident us up al d d' H iter iter' P P'.
  exact (reordered_outcome time ident iter iter' P P' us up al d d' H).
Qed.
Print Assumptions C70_field_order_is_irrelevant.

(** Fields that mean nothing to the program are ignored, in events and in the document. *)
Theorem C70_unknown_event_field_ignored :
  forall time ident iter us up al before after l l' pre k v post,
  ~ In k [key "ph"; key "pid"; key "tid"; key "ts"; key "name"; key "cat"; key "tts"; key "args";
          key "dur"; key "tdur"; key "sf"; key "stack"; key "esf"; key "estack"] ->
  from_document time ident iter us up al
    (DObj (l ++ (key "traceEvents", DArr (before ++ DObj (pre ++ (k, v) :: post) :: after)) :: l')) =
  from_document time ident iter us up al
    (DObj (l ++ (key "traceEvents", DArr (before ++ DObj (pre ++ post) :: after)) :: l')).
Proof.
  intros time ident iter us up al before after l l' pre k v post H.
  apply event_for_event. exact (unknown_ignored time ident iter pre k v post H).
Qed.
Print Assumptions C70_unknown_event_field_ignored.

Theorem C70_unknown_document_field_ignored :
  forall time ident iter us up al, (forall l, Permutation l (iter l)) -> forall pre k v post,
  ~ In k [key "traceEvents"; key "displayTimeUnit"; key "systemTraceEvents"; key "powerTraceAsString";
          key "stackFrames"; key "samples"; key "controllerTraceDataKey"; key "beginningOfTime"] ->
  from_document time ident iter us up al (DObj (pre ++ (k, v) :: post)) =
  from_document time ident iter us up al (DObj (pre ++ post)).
Proof.
  intros time ident iter us up al P pre k v post N.
  apply (unknown_document_field time ident iter P us up al pre k v post).
  - intros H. apply N. change (In k (standard ++ [key "beginningOfTime"])). apply in_or_app. now left.
  - intros ->. apply N. do 7 right. now left.
Qed.
Print Assumptions C70_unknown_document_field_ignored.

(** A field that is there twice makes the document be rejected. *)
Theorem C70_duplicate_document_field_rejected :
  forall time ident iter us up al pre k v mid w post,
  In k [key "traceEvents"; key "displayTimeUnit"; key "systemTraceEvents"; key "powerTraceAsString";
        key "stackFrames"; key "samples"; key "controllerTraceDataKey"] ->
  from_document time ident iter us up al (DObj (pre ++ (k, v) :: mid ++ (k, w) :: post)) = CtfError.
Proof.
  intros time ident iter us up al pre k v mid w post Hk.
  apply (duplicate_rejected time ident iter us up al k); [exact Hk|].
  intros S. exact (S pre v mid w post eq_refl).
Qed.
Print Assumptions C70_duplicate_document_field_rejected.

Theorem C70_duplicate_event_field_rejected :
  forall time ident iter us up al, (forall l, Permutation l (iter l)) ->
  forall l l' before after pre k v mid w post,
  In k [key "ph"; key "pid"; key "tid"; key "ts"; key "name"; key "cat"; key "tts"; key "args"] ->
  from_document time ident iter us up al
    (DObj (l ++ (key "traceEvents",
                 DArr (before ++ DObj (pre ++ (k, v) :: mid ++ (k, w) :: post) :: after)) :: l')) = CtfError.
Proof.
  intros time ident iter us up al P l l' before after pre k v mid w post Hk.
  eapply (duplicate_in_event time ident iter P us up al); [|  |exact Hk].
  - apply in_or_app. right. left. reflexivity.
  - intros S. exact (S pre v mid w post eq_refl).
Qed.
Print Assumptions C70_duplicate_event_field_rejected.

(** ** Concrete documents *)

Definition int (z : Z) : doc := DNum (NInt z).
Definition str_ (s : string) : doc := DStr (of_string s).
Definition f_ (k : string) (v : doc) : str * doc := (of_string k, v).
Definition micros (n : number) : Z := match n with NInt z => z | NFloat f => Z.of_N f end.
Definition label (n : number) : N := match n with NInt z => Z.to_N z | NFloat f => f end.
Definition same_order (l : args) : args := l.

Definition sample_activity (extra : fields) : doc :=
  DObj ([f_ "pid" (int 42); f_ "tid" (int 42); f_ "ph" (str_ "X"); f_ "ts" (int 100); f_ "dur" (int 50);
         f_ "name" (str_ "Source"); f_ "args" (DObj [f_ "detail" (str_ "/a/b.h")])] ++ extra).
Definition sample_process (tag : doc) : doc :=
  DObj [f_ "cat" (str_ ""); f_ "pid" (int 42); f_ "tid" (int 42); f_ "ts" (int 0); f_ "ph" (str_ "M");
        f_ "name" tag; f_ "args" (DObj [f_ "name" (str_ "clang-14")])].
Definition sample_document (extra : fields) (tag : doc) : doc :=
  DObj [f_ "traceEvents" (DArr [sample_activity extra; sample_process tag]); f_ "beginningOfTime" (int 7)].
Definition load_sample (d : doc) : loading :=
  from_document micros label same_order 1 (fun _ => false) (fun _ => true) d.

Example C69_witness : exists ct,
  load_sample (sample_document [] (str_ "process_name")) = Loaded ct
  /\ ct_process ct = key "clang-14" /\ ct_pid ct = Some 42%Z /\ ct_bot ct = Some 7%N
  /\ map (fun e => s_dur (snd e)) (all_activities (ct_activities ct)) = [50%Z].
Proof. eexists. split; [vm_compute; reflexivity|]. vm_compute. repeat split; reflexivity. Qed.
(** The kind of a metadata event may be a number. *)
Example C69_number_witness :
  load_sample (sample_document [] (int 0)) = load_sample (sample_document [] (str_ "process_name")).
Proof. vm_compute. reflexivity. Qed.
(** A well-formed stack trace is rejected, a malformed one is ignored. *)
Example C69_stack_witness :
  (exists e, load_sample (sample_document [f_ "sf" (int 3)] (str_ "process_name")) = LoadError e)
  /\ load_sample (sample_document [f_ "sf" (DBool true)] (str_ "process_name"))
     = load_sample (sample_document [] (str_ "process_name")).
Proof. split; [eexists|]; vm_compute; reflexivity. Qed.
Example C69_panic_witness :
  load_sample (DObj [f_ "traceEvents" (DArr [])]) = Panicked.
Proof. vm_compute. reflexivity. Qed.

(** Samples: as an object, as an array, and without weight *)
Example C69_samples_witness :
  let with_samples l := load_sample (DObj [f_ "traceEvents" (DArr [sample_activity []]); f_ "samples" (DArr l)]) in
  let good := [f_ "tid" (int 1); f_ "ts" (int 2); f_ "name" (str_ "cycles"); f_ "sf" (str_ "f"); f_ "weight" (int 3)] in
  with_samples [DObj good; DArr [DNull; int 1; int 2; str_ "cycles"; int 5; int 3]] = LoadError UnexpectedTraceMetadata
  /\ with_samples [DObj (removelast good)] = CtfError.
Proof. vm_compute. split; reflexivity. Qed.

Example C70_witness :
  reordered (sample_document [f_ "dummy" DNull] (str_ "process_name"))
    (DObj [f_ "beginningOfTime" (int 7);
           f_ "traceEvents" (DArr [sample_activity [f_ "dummy" DNull]; sample_process (str_ "process_name")])]).
Proof.
  unfold sample_document.
  apply (r_swap [] (f_ "traceEvents" _) (f_ "beginningOfTime" _) []). split; [discriminate|].
  intros id inline [E|[E|[]]]; injection E as <- <-; split; intros [F _]; discriminate.
Qed.
(** Two stack traces: the first one counts. *)
Theorem C70_two_stack_traces_refuted :
  ~ (forall time ident iter us up al l l' before after a b post,
     let doc_with f := DObj (l ++ (key "traceEvents", DArr (before ++ DObj f :: after)) :: l') in
     fst a <> fst b -> (forall m, Permutation m (iter m)) ->
     forall ct, from_document time ident iter us up al (doc_with (a :: b :: post)) = Loaded ct ->
                from_document time ident iter us up al (doc_with (b :: a :: post)) = Loaded ct).
Proof.
  intros H.
  pose (rest := [f_ "pid" (int 42); f_ "tid" (int 42); f_ "ph" (str_ "X"); f_ "ts" (int 100); f_ "dur" (int 50);
                 f_ "name" (str_ "Frontend")]).
  specialize (H micros label same_order 1%Z (fun _ => false) (fun _ => true) [] [] []
    [sample_process (str_ "process_name")] (f_ "sf" DNull) (f_ "stack" (DArr [])) rest).
  cbn beta zeta in H. specialize (H ltac:(discriminate) (fun m => Permutation_refl m)).
  match type of H with forall ct, ?x = _ -> _ => assert (E : exists ct, x = Loaded ct) end.
  { eexists. vm_compute. reflexivity. }
  destruct E as [ct E]. specialize (H ct E). vm_compute in H. discriminate.
Qed.
Print Assumptions C70_two_stack_traces_refuted.
Example C70_duplicate_witness :
  load_sample (DObj [f_ "traceEvents" (DArr []); f_ "traceEvents" (DArr [])]) = CtfError
  /\ load_sample (DObj [f_ "traceEvents" (DArr [sample_activity [f_ "tid" (int 42)]])]) = CtfError.
Proof. split; vm_compute; reflexivity. Qed.

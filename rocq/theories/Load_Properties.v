(** Properties C18-C22 and C61 (trace loading). *)
From Coq Require Import String Permutation.
From Verif Require Import Base Asylum_Model Asylum_Spec Asylum_Proofs4 Tree_Model Tree_Spec Load_Model Load_Spec
  Load_Proofs Load_Proofs2 Load_Proofs3 Load_Proofs4 Load_Proofs5.
Local Open Scope list_scope.

(** In all theorems [us] is one microsecond in the unit of the timestamps and [up], [al] are
    std's Unicode tables `is_uppercase`, `is_alphanumeric`. *)

(** C18.  A trace loads exactly when its events read as facts that fit together, and is made
    of these facts. *)
Theorem C18_loads_exactly :
  forall us up al td ct, distinct_data td ->
  (from_data us up al td = Ok ct <->
   td_plain td = true /\ bot_reads (td_extra td) (ct_bot ct) /\
   one_pid (td_events td) /\
   (forall p, ct_pid ct = Some p <-> (1 < p)%Z /\ exists e, In e (td_events td) /\ event_pid e = Some p) /\
   exists ks, Forall2 (reads us (infer_from_detail up al)) (td_events td) ks /\
     tree_of (f_activities ks) (ct_activities ct) /\
     ct_globals ct = f_globals ks /\ NoDup (map fst (f_globals ks)) /\
     f_processes ks = [ct_process ct] /\
     f_threads ks = match ct_thread ct with Some t => [t] | None => [] end).
Proof. exact from_data_iff. Qed.
Print Assumptions C18_loads_exactly.

(** Name, start and duration of the activities, in the order of the file *)
Theorem C18_activities_are_the_complete_events_above_1us :
  forall us up al td ct, distinct_data td -> from_data us up al td = Ok ct ->
  map (fun e => (Some (activity_name (a_id (s_act (snd e)))), s_start (snd e), s_dur (snd e)))
      (all_activities (ct_activities ct)) = timed_events us (td_events td).
Proof. exact loaded_activities. Qed.
Print Assumptions C18_activities_are_the_complete_events_above_1us.

(** The activities that are known, and what their argument is. *)
Theorem C18_known_activities_have_the_documented_arguments : forall name t,
  In (name, t) activities <-> In name (known_names t).
Proof. exact known_names_spec. Qed.
Print Assumptions C18_known_activities_have_the_documented_arguments.

Theorem C18_global_stats_are_the_other_complete_events :
  forall us up al td ct, distinct_data td -> from_data us up al td = Ok ct ->
  forall n g, lookup n (ct_globals ct) = Some g <->
    exists d, In (EvX d (gs_dur g) None None) (td_events td) /\ (de_ts d <= us)%Z /\
      de_name d = Some (of_string "Total " ++ n) /\ reports_count d (gs_count g).
Proof. exact loaded_globals. Qed.
Print Assumptions C18_global_stats_are_the_other_complete_events.

Theorem C18_names_are_those_of_the_metadata :
  forall us up al td ct, distinct_data td -> from_data us up al td = Ok ct ->
  (forall n, n = ct_process ct <-> exists pid x tid o, In (EvM (ProcessName pid n x tid o)) (td_events td)) /\
  (forall n, ct_thread ct = Some n <-> exists tid x pid o, In (EvM (ThreadName tid n x pid o)) (td_events td)).
Proof. exact loaded_names. Qed.
Print Assumptions C18_names_are_those_of_the_metadata.

(** C19 *)
Theorem C19_rejects_inconsistent_traces :
  forall us up al td ct, distinct_data td -> from_data us up al td = Ok ct ->
  one_pid (td_events td) /\
  (forall a b c p1 n1 x1 t1 o1 p2 n2 x2 t2 o2,
     td_events td <> a ++ EvM (ProcessName p1 n1 x1 t1 o1) :: b ++ EvM (ProcessName p2 n2 x2 t2 o2) :: c) /\
  (forall a b c p1 n1 x1 t1 o1 p2 n2 x2 t2 o2,
     td_events td <> a ++ EvM (ThreadName p1 n1 x1 t1 o1) :: b ++ EvM (ThreadName p2 n2 x2 t2 o2) :: c) /\
  (forall a b c d1 u1 v1 w1 d2 u2 v2 w2, (de_ts d1 <= us)%Z -> (de_ts d2 <= us)%Z -> de_name d1 = de_name d2 ->
     td_events td <> a ++ EvX d1 u1 v1 w1 :: b ++ EvX d2 u2 v2 w2 :: c) /\
  (exists p n x t o, In (EvM (ProcessName p n x t o)) (td_events td)) /\
  (forall d, ~ In (EvB d) (td_events td) /\ ~ In (EvE d) (td_events td)) /\
  (forall k, ~ In (EvM (OtherMetadata k)) (td_events td)).
Proof. exact rejects. Qed.
Print Assumptions C19_rejects_inconsistent_traces.

(** ... and the error tells what is wrong with the first event that could not be taken in. *)
Theorem C19_errors_describe_the_first_offending_event :
  forall us up al td e, distinct_data td -> from_data us up al td = Err e ->
  (td_plain td = false /\ e = UnexpectedTraceMetadata) \/
  (exists v, lookup (of_string "beginningOfTime") (td_extra td) = Some v /\ as_f64 v = None /\
     e = InvalidBeginningOfTime v) \/
  (e = NoProcessName /\ exists ks, Forall2 (reads us (infer_from_detail up al)) (td_events td) ks /\
     f_processes ks = []) \/
  (exists pre ev post ks, td_events td = pre ++ ev :: post /\
     Forall2 (reads us (infer_from_detail up al)) pre ks /\
     describes us (infer_from_detail up al) pre ks ev e).
Proof. exact from_data_err. Qed.
Print Assumptions C19_errors_describe_the_first_offending_event.

(** C20 *)
Theorem C20_loading_panics_only_on_empty_lists_and_details :
  forall us up al td, distinct_data td -> from_data us up al td = Boom ->
  td_events td = [] \/
  exists d dur, In (EvX d dur None None) (td_events td) /\ (us < de_ts d)%Z /\ only_detail (de_args d) [].
Proof. exact from_data_boom. Qed.
Print Assumptions C20_loading_panics_only_on_empty_lists_and_details.

Theorem C20_empty_event_list_refuted :
  forall us up al, from_data us up al (mk_td [] true []) = Boom.
Proof. reflexivity. Qed.
Print Assumptions C20_empty_event_list_refuted.

(** An activity the program knows to take a detail, or does not know at all, with an empty one,
    panics whatever the rest of the trace. *)
Theorem C20_empty_detail_refuted :
  forall us up al name pid ts dur rest, (us < ts)%Z ->
  (forall t, In (name, t) activities -> needs_detail t) ->
  from_data us up al (mk_td
    (EvX (mk_de pid pid ts (Some name) None None (Some [(of_string "detail", JStr [])]) None) dur None None :: rest)
    true []) = Boom.
Proof.
  intros us up al name pid ts dur rest Hts Hn. unfold from_data. cbn [td_plain negb td_extra lookup rbind td_events].
  cbn [load_events load_event de_pid de_ts ls_init ls_pid merge_pid rbind].
  apply Z.ltb_lt in Hts. rewrite Hts. cbn [activity_stat_parse].
  rewrite Z.eqb_refl, Bool.orb_true_r.
  assert (E : activity_parse up al name (Some [(of_string "detail", JStr [])]) = Boom)
    by (apply activity_parse_boom; split; [reflexivity|exact Hn]).
  rewrite E. reflexivity.
Qed.
Print Assumptions C20_empty_detail_refuted.

(** C21 *)
Theorem C21_map_order_is_irrelevant :
  forall us up al td td', same_data td td' ->
  (forall ct, from_data us up al td = Ok ct <-> from_data us up al td' = Ok ct) /\
  (from_data us up al td = Boom <-> from_data us up al td' = Boom).
Proof.
  intros us up al td td' H.
  destruct (same_from_data us up al _ _ H) as [H1 H2].
  destruct (same_from_data us up al _ _ (same_sym _ _ H)) as [H3 H4].
  split; [intros ct; split; [apply H1|apply H3]|split; [exact H2|exact H4]].
Qed.
Print Assumptions C21_map_order_is_irrelevant.

(** The error that is reported does depend on it. *)
Theorem C21_which_error_is_reported_refuted :
  ~ (forall us up al td td', same_data td td' -> from_data us up al td = from_data us up al td').
Proof.
  intros H.
  set (a1 := (of_string "count", JNull)). set (a2 := (of_string "x", JNull)).
  set (td l := mk_td [EvX (mk_de 5 5 0 (Some (of_string "Total x")) None None (Some l) None) 1 None None] true []).
  specialize (H 1%Z (fun _ => true) (fun _ => true) (td [a1; a2]) (td [a2; a1])).
  assert (same_data (td [a1; a2]) (td [a2; a1])).
  { split; [reflexivity|]. split; [split; [constructor|constructor]|].
    constructor; [|constructor]. constructor. repeat split; try reflexivity.
    - repeat constructor; simpl; intuition discriminate.
    - apply perm_swap. }
  specialize (H H0). vm_compute in H. discriminate.
Qed.
Print Assumptions C21_which_error_is_reported_refuted.

(** C22.  Whatever the state of the interners, no relative path is reported as an error:
    it panics. *)
Theorem C22_relative_paths_panic_refuted :
  forall EK pe dm comp_hash seq_hash probe cw w lb st d,
  ~ absolute d -> d <> of_string "[module]" ->
  fst (parse_arg EK pe dm comp_hash seq_hash probe cw w lb (mk_raw TyFilePathOrModule (Some d)) st) = Boom.
Proof.
  intros EK pe dm ch sh pr cw w lb st d Ha Hm. rewrite parse_arg_file.
  destruct (str_eqb_spec d k_module) as [E|_]; [contradiction|].
  rewrite path_relative by exact Ha. reflexivity.
Qed.
Print Assumptions C22_relative_paths_panic_refuted.

(** The other cases are right: "[module]" is told apart, and an absolute path is interned. *)
Theorem C22_absolute_paths_and_modules :
  forall EK pe dm comp_hash seq_hash probe cw w lb st,
  parse_arg EK pe dm comp_hash seq_hash probe cw w lb
    (mk_raw TyFilePathOrModule (Some (of_string "[module]"))) st = (Ok PModule, st) /\
  forall d r st', absolute d ->
    pi_intern comp_hash seq_hash probe cw w lb st d = (Ret r, st') ->
    exists k, r = PKey k /\
      parse_arg EK pe dm comp_hash seq_hash probe cw w lb (mk_raw TyFilePathOrModule (Some d)) st
      = (Ok (PFilePath k), st').
Proof.
  intros EK pe dm ch sh pr cw w lb st. split; [reflexivity|].
  intros d r st' [rest ->] H. rewrite parse_arg_file, H.
  destruct (str_eqb_spec (slash :: rest) k_module) as [E|_]; [discriminate|].
  destruct r as [k|p]; [exists k; auto|].
  exfalso. unfold pi_intern in H. change (path_is_relative (slash :: rest)) with false in H. cbv iota in H.
  destruct (pi_loop _ _ _ _ _ _) as [[[[]|] cs] e]; [|discriminate].
  destruct (en_intern _ _ _ _ _ _) as [[k|] sq]; discriminate.
Qed.
Print Assumptions C22_absolute_paths_and_modules.

(** C61 *)
Theorem C61_loaded_arguments_are_well_formed :
  forall us up al td ct, distinct_data td -> from_data us up al td = Ok ct ->
  forall i s, In (i, s) (all_activities (ct_activities ct)) ->
  let r := a_arg (s_act s) in
  (ra_detail r = None -> ~ needs_detail (ra_type r)) /\
  (ra_detail r <> None -> accepts_detail (ra_type r)).
Proof. exact loaded_args. Qed.
Print Assumptions C61_loaded_arguments_are_well_formed.

Theorem C61_argument_parsing_panics_only_on_bad_paths_and_entities :
  forall us up al td ct, distinct_data td -> from_data us up al td = Ok ct ->
  forall i s, In (i, s) (all_activities (ct_activities ct)) ->
  forall EK pe dm comp_hash seq_hash probe cw w lb st,
  fst (parse_arg EK pe dm comp_hash seq_hash probe cw w lb (a_arg (s_act s)) st) = Boom ->
  (exists d, ra_type (a_arg (s_act s)) = TyFilePathOrModule /\ ra_detail (a_arg (s_act s)) = Some d /\
     (fst (pi_intern comp_hash seq_hash probe cw w lb st d) = Panic \/
      d <> of_string "[module]" /\ path_has_root d = false)) \/
  (exists t, pe t = Panic).
Proof.
  intros us up al td ct Hd H i s Hin EK pe dm ch sh pr cw w lb st.
  apply parse_arg_boom. eapply loaded_args; eassumption.
Qed.
Print Assumptions C61_argument_parsing_panics_only_on_bad_paths_and_entities.

(** What is shown of an argument, and why nothing is: [entity] is the C++ parser, [dm] the
    demangler, the file table is the path interner. *)
Theorem C61_arguments_are_shown_as_what_they_say :
  forall EK pe dm comp_hash seq_hash probe cw w lb r st p,
  fst (parse_arg EK pe dm comp_hash seq_hash probe cw w lb r st) = Ok p <->
  argument_shown (fun s o => pe s = Ret o) dm
    (fun d k => fst (pi_intern comp_hash seq_hash probe cw w lb st d) = Ret (PKey k)) r p.
Proof. exact arg_ok. Qed.
Print Assumptions C61_arguments_are_shown_as_what_they_say.

Theorem C61_rejected_arguments :
  forall EK pe dm comp_hash seq_hash probe cw w lb r st e,
  fst (parse_arg EK pe dm comp_hash seq_hash probe cw w lb r st) = Err e <->
  argument_rejected (fun s o => pe s = Ret o) r e.
Proof. exact arg_err. Qed.
Print Assumptions C61_rejected_arguments.

(** A symbol in parentheses, one that does not demangle, the main function, a loop with a name *)
Example C61_shown_witness :
  let pe (s : str) : outcome (option str) := Ret (if str_eqb s (of_string "foo()") then Some s else None) in
  let dm (s : str) := if str_eqb s (of_string "_Z3foov") then Some (of_string "foo()") else None in
  argument_shown (fun s o => pe s = Ret o) dm (fun _ _ => False)
    (mk_raw TySymbol (Some (of_string "(_Z3foov)"))) (PSymbol (PSParsed (of_string "foo()"))) /\
  argument_shown (fun s o => pe s = Ret o) dm (fun _ _ => False)
    (mk_raw TySymbolOpt (Some (of_string "_Z?"))) (PSymbol (PSMaybeMangled (of_string "_Z?"))) /\
  argument_shown (fun s o => pe s = Ret o) dm (fun _ _ => False)
    (mk_raw TySymbol (Some (of_string "main"))) (PSymbol (PSDemangled (of_string "main"))) /\
  argument_rejected (fun s o => pe s = Ret o)
    (mk_raw TyUnnamedLoop (Some (of_string "L1"))) (UnexpectedLoopName (of_string "L1")).
Proof.
  repeat split.
  - apply as_symbol; [now left|]. apply (sr_parsed _ _ _ (of_string "_Z3foov") (of_string "foo()")); [now left|now left|reflexivity].
  - apply as_symbol; [right; now left|]. apply sr_raw; try discriminate; [|reflexivity]. right. split; [reflexivity|discriminate].
  - apply as_symbol; [now left|]. apply (sr_text _ _ _ (of_string "main")); [|right; repeat split; now left|reflexivity].
    right. split; [reflexivity|discriminate].
  - apply ar_loop; [now left|discriminate].
Qed.

(** C62 *)
Theorem C62_guess_is_what_it_looks_like :
  forall up al d t, infer_from_detail up al d = Some t <-> taken_for up al d t.
Proof. exact infer_is. Qed.
Print Assumptions C62_guess_is_what_it_looks_like.

Theorem C62_every_non_empty_detail_has_a_guess :
  forall up al d, infer_from_detail up al d = None <-> d = [].
Proof. exact infer_none. Qed.
Print Assumptions C62_every_non_empty_detail_has_a_guess.

Theorem C62_guessed_types_fit :
  forall up al d t, infer_from_detail up al d = Some t ->
  (t = TyFilePathOrModule -> absolute d \/ d = of_string "[module]") /\
  (t = TyUnnamedLoop -> d = of_string "<unnamed loop>") /\
  t <> TyNothing /\ t <> TySymbolOpt /\ t <> TyUnnamedLoopOpt.
Proof. exact infer_fits. Qed.
Print Assumptions C62_guessed_types_fit.

Theorem C62_guessed_arguments_parse :
  forall up al d t, infer_from_detail up al d = Some t ->
  forall EK pe dm comp_hash seq_hash probe cw w lb st r st',
  parse_arg EK pe dm comp_hash seq_hash probe cw w lb (mk_raw t (Some d)) st = (r, st') ->
  match r with
  | Ok _ => True
  | Err e => t = TyCppEntity /\ e = BadCppEntity d /\ pe d = Ret None
  | Boom => (exists s, pe s = Panic) \/ fst (pi_intern comp_hash seq_hash probe cw w lb st d) = Panic
  end.
Proof. exact infer_parses. Qed.
Print Assumptions C62_guessed_arguments_parse.

(** Uppercase words are text, unless some character is out of place. *)
Example C62_witness :
  infer_from_detail (fun c => N.leb 65 c && N.leb c 90)%bool
    (fun c => (N.leb 65 c && N.leb c 90) || (N.leb 97 c && N.leb c 122) || (N.leb 48 c && N.leb c 57))%bool
    (of_string "X86 DAG->DAG Instruction Selection") = Some TyString /\
  infer_from_detail (fun c => N.leb 65 c && N.leb c 90)%bool
    (fun c => (N.leb 65 c && N.leb c 90) || (N.leb 97 c && N.leb c 122) || (N.leb 48 c && N.leb c 57))%bool
    (of_string "Foo<int>::bar") = Some TyCppEntity /\
  infer_from_detail (fun _ => false) (fun _ => false) (of_string "(_Z3foov)") = Some TySymbol /\
  infer_from_detail (fun _ => false) (fun _ => false) (of_string "/usr/x.h") = Some TyFilePathOrModule.
Proof. vm_compute. repeat split; reflexivity. Qed.

(** A trace that loads: two nested activities, one unknown, a global statistic, both names. *)
Definition ascii_up (c : chr) : bool := (N.leb 65 c && N.leb c 90)%bool.
Definition ascii_al (c : chr) : bool :=
  (ascii_up c || (N.leb 97 c && N.leb c 122) || (N.leb 48 c && N.leb c 57))%bool.
Definition sample_trace : trace_data :=
  let x name ts dur a := EvX (mk_de 42 42 ts (Some (of_string name)) None None a None) dur None None in
  let det s := Some [(of_string "detail", JStr (of_string s))] in
  mk_td [
    x "Source"%string 10%Z 5%Z (det "/a/b.h"%string);
    x "NewPass"%string 20%Z 3%Z (det "X86 DAG->DAG Selection"%string);
    x "Frontend"%string 5%Z 30%Z None;
    EvX (mk_de 42 7 0 (Some (of_string "Total Source")) None None
      (Some [(of_string "avg ms", JNum None 3); (of_string "count", JNum (Some 2%N) 2)]) None) 5 None None;
    EvM (ProcessName 42 (of_string "clang-14") [] (Some 42%Z) (mk_mo (Some []) (Some 0%Z) None));
    EvM (ThreadName 42 (of_string "clang") [] (Some 42%Z) (mk_mo (Some []) (Some 0%Z) None))
  ] true [(of_string "beginningOfTime", JNum None 9)].
Example C18_witness :
  distinct_data sample_trace /\
  exists ct, from_data 1 ascii_up ascii_al sample_trace = Ok ct /\
    ct_process ct = of_string "clang-14" /\ ct_thread ct = Some (of_string "clang") /\
    ct_pid ct = Some 42%Z /\ ct_bot ct = Some 9%N /\
    ct_globals ct = [(of_string "Source", mk_gs 5 2)] /\
    map (fun e => a_arg (s_act (snd e))) (all_activities (ct_activities ct)) =
      [mk_raw TyFilePathOrModule (Some (of_string "/a/b.h"));
       mk_raw TyString (Some (of_string "X86 DAG->DAG Selection")); mk_raw TyNothing None] /\
    root_activities (ct_activities ct) = Ret [2].
Proof.
  split.
  - repeat constructor; simpl; intuition discriminate.
  - eexists. split; [vm_compute; reflexivity|]. vm_compute. repeat split; reflexivity.
Qed.
Example C19_witness : exists e,
  from_data 1 ascii_up ascii_al (mk_td (td_events sample_trace ++ td_events sample_trace) true []) = Err e.
Proof. eexists. vm_compute. reflexivity. Qed.
Example C20_witness :
  from_data 1 ascii_up ascii_al (mk_td
    [EvX (mk_de 1 1 2 (Some (of_string "Source")) None None (Some [(of_string "detail", JStr [])]) None) 1 None None]
    true []) = Boom.
Proof. vm_compute. reflexivity. Qed.

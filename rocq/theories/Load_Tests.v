(** The unit tests of clang-time-trace (activities, global statistics, metadata, activity tree,
    loading), replayed on the model; see Cpp_Tests.v for what this is for.

    Times count tenths of a microsecond.  Not replayed: deserialisation itself (the values of
    the tests are written as deserialised), the symbol demangler. *)
From Coq Require Import String.
From Verif Require Import Base Asylum_Model Tree_Model Load_Model.
Local Open Scope nat_scope.
Local Open Scope bool_scope.
Local Open Scope list_scope.

Local Notation "' s" := (of_string s) (at level 0, s at level 0).

(** Unicode's tables on ASCII *)
Definition upper (c : chr) : bool := (N.leb 65 c && N.leb c 90)%bool.
Definition alnum (c : chr) : bool :=
  (upper c || (N.leb 97 c && N.leb c 122) || (N.leb 48 c && N.leb c 57))%bool.

(** ** stats/activity/argument.rs:586-627 *)
Example infer_test :
  Forall (fun c => infer_from_detail upper alnum (of_string (fst c)) = Some (snd c))
  [("_ZNSt6vectorIfSaIfEE6insertEN9__gnu_cxx17__normal_iteratorIPKfS1_EERS4_", TySymbol);
   ("__cxx_global_var_init", TySymbol); ("__cxx_global_var_init.8", TySymbol);
   ("main", TySymbol); ("_GLOBAL__sub_I_AdaptiveMultiVertexFinderTests.cpp", TySymbol);
   ("<unnamed loop>", TyUnnamedLoop); ("/test.cpp", TyFilePathOrModule);
   ("Prologue/Epilogue Insertion & Frame Finalization", TyString);
   ("Expand memcmp() to load/stores", TyString); ("Post-Dominator Tree Construction", TyString);
   ("X86 DAG->DAG Instruction Selection", TyString); ("Lower AMX type for load/store", TyString);
   ("Live DEBUG_VALUE analysis", TyString); ("double", TyCppEntity);
   ("ZeroFieldKalmanAlignment_invoker", TyCppEntity)]%string.
Proof. repeat (apply Forall_cons; [vm_compute; reflexivity|]); apply Forall_nil. Qed.

(** :459-584, with the entity parser and the demangler given by the cases of the tests *)
Definition entity_parser (s : str) : outcome (option str) := Ret (Some s).
Definition demangler (s : str) : option str :=
  if str_eqb s '"_ZN4Acts4Test29comb_kalman_filter_zero_field11test_methodEv"
  then Some '"Acts::Test::comb_kalman_filter_zero_field::test_method()" else None.
Definition arg_of (ty : arg_type) (detail : option str) : res argument_error (parsed_arg str) :=
  fst (parse_arg str entity_parser demangler (fun _ => 0%N) (fun _ => 0%N) (fun _ _ => false)
         32 32 8 (mk_raw ty detail) pi_new).
Example parse_argument_test :
  arg_of TyNothing None = Ok PNothing /\
  arg_of TyString (Some '"X86 DAG->DAG Instruction Selection")
    = Ok (PString '"X86 DAG->DAG Instruction Selection") /\
  (exists k, arg_of TyFilePathOrModule
               (Some '"/mnt/acts/Core/include/Acts/TrackFinder/CombinatorialKalmanFilter.hpp")
             = Ok (PFilePath k)) /\
  arg_of TyCppEntity (Some '"Acts::Test::MeasurementCreator")
    = Ok (PCppEntity '"Acts::Test::MeasurementCreator") /\
  Forall (fun ty =>
    arg_of ty (Some '"_ZN4Acts4Test29comb_kalman_filter_zero_field11test_methodEv")
      = Ok (PSymbol (PSParsed '"Acts::Test::comb_kalman_filter_zero_field::test_method()")) /\
    arg_of ty (Some '"__cxx_global_var_init.1")
      = Ok (PSymbol (PSMaybeMangled '"__cxx_global_var_init.1"))) [TySymbol; TySymbolOpt] /\
  arg_of TySymbolOpt None = Ok PNothing /\
  Forall (fun ty => arg_of ty (Some '"<unnamed loop>") = Ok PUnnamedLoop)
    [TyUnnamedLoop; TyUnnamedLoopOpt] /\
  arg_of TyUnnamedLoopOpt None = Ok PNothing.
Proof. repeat (split || constructor || eexists); vm_compute; reflexivity. Qed.

(** ** stats/activity/mod.rs:480-793 *)
Definition parse := activity_parse upper alnum.
Definition parse_stat := activity_stat_parse upper alnum.
Definition event (good : bool) (pid tid : Z) (name : option str) (cat : option (list str))
  (ts : Z) (tts : option Z) (args : option args) (stack : option N) (dur : Z) (tdur : option Z)
  (end_stack : option N) : trace_event :=
  let d := mk_de pid tid ts name cat tts args stack in
  if good then EvX d dur tdur end_stack else EvB d.
(** Results, compared by computation *)
Definition same_str : forall a b : str, {a = b} + {a <> b} := list_eq_dec N.eq_dec.
Definition same_optional {A} (d : forall a b : A, {a = b} + {a <> b})
  : forall a b : option A, {a = b} + {a <> b}.
Proof. decide equality. Defined.
Fixpoint same_json (a b : json) {struct a} : {a = b} + {a <> b}.
Proof.
  assert (D : forall x y : list json, {x = y} + {x <> y}) by exact (list_eq_dec same_json).
  assert (O : forall x y : list (str * json), {x = y} + {x <> y}).
  { apply list_eq_dec. intros [k v] [k' v'].
    destruct (same_str k k'), (same_json v v'); (left; congruence) || (right; congruence). }
  decide equality; auto using Bool.bool_dec, N.eq_dec, same_str, (same_optional N.eq_dec).
Defined.
Definition same_args : forall a b : args, {a = b} + {a <> b}.
Proof.
  apply list_eq_dec. intros [k v] [k' v'].
  destruct (same_str k k'), (same_json v v'); (left; congruence) || (right; congruence).
Defined.
Definition same_arg_error : forall a b : arg_error, {a = b} + {a <> b}.
Proof. decide equality; auto using same_str, same_json, same_args. Defined.
Definition same_id : forall a b : activity_id, {a = b} + {a <> b}.
Proof. decide equality; auto using same_str, Nat.eq_dec. Defined.
Definition same_activity_error : forall a b : activity_error, {a = b} + {a <> b}.
Proof. decide equality; auto using same_id, same_arg_error. Defined.
Definition same_raw : forall a b : raw_arg, {a = b} + {a <> b}.
Proof. decide equality; auto using arg_type_eq_dec, (same_optional same_str). Defined.
Definition same_activity : forall a b : activity, {a = b} + {a <> b}.
Proof. decide equality; auto using same_id, same_raw. Defined.
Definition same_duration_event : forall a b : duration_event, {a = b} + {a <> b}.
Proof.
  decide equality; auto using Z.eq_dec, (same_optional same_str), (same_optional Z.eq_dec),
    (same_optional N.eq_dec), (same_optional same_args), (same_optional (list_eq_dec same_str)).
Defined.
Definition same_event (a b : trace_event) : bool :=
  match a, b with
  | EvB d, EvB e => if same_duration_event d e then true else false
  | EvX d du td es, EvX d' du' td' es' =>
      (if same_duration_event d d' then true else false) && Z.eqb du du'
      && (if same_optional Z.eq_dec td td' then true else false)
      && (if same_optional N.eq_dec es es' then true else false)
  | _, _ => false
  end.
Definition is {A} (d : forall a b : A, {a = b} + {a <> b}) (a b : A) : bool :=
  if d a b then true else false.
Definition parses (name : str) (a : option args) (e : activity) : bool :=
  match parse name a with Ok x => is same_activity x e | _ => false end.
Definition fails (name : str) (a : option args) (id : activity_id) (e : arg_error) : bool :=
  match parse name a with Err x => is same_activity_error x (ABadArguments id e) | _ => false end.
Definition parses_stat (e : trace_event) (x : activity) (start dur : Z) : bool :=
  match parse_stat e with
  | Ok s => is same_activity (s_act s) x && Z.eqb (s_start s) start && Z.eqb (s_dur s) dur
  | _ => false
  end.
Definition unexpected (e : trace_event) : bool :=
  match parse_stat e with Err (SUnexpectedInput e') => same_event e' e | _ => false end.
(** test_valid_activity, :480-570 *)
Definition valid_activity (args : option args) (expected : activity) : bool :=
  let name := activity_name (a_id expected) in
  let start := 42%Z in
  let dur := 12345%Z in
  let make good pid tid cat tts stack tdur end_stack :=
    event good pid tid (Some name) cat start tts args stack dur tdur end_stack in
  parses name args expected &&
  parses_stat (make true 1%Z 0%Z None None None None None) expected start dur &&
  parses_stat (make true 42%Z 42%Z None None None None None) expected start dur &&
  unexpected (make false 1%Z 0%Z None None None None None) &&
  unexpected (make true 123%Z 456%Z None None None None None) &&
  unexpected (make true 1%Z 0%Z (Some []) None None None None) &&
  unexpected (make true 1%Z 0%Z None (Some start) None None None) &&
  unexpected (make true 1%Z 0%Z None None (Some 0%N) None None) &&
  unexpected (make true 1%Z 0%Z None None None (Some dur) None) &&
  unexpected (make true 1%Z 0%Z None None None None (Some 0%N)).
(** :573-582 *)
Example unknown_activity_test :
  parse '"ThisIsMadness" None
    = Ok (mk_act (UnknownActivity '"ThisIsMadness") (mk_raw TyNothing None)).
Proof. vm_compute. reflexivity. Qed.
(** nullary_test, :585-617; unary_test, :619-668 *)
Definition nullary_case (i : nat) : bool :=
  let id := KnownActivity i in
  let expected := mk_act id (mk_raw TyNothing None) in
  let detail := [('"detail", JStr [])] in
  valid_activity None expected && valid_activity (Some []) expected &&
  fails (activity_name id) (Some detail) id (UnexpectedKeys detail).
Definition unary_case (i : nat) (ty : arg_type) (arg : str) (optional : bool) : bool :=
  let id := KnownActivity i in
  let name := activity_name id in
  valid_activity (Some [('"detail", JStr arg)]) (mk_act id (mk_raw ty (Some arg))) &&
  (if optional
   then valid_activity None (mk_act id (mk_raw ty None)) &&
        valid_activity (Some []) (mk_act id (mk_raw ty None))
   else fails name None id (MissingKey '"detail") &&
        fails name (Some []) id (MissingKey '"detail")) &&
  fails name (Some [('"detail", JNum (Some 42%N) 42%N)]) id
        (UnexpectedValue '"detail" (JNum (Some 42%N) 42%N)) &&
  fails name (Some [('"detail", JStr arg); ('"wat", JStr [])]) id (UnexpectedKeys [('"wat", JStr [])]) &&
  (* the other iteration order of the map *)
  fails name (Some [('"wat", JStr []); ('"detail", JStr arg)]) id (UnexpectedKeys [('"wat", JStr [])]).
Definition activity_case (i : nat) (ty : arg_type) : bool :=
  match ty with
  | TyNothing => nullary_case i
  | TyString => unary_case i ty '"X86 DAG->DAG Instruction Selection" false
  | TyFilePathOrModule =>
      unary_case i ty '"/mnt/acts/Core/include/Acts/TrackFinder/CombinatorialKalmanFilter.hpp" false
  | TyCppEntity => unary_case i ty '"Acts::Test::MeasurementCreator" false
  | TySymbol => unary_case i ty '"_ZN4Acts4Test29comb_kalman_filter_zero_field11test_methodEv" false
  | TySymbolOpt => unary_case i ty '"_ZN4Acts4Test29comb_kalman_filter_zero_field11test_methodEv" true
  | TyUnnamedLoop => unary_case i ty '"<unnamed loop>" false
  | TyUnnamedLoopOpt => unary_case i ty '"<unnamed loop>" true
  end.
(** :585-793 *)
Example activities_test :
  forallb (fun e => activity_case (fst e) (snd (snd e)))
          (combine (seq 0 (List.length activities)) activities) = true.
Proof. vm_compute. reflexivity. Qed.

(** ** stats/global.rs:183-327 *)
Example global_stat_test :
  let args := [('"count", JNum (Some 8%N) 8%N); ('"avg ms", JNum None 45%N)] in
  let total := 360%Z in
  let make good pid tid name cat tts stack tdur end_stack :=
    event good pid tid name cat 0%Z tts (Some args) stack total tdur end_stack in
  let bad e := gstat_parse e = Err (GUnexpectedInput e) in
  let good := Some '"Total ExecuteCompiler" in
  gstat_parse (make true 1%Z 1%Z good None None None None None)
    = Ok ('"ExecuteCompiler", mk_gs total 8) /\
  gstat_parse (make true 1%Z 1%Z (Some '"ExecuteCompiler") None None None None None)
    = Err (GNoTotalPrefix '"ExecuteCompiler") /\
  bad (make false 1%Z 1%Z good None None None None None) /\
  bad (make true 1%Z 0%Z good None None None None None) /\
  bad (make true 1%Z 1%Z None None None None None None) /\
  bad (make true 1%Z 1%Z good (Some []) None None None None) /\
  bad (make true 1%Z 1%Z good None (Some 0%Z) None None None) /\
  bad (make true 1%Z 1%Z good None None (Some 0%N) None None) /\
  bad (make true 1%Z 1%Z good None None None (Some 0%Z) None) /\
  bad (make true 1%Z 1%Z good None None None None (Some 0%N)).
Proof. vm_compute. repeat split. Qed.
(** :330-395, in both orders of the map *)
Example global_stat_args_test :
  let count := ('"count", JNum (Some 123%N) 123%N) in
  let avg := ('"avg ms", JNum None 456%N) in
  let wat := ('"wat", JStr []) in
  let empty k := (k, JStr []) in
  gargs_parse [count; avg] = Ok (123%N, 456%N) /\ gargs_parse [avg; count] = Ok (123%N, 456%N) /\
  gargs_parse [count; avg; wat] = Err (UnexpectedKeys [wat]) /\
  gargs_parse [wat; count; avg] = Err (UnexpectedKeys [wat]) /\
  gargs_parse [count; wat; avg] = Err (UnexpectedKeys [wat]) /\
  gargs_parse [empty '"count"; avg] = Err (UnexpectedValue '"count" (JStr [])) /\
  gargs_parse [avg; empty '"count"] = Err (UnexpectedValue '"count" (JStr [])) /\
  gargs_parse [count; empty '"avg ms"] = Err (UnexpectedValue '"avg ms" (JStr [])) /\
  gargs_parse [empty '"avg ms"; count] = Err (UnexpectedValue '"avg ms" (JStr [])) /\
  gargs_parse [avg] = Err (MissingKey '"count") /\ gargs_parse [count] = Err (MissingKey '"avg ms").
Proof. vm_compute. repeat split. Qed.

(** ** metadata.rs:63-259 *)
Definition name_cases (parse : metadata_event -> res name_error str) (process : bool) (name : str) : Prop :=
  let make (good : bool) (pid : option Z) (extra : args) (tid : option Z) cat ts tts :=
    let o := mk_mo cat ts tts in
    if Bool.eqb good process
    then ProcessName (match pid with Some p => p | None => 0%Z end) name extra tid o
    else ThreadName (match tid with Some t => t | None => 0%Z end) name extra pid o in
  let bad m := parse m = Err (NUnexpectedInput m) in
  (if process
   then parse (make true (Some 1%Z) [] (Some 0%Z) (Some []) (Some 0%Z) None) = Ok name
   else True) /\
  parse (make true (Some 42%Z) [] (Some 42%Z) (Some []) (Some 0%Z) None) = Ok name /\
  bad (make false (Some 42%Z) [] (Some 42%Z) (Some []) (Some 0%Z) None) /\
  (if process then True else bad (make true None [] (Some 42%Z) (Some []) (Some 0%Z) None)) /\
  bad (make true (Some 42%Z) [] (Some 0%Z) (Some []) (Some 0%Z) None) /\
  bad (make true (Some 42%Z) [] (Some 43%Z) (Some []) (Some 0%Z) None) /\
  bad (make true (Some 42%Z) [('"wtf", JStr [])] (Some 42%Z) (Some []) (Some 0%Z) None) /\
  (if process then bad (make true (Some 42%Z) [] None (Some []) (Some 0%Z) None) else True) /\
  bad (make true (Some 42%Z) [] (Some 42%Z) (Some ['"lol"]) (Some 0%Z) None) /\
  bad (make true (Some 42%Z) [] (Some 42%Z) None (Some 0%Z) None) /\
  bad (make true (Some 42%Z) [] (Some 42%Z) (Some []) (Some 42%Z) None) /\
  bad (make true (Some 42%Z) [] (Some 42%Z) (Some []) None None) /\
  bad (make true (Some 42%Z) [] (Some 42%Z) (Some []) (Some 0%Z) (Some 0%Z)).
Example names_test :
  name_cases parse_process_name true '"clang-12.0.1" /\ name_cases parse_thread_name false '"clang".
Proof. vm_compute. repeat split. Qed.

(** ** tree.rs:436-666 *)
Definition st (s : string) (start dur : Z) : stat string := mk_stat s start dur.
Definition built (l : list (stat string)) : option (tree string) :=
  match insert_all b_new l with
  | (inl tt, b) => match build b with Ret t => Some t | Panic => None end
  | _ => None
  end.
(** :436-441, 444-480 *)
Example small_trees_test :
  built [] = Some (mk_tree [] [] 0) /\
  built [st "ExecuteCompiler" 1 42]
    = Some (mk_tree [mk_node (st "ExecuteCompiler" 1 42) 42 0 0 0 None] [0] 0).
Proof. vm_compute. repeat split. Qed.
(** :483-588 *)
Example basic_tree_test :
  let root := st "ExecuteCompiler" 1 42000000 in
  let child1 := st "Frontend" 2 32000000 in
  let subchild1 := st "PerformPendingInstantiations" 3 30000000 in
  let child2 := st "Backend" 35000000 6000000 in
  let subchild2 := st "CodeGenPasses" 36000000 4000000 in
  built [subchild1; child1; subchild2; child2; root]
    = Some (mk_tree [mk_node subchild1 30000000 0 0 0 (Some 1);
                     mk_node child1 2000000 0 0 1 (Some 4);
                     mk_node subchild2 4000000 2 1 1 (Some 3);
                     mk_node child2 2000000 2 1 2 (Some 4);
                     mk_node root 4000000 0 2 4 None] [0; 2; 3; 1; 4] 4).
Proof. vm_compute. reflexivity. Qed.
(** :591-666 *)
Example tree_errors_test :
  let unordered1 := st "ExecuteCompiler" 46 64 in
  let unordered2 := st "ExecuteCompiler" 1 42 in
  let overlap1 := st "ExecuteCompiler" 12 34 in
  let overlap2 := st "ExecuteCompiler" 23 56 in
  fst (insert_all b_new [unordered1; unordered2]) = inr (1, IErr (UnexpectedOrder 110 43)) /\
  fst (insert_all b_new [overlap1; overlap2]) = inr (1, IErr (PartialOverlap overlap1 overlap2)).
Proof. vm_compute. repeat split. Qed.

(** ** lib.rs:440-1087 *)
Definition load (events : list trace_event) (extra : args) : res load_error clang_trace :=
  from_data 10 upper alnum (mk_td events true extra).
Definition X (pid tid ts dur : Z) (name : string) (args : option args) : trace_event :=
  EvX (mk_de pid tid ts (Some (of_string name)) None None args None) dur None None.
Definition M (ts : option Z) := mk_mo (Some []) ts None.
Definition total_args (avg : N) : option args :=
  Some [('"count", JNum (Some 1%N) 1%N); ('"avg ms", JNum (Some avg) avg)].
Definition known (s : string) : activity_id :=
  match find_activity 0 (of_string s) activities with
  | Some (i, _) => KnownActivity i
  | None => UnknownActivity (of_string s)
  end.
(** the events of both good traces, for the process, thread and totals ids given *)
Definition good_events (pid tid t1 t2 t3 : Z) : list trace_event :=
  [X pid tid 13 67877 "Frontend" None; X pid tid 67893 55542 "CodeGenPasses" None;
   X pid tid 67891 55545 "Backend" None; X pid tid 11 123438 "ExecuteCompiler" None;
   X pid t1 0 123450 "Total ExecuteCompiler" (total_args 12345);
   X pid t2 0 67890 "Total Frontend" (total_args 6789);
   X pid t3 0 55550 "Total Backend" (total_args 5555)].
Definition good_trace (t : res load_error clang_trace) (process : str) (pid : option Z)
  (bot : option N) (thread : option str) : Prop :=
  match t with
  | Ok t =>
      ct_process t = process /\
      ct_globals t = [('"ExecuteCompiler", mk_gs 123450 1); ('"Frontend", mk_gs 67890 1);
                      ('"Backend", mk_gs 55550 1)] /\
      ct_pid t = pid /\ ct_bot t = bot /\ ct_thread t = thread /\
      map snd (all_activities (ct_activities t))
        = map (fun e => mk_stat (mk_act (known (fst (fst e))) (mk_raw TyNothing None)) (snd (fst e)) (snd e))
          [("Frontend", 13, 67877); ("CodeGenPasses", 67893, 55542); ("Backend", 67891, 55545);
           ("ExecuteCompiler", 11, 123438)]%string%Z /\
      root_activities (ct_activities t) = Ret [3]
  | _ => False
  end.
(** :440-576, 579-724 *)
Example good_traces_test :
  good_trace (load (good_events 1 0 1 2 3 ++
                    [EvM (ProcessName 1 '"clang-10.0.0" [] (Some 0%Z) (M (Some 0%Z)))]) [])
    '"clang-10.0.0" None None None /\
  good_trace (load (good_events 42 42 43 44 45 ++
                    [EvM (ProcessName 42 '"clang-14.0.0" [] (Some 42%Z) (M (Some 0%Z)));
                     EvM (ThreadName 42 '"clang" [] (Some 42%Z) (M (Some 0%Z)))])
                   [('"beginningOfTime", JNum None 42%N)])
    '"clang-14.0.0" (Some 42%Z) (Some 42%N) (Some '"clang").
Proof. vm_compute. repeat split. Qed.
(** :748-1087 *)
Example bad_traces_test :
  let compiler dur avg := X 1 1 0 dur "Total ExecuteCompiler" (total_args avg) in
  let process name ts := EvM (ProcessName 1 name [] (Some 0%Z) (M (Some ts))) in
  let thread name := EvM (ThreadName 42 name [] (Some 42%Z) (M (Some 0%Z))) in
  let begin := EvB (mk_de 1 0 1 (Some '"ExecuteCompiler") None None None None) in
  load [] [('"beginningOfTime", JStr '"lolnope")] = Err (InvalidBeginningOfTime (JStr '"lolnope")) /\
  from_data 10 upper alnum (mk_td [] false []) = Err UnexpectedTraceMetadata /\
  load [X 42 42 13 67877 "Frontend" None; X 43 43 67893 55542 "CodeGenPasses" None] []
    = Err (InconsistentPid 42 43) /\
  (exists e, load [X 1 0 67891 55545 "Backend" None; X 1 0 13 67877 "Frontend" None] []
    = Err (ActivityTreeError e)) /\
  (exists e, load [X 1 1 2 123450 "Total ExecuteCompiler" (total_args 12345)] []
    = Err (GlobalStatParseError e)) /\
  load [compiler 123450%Z 12345%N; compiler 543210%Z 54321%N] []
    = Err (DuplicateGlobalStat '"ExecuteCompiler" (mk_gs 123450 1) (mk_gs 543210 1)) /\
  (exists e, load [process '"clang-14.0.0" 4%Z] [] = Err (NameParseError e)) /\
  load [process '"clang-14.0.0" 0%Z; process '"clang-13.9.9" 0%Z] []
    = Err (DuplicateProcessName '"clang-14.0.0" '"clang-13.9.9") /\
  load [X 1 0 11 123438 "ExecuteCompiler" None] [] = Err NoProcessName /\
  load [thread '"clang"; thread '"cling"] [] = Err (DuplicateThreadName '"clang" '"cling") /\
  load [begin] [] = Err (UnexpectedEvent begin) /\
  load [EvM (OtherMetadata 0)] [] = Err (UnexpectedMetadataEvent (OtherMetadata 0)).
Proof. repeat (split || eexists); vm_compute; reflexivity. Qed.

(** Model of clang-time-trace trace loading: src/lib.rs (ClangTrace::from_str), metadata.rs,
    stats/global.rs, stats/activity/mod.rs and stats/activity/argument.rs.

    Not modelled: serde_json's deserialisation into `TraceDataObject` (the model starts from
    the deserialised value).
    Simplifications: timestamps are exact integers counting a fixed fraction of a
    microsecond ([us] units per microsecond, any [us]); JSON numbers keep only what the code
    asks of them (as_u64, as_f64, the latter being never NaN); a HashMap is the list of its
    entries in iteration order. *)
From Coq Require Import String.
From Verif Require Import Base Asylum_Model Tree_Model.
Local Open Scope bool_scope.
Local Open Scope list_scope.

(** serde_json::Value; a number is its `as_u64` and `as_f64` (here any identification [f]
    of the float) *)
Inductive json :=
| JNull | JBool (b : bool) | JNum (u : option N) (f : N) | JStr (s : str)
| JArr (l : list json) | JObj (l : list (str * json)).
Definition as_u64 (v : json) : option N := match v with JNum u _ => u | _ => None end.
Definition as_f64 (v : json) : option N := match v with JNum _ f => Some f | _ => None end.

Definition args := list (str * json).

(** clang-time-trace/src/ctf/events/duration.rs:12-40.  Stack traces are opaque. *)
Record duration_event := mk_de {
  de_pid : Z; de_tid : Z; de_ts : Z; de_name : option str; de_cat : option (list str);
  de_tts : option Z; de_args : option args; de_stack : option N }.

(** ctf/events/metadata.rs:104-114 *)
Record metadata_options := mk_mo { mo_cat : option (list str); mo_ts : option Z; mo_tts : option Z }.

(** ctf/events/metadata.rs:17-98; [OtherMetadata] stands for process_labels,
    process_sort_index and thread_sort_index *)
Inductive metadata_event :=
| ProcessName (pid : Z) (name : str) (extra : args) (tid : option Z) (o : metadata_options)
| ThreadName (tid : Z) (name : str) (extra : args) (pid : option Z) (o : metadata_options)
| OtherMetadata (what : N).

(** ctf/mod.rs:83-114 *)
Inductive trace_event :=
| EvB (d : duration_event)
| EvE (d : duration_event)
| EvX (d : duration_event) (dur : Z) (tdur : option Z) (end_stack : option N)
| EvM (m : metadata_event).

(** ctf/mod.rs:38-78; [td_plain]: every standard field other than traceEvents has its
    default value *)
Record trace_data := mk_td { td_events : list trace_event; td_plain : bool; td_extra : args }.

(** `HashMap::get` *)
Fixpoint lookup {V} (k : str) (l : list (str * V)) : option V :=
  match l with
  | [] => None
  | (k', v) :: l' => if str_eqb k' k then Some v else lookup k l'
  end.
(** `HashMap::remove` *)
Definition remove_key {V} (k : str) (l : list (str * V)) : list (str * V) :=
  filter (fun e => negb (str_eqb (fst e) k)) l.

(** Results of fallible code that may also panic *)
Inductive res (E V : Type) := Ok (v : V) | Err (e : E) | Boom.
Arguments Ok {E V}. Arguments Err {E V}. Arguments Boom {E V}.
Definition rbind {E V W} (x : res E V) (f : V -> res E W) : res E W :=
  match x with Ok v => f v | Err e => Err e | Boom => Boom end.
(** `?` with `#[from]` conversion of the error *)
Definition rtry {E E' V W} (conv : E -> E') (x : res E V) (f : V -> res E' W) : res E' W :=
  match x with Ok v => f v | Err e => Err (conv e) | Boom => Boom end.

(** stats/mod.rs:12-24 *)
Inductive arg_error :=
| UnexpectedKeys (m : args) | MissingKey (k : str) | UnexpectedValue (k : str) (v : json).

Definition k_detail : str := of_string "detail".
Definition k_count : str := of_string "count".
Definition k_avg_ms : str := of_string "avg ms".
Definition k_total : str := of_string "Total ".
Definition k_module : str := of_string "[module]".
Definition k_loop : str := of_string "<unnamed loop>".

(** `str::strip_prefix` *)
Fixpoint strip_prefix (p s : str) : option str :=
  match p, s with
  | [], _ => Some s
  | x :: p', y :: s' => if N.eqb x y then strip_prefix p' s' else None
  | _ :: _, [] => None
  end.
Definition starts_with (p s : str) : bool :=
  match strip_prefix p s with Some _ => true | None => false end.
Definition last_char (s : str) : option chr := match rev s with c :: _ => Some c | [] => None end.

(** ** Global statistics (stats/global.rs) *)

(** stats/global.rs:17-24 *)
Record gstat := mk_gs { gs_dur : Z; gs_count : N }.

(** stats/global.rs:121-158, the `while` loop *)
Fixpoint gargs_loop (count : option N) (avg : option N) (l : args) : res arg_error (N * N) :=
  match l with
  | [] =>
      match count, avg with
      | Some c, Some a => Ok (c, a)
      | None, _ => Err (MissingKey k_count)
      | _, None => Err (MissingKey k_avg_ms)
      end
  | (k, v) :: l' =>
      if str_eqb k k_count then
        match as_u64 v with
        | Some c => gargs_loop (Some c) avg l'
        | None => Err (UnexpectedValue k_count v)
        end
      else if str_eqb k k_avg_ms then
        match as_f64 v with
        | Some f => gargs_loop count (Some f) l'
        | None => Err (UnexpectedValue k_avg_ms v)
        end
      else Err (UnexpectedKeys (remove_key k_avg_ms (remove_key k_count (l' ++ [(k, v)]))))
  end.
Definition gargs_parse (l : args) : res arg_error (N * N) := gargs_loop None None l.

(** stats/global.rs:96-108 *)
Inductive gstat_error :=
| GUnexpectedInput (e : trace_event) | GNoTotalPrefix (name : str) | GBadArguments (e : arg_error).

(** stats/global.rs:37-75 (`args.count as usize` is the identity on 64-bit targets) *)
Definition gstat_parse (t : trace_event) : res gstat_error (str * gstat) :=
  match t with
  | EvX (mk_de _ tid ts (Some name) None None (Some a) None) dur None None =>
      if negb (Z.eqb tid 0) && Z.eqb ts 0 then
        match strip_prefix k_total name with
        | None => Err (GNoTotalPrefix name)
        | Some stripped =>
            rtry GBadArguments (gargs_parse a) (fun c => Ok (stripped, mk_gs dur (fst c)))
        end
      else Err (GUnexpectedInput t)
  | _ => Err (GUnexpectedInput t)
  end.

(** ** Activities (stats/activity) *)

(** stats/activity/argument.rs:210-235 *)
Inductive arg_type :=
| TyNothing | TyString | TyFilePathOrModule | TyCppEntity | TySymbol | TySymbolOpt
| TyUnnamedLoop | TyUnnamedLoopOpt.
Definition arg_type_eq_dec : forall a b : arg_type, {a = b} + {a <> b}.
Proof. decide equality. Defined.

(** stats/activity/argument.rs:24-46 *)
Record raw_arg := mk_raw { ra_type : arg_type; ra_detail : option str }.

(** stats/activity/mod.rs:278-290: a known activity is its position in the table *)
Inductive activity_id := UnknownActivity (name : str) | KnownActivity (i : nat).

(** stats/activity/mod.rs:101-109 *)
Record activity := mk_act { a_id : activity_id; a_arg : raw_arg }.

(** stats/activity/mod.rs:324-447: the table of known activities *)
Definition activities : list (str * arg_type) :=
  map (fun e => (of_string (fst e), snd e)) [
    ("AAManager", TySymbol);
    ("ADCEPass", TySymbol);
    ("AggressiveInstCombinePass", TySymbol);
    ("AlignmentFromAssumptionsPass", TySymbol);
    ("Annotation2MetadataPass", TyFilePathOrModule);
    ("AnnotationRemarksPass", TySymbol);
    ("AssignmentTrackingPass", TyFilePathOrModule);
    ("Backend", TyNothing);
    ("BDCEPass", TySymbol);
    ("BlockFrequencyAnalysis", TySymbol);
    ("BranchProbabilityAnalysis", TySymbol);
    ("CalledValuePropagationPass", TyFilePathOrModule);
    ("CallGraphAnalysis", TyFilePathOrModule);
    ("CGProfilePass", TyFilePathOrModule);
    ("CGSCCToFunctionPassAdaptor", TySymbolOpt);
    ("CodeGen Function", TyCppEntity);
    ("CodeGenPasses", TyNothing);
    ("ConstantMergePass", TyFilePathOrModule);
    ("ConstraintEliminationPass", TySymbol);
    ("CoroCleanupPass", TySymbol);
    ("CoroEarlyPass", TySymbol);
    ("CoroElidePass", TySymbol);
    ("CoroSplitPass", TyNothing);
    ("CorrelatedValuePropagationPass", TySymbol);
    ("DeadArgumentEliminationPass", TyFilePathOrModule);
    ("DebugConstGlobalVariable", TyCppEntity);
    ("DebugFunction", TyCppEntity);
    ("DebugGlobalVariable", TyCppEntity);
    ("DebugType", TyCppEntity);
    ("DevirtSCCRepeatedPass", TySymbolOpt);
    ("DivRemPairsPass", TySymbol);
    ("DominatorTreeAnalysis", TySymbol);
    ("DSEPass", TySymbol);
    ("EarlyCSEPass", TySymbol);
    ("EliminateAvailableExternallyPass", TyFilePathOrModule);
    ("ExecuteCompiler", TyNothing);
    ("Float2IntPass", TySymbol);
    ("ForceFunctionAttrsPass", TyFilePathOrModule);
    ("Frontend", TyNothing);
    ("FunctionToLoopPassAdaptor", TySymbol);
    ("GlobalDCEPass", TyFilePathOrModule);
    ("GlobalOptPass", TyFilePathOrModule);
    ("GlobalsAA", TyFilePathOrModule);
    ("GVNPass", TySymbol);
    ("IndVarSimplifyPass", TyUnnamedLoop);
    ("InferFunctionAttrsPass", TyFilePathOrModule);
    ("InjectTLIMappings", TySymbol);
    ("InlinerPass", TySymbolOpt);
    ("InnerAnalysisManagerProxy<CGSCCAnalysisManager, Module>", TyFilePathOrModule);
    ("InstantiateClass", TyCppEntity);
    ("InstantiateFunction", TyCppEntity);
    ("InstCombinePass", TySymbol);
    ("InstSimplifyPass", TySymbol);
    ("InvalidateAnalysisPass<llvm::AAManager>", TySymbol);
    ("InvalidateAnalysisPass<llvm::ShouldNotRunFunctionPassesAnalysis>", TySymbol);
    ("IPSCCPPass", TyFilePathOrModule);
    ("JumpThreadingPass", TySymbol);
    ("LazyCallGraphAnalysis", TyFilePathOrModule);
    ("LCSSAPass", TySymbol);
    ("LibCallsShrinkWrapPass", TySymbol);
    ("LICMPass", TyUnnamedLoopOpt);
    ("LoopAnalysis", TySymbol);
    ("LoopDeletionPass", TyUnnamedLoop);
    ("LoopDistributePass", TySymbol);
    ("LoopFullUnrollPass", TyUnnamedLoop);
    ("LoopIdiomRecognizePass", TyUnnamedLoop);
    ("LoopInstSimplifyPass", TyUnnamedLoop);
    ("LoopLoadEliminationPass", TySymbol);
    ("LoopRotatePass", TyUnnamedLoop);
    ("LoopSimplifyCFGPass", TyUnnamedLoop);
    ("LoopSimplifyPass", TySymbol);
    ("LoopSinkPass", TySymbol);
    ("LoopUnrollPass", TySymbol);
    ("LoopVectorizePass", TySymbol);
    ("LowerConstantIntrinsicsPass", TySymbol);
    ("LowerExpectIntrinsicPass", TySymbol);
    ("MemCpyOptPass", TySymbol);
    ("MemorySSAAnalysis", TySymbol);
    ("MergedLoadStoreMotionPass", TySymbol);
    ("ModuleInlinerWrapperPass", TyFilePathOrModule);
    ("ModuleToFunctionPassAdaptor", TyFilePathOrModule);
    ("ModuleToPostOrderCGSCCPassAdaptor", TyFilePathOrModule);
    ("OpenMPOptCGSCCPass", TyNothing);
    ("OpenMPOptPass", TyFilePathOrModule);
    ("OptFunction", TySymbol);
    ("Optimizer", TyNothing);
    ("OptModule", TyFilePathOrModule);
    ("ParseClass", TyCppEntity);
    ("ParseTemplate", TyCppEntity);
    ("PassManager<llvm::Function>", TySymbolOpt);
    ("PassManager<llvm::Loop, llvm::LoopAnalysisManager, llvm::LoopStandardAnalysisResults &, llvm::LPMUpdater &>", TyNothing);
    ("PassManager<Function>", TySymbolOpt);
    ("PassManager<LazyCallGraph::SCC, CGSCCAnalysisManager, LazyCallGraph &, CGSCCUpdateResult &>", TySymbol);
    ("PassManager<Loop, LoopAnalysisManager, LoopStandardAnalysisResults &, LPMUpdater &>", TyUnnamedLoop);
    ("PerformPendingInstantiations", TyNothing);
    ("PerFunctionPasses", TyNothing);
    ("PerModulePasses", TyNothing);
    ("PostDominatorTreeAnalysis", TySymbol);
    ("PostOrderFunctionAttrsPass", TySymbolOpt);
    ("PromotePass", TySymbol);
    ("ReassociatePass", TySymbol);
    ("RecomputeGlobalsAAPass", TyFilePathOrModule);
    ("RelLookupTableConverterPass", TyFilePathOrModule);
    ("RequireAnalysisPass<llvm::GlobalsAA, llvm::Module>", TyFilePathOrModule);
    ("RequireAnalysisPass<llvm::OptimizationRemarkEmitterAnalysis, llvm::Function>", TySymbol);
    ("RequireAnalysisPass<llvm::ProfileSummaryAnalysis, llvm::Module>", TyFilePathOrModule);
    ("RequireAnalysisPass<llvm::GlobalsAA, llvm::Module, llvm::AnalysisManager<Module>>", TyFilePathOrModule);
    ("ReversePostOrderFunctionAttrsPass", TyFilePathOrModule);
    ("RunLoopPass", TyString);
    ("RunPass", TyString);
    ("ScalarEvolutionAnalysis", TySymbol);
    ("SCCPPass", TySymbol);
    ("SimpleLoopUnswitchPass", TyUnnamedLoop);
    ("SimplifyCFGPass", TySymbol);
    ("SLPVectorizerPass", TySymbol);
    ("Source", TyFilePathOrModule);
    ("SpeculativeExecutionPass", TySymbol);
    ("SROAPass", TySymbol);
    ("TailCallElimPass", TySymbol);
    ("TargetIRAnalysis", TySymbol);
    ("VectorCombinePass", TySymbol);
    ("WarnMissedTransformationsPass", TySymbol)
  ]%string.

(** `ACTIVITIES.get(&name)`: position and argument type *)
Fixpoint find_activity (i : nat) (name : str) (l : list (str * arg_type)) : option (nat * arg_type) :=
  match l with
  | [] => None
  | (n, t) :: l' => if str_eqb n name then Some (i, t) else find_activity (S i) name l'
  end.

(** stats/activity/mod.rs:292-301 (the out of range case does not exist) *)
Definition activity_name (id : activity_id) : str :=
  match id with
  | UnknownActivity n => n
  | KnownActivity i => match nth_error activities i with Some (n, _) => n | None => [] end
  end.

(** stats/activity/mod.rs:221-231 *)
Definition parse_empty_args (a : option args) : res arg_error unit :=
  match a with
  | Some [] => Ok tt
  | Some l => Err (UnexpectedKeys l)
  | None => Ok tt
  end.

(** stats/activity/mod.rs:234-271 *)
Definition bad_args (rest : args) (kv : str * json) : args := remove_key k_detail (rest ++ [kv]).
Definition parse_detail_arg (a : option args) : res arg_error str :=
  match a with
  | Some ((k, v) :: rest) =>
      if str_eqb k k_detail then
        match v with
        | JStr s =>
            match rest with
            | kv :: rest' => Err (UnexpectedKeys (bad_args rest' kv))
            | [] => Ok s
            end
        | _ => Err (UnexpectedValue k_detail v)
        end
      else Err (UnexpectedKeys (bad_args rest (k, v)))
  | Some [] => Err (MissingKey k_detail)
  | None => Err (MissingKey k_detail)
  end.

(** stats/activity/mod.rs:451-455, 96-105 *)
Inductive activity_error := ABadArguments (id : activity_id) (e : arg_error).
Inductive activity_stat_error :=
| SUnexpectedInput (e : trace_event) | SBadArguments (e : activity_error).

(** metadata.rs:48-53 *)
Inductive name_error := NUnexpectedInput (m : metadata_event).

(** metadata.rs:7-27 *)
Definition parse_process_name (m : metadata_event) : res name_error str :=
  match m with
  | ProcessName pid name extra tid (mk_mo (Some cat) (Some ts) None) =>
      if (match extra with [] => true | _ => false end)
         && (match cat with [] => true | _ => false end)
         && Z.eqb ts 0
         && (Z.eqb pid 1 && (match tid with Some t => Z.eqb t 0 | None => false end)
             || (match tid with Some t => Z.eqb t pid | None => false end))
      then Ok name else Err (NUnexpectedInput m)
  | _ => Err (NUnexpectedInput m)
  end.

(** metadata.rs:30-44 *)
Definition parse_thread_name (m : metadata_event) : res name_error str :=
  match m with
  | ThreadName tid name extra pid (mk_mo (Some cat) (Some ts) None) =>
      if (match extra with [] => true | _ => false end)
         && (match cat with [] => true | _ => false end)
         && Z.eqb ts 0
         && (match pid with Some p => Z.eqb p tid | None => false end)
      then Ok name else Err (NUnexpectedInput m)
  | _ => Err (NUnexpectedInput m)
  end.

(** clang-time-trace/src/lib.rs:374-436 *)
Inductive load_error :=
| UnexpectedTraceMetadata | InvalidBeginningOfTime (v : json)
| ActivityStatParseError (e : activity_stat_error)
| ActivityTreeError (e : tree_error activity)
| GlobalStatParseError (e : gstat_error)
| DuplicateGlobalStat (name : str) (old new : gstat)
| DuplicateProcessName (a b : str) | NoProcessName
| NameParseError (e : name_error)
| DuplicateThreadName (a b : str)
| InconsistentPid (a b : Z)
| UnexpectedMetadataEvent (m : metadata_event)
| UnexpectedEvent (e : trace_event).

(** clang-time-trace/src/lib.rs:54-77 (without the entity parser, empty at this point) *)
Record clang_trace := mk_ct {
  ct_activities : tree activity; ct_globals : list (str * gstat);
  ct_process : str; ct_pid : option Z; ct_thread : option str; ct_bot : option N }.

(** Local variables of the event loop *)
Record load_state := mk_ls {
  ls_acts : builder activity; ls_globals : list (str * gstat);
  ls_process : option str; ls_thread : option str; ls_pid : option Z }.
Definition ls_init : load_state := mk_ls b_new [] None None None.

Section Load.
  Variable us : Z.                               (* one microsecond *)
  Variables is_uppercase is_alphanumeric : chr -> bool.     (* Unicode tables of std *)

  (** `str::split(' ')` *)
  Fixpoint split_space (s : str) : list str :=
    match s with
    | [] => [[]]
    | c :: s' =>
        if N.eqb c 32 then [] :: split_space s'
        else match split_space s' with
             | w :: ws => (c :: w) :: ws
             | [] => [[c]]
             end
    end.

  (** stats/activity/argument.rs:298-312: characters strictly inside a word *)
  Fixpoint middle_ok (dash caps : bool) (l : str) : bool :=
    match l with
    | [] => true
    | m :: l' =>
        (is_alphanumeric m || N.eqb m 45 || (N.eqb m 62 && dash) || N.eqb m 47
         || (N.eqb m 95 && caps))
        && middle_ok (N.eqb m 45) (is_uppercase m) l'
    end.
  (** stats/activity/argument.rs:283-312: the body of the loop over words *)
  Definition word_ok (w : str) : bool :=
    str_eqb w (of_string "&") || str_eqb w (of_string "memcmp()") ||
    match w with
    | [] => true
    | c :: [] => is_alphanumeric c
    | c :: (_ :: _) as rest =>
        is_alphanumeric c && is_alphanumeric (last rest 0%N) && middle_ok false false (removelast rest)
    end.

  (** stats/activity/argument.rs:239-321; [None] is the failed `expect` at 271-275 *)
  Definition infer_from_detail (detail : str) : option arg_type :=
    let sym :=
      match detail with
      | 40%N :: d => match last_char detail with Some 41%N => removelast d | _ => detail end
      | _ => detail
      end in
    if starts_with (of_string "_Z") sym || str_eqb sym (of_string "main")
       || str_eqb sym (of_string "__clang_call_terminate")
       || starts_with (of_string "__cxx_global_var_init") sym
       || starts_with (of_string "_GLOBAL__sub_I_") sym
    then Some TySymbol
    else if str_eqb detail k_loop then Some TyUnnamedLoop
    else if path_has_root detail || str_eqb detail k_module then Some TyFilePathOrModule
    else match detail with
         | [] => None
         | c :: _ =>
             if negb (is_uppercase c) then Some TyCppEntity
             else if forallb word_ok (split_space detail) then Some TyString
             else Some TyCppEntity
         end.

  (** stats/activity/mod.rs:145-218; logging is not modelled, but the inference it needs
      is (it may panic) *)
  Definition activity_parse (name : str) (a : option args) : res activity_error activity :=
    match find_activity 0 name activities with
    | Some (i, ty) =>
        let id := KnownActivity i in
        rtry (ABadArguments id)
          (match ty with
           | TyNothing => rbind (parse_empty_args a) (fun _ => Ok (mk_raw ty None))
           | TyString | TyFilePathOrModule | TyCppEntity | TySymbol | TyUnnamedLoop =>
               rbind (parse_detail_arg a) (fun d =>
                 match infer_from_detail d with
                 | Some _ => Ok (mk_raw ty (Some d))
                 | None => Boom
                 end)
           | TySymbolOpt | TyUnnamedLoopOpt =>
               match parse_detail_arg a with
               | Ok d => Ok (mk_raw ty (Some d))
               | Err (MissingKey k) =>
                   if str_eqb k k_detail then Ok (mk_raw ty None) else Err (MissingKey k)
               | Err e => Err e
               | Boom => Boom
               end
           end)
          (fun r => Ok (mk_act id r))
    | None =>
        let id := UnknownActivity name in
        rtry (ABadArguments id)
          (match parse_detail_arg a with
           | Ok d =>
               match infer_from_detail d with
               | Some ty => Ok (mk_raw ty (Some d))
               | None => Boom
               end
           | Err (MissingKey k) =>
               if str_eqb k k_detail then Ok (mk_raw TyNothing None) else Err (MissingKey k)
           | Err e => Err e
           | Boom => Boom
           end)
          (fun r => Ok (mk_act id r))
    end.

  (** stats/activity/mod.rs:45-72 *)
  Definition activity_stat_parse (t : trace_event) : res activity_stat_error (stat activity) :=
    match t with
    | EvX (mk_de pid tid ts (Some name) None None a None) dur None None =>
        if (Z.eqb pid 1 && Z.eqb tid 0) || Z.eqb tid pid then
          rtry SBadArguments (activity_parse name a) (fun act => Ok (mk_stat act ts dur))
        else Err (SUnexpectedInput t)
    | _ => Err (SUnexpectedInput t)
    end.

  (** clang-time-trace/src/lib.rs:259-267 *)
  Definition merge_pid (cur : option Z) (proposed : Z) : res load_error (option Z) :=
    match cur with
    | None => Ok (Some proposed)
    | Some p => if Z.eqb p proposed then Ok (Some p) else Err (InconsistentPid p proposed)
    end.

  (** clang-time-trace/src/lib.rs:269-330: one iteration of the event loop *)
  Definition load_event (s : load_state) (ev : trace_event) : res load_error load_state :=
    match ev with
    | EvX d dur _ _ =>
        rbind (merge_pid (ls_pid s) (de_pid d)) (fun pid =>
        if Z.ltb us (de_ts d) then
          rtry ActivityStatParseError (activity_stat_parse ev) (fun st =>
          match insert (ls_acts s) st with
          | (IOk, b) => Ok (mk_ls b (ls_globals s) (ls_process s) (ls_thread s) pid)
          | (IErr e, _) => Err (ActivityTreeError e)
          | (IPanic, _) => Boom
          end)
        else
          rtry GlobalStatParseError (gstat_parse ev) (fun nv =>
          match lookup (fst nv) (ls_globals s) with
          | Some old => Err (DuplicateGlobalStat (fst nv) old (snd nv))
          | None => Ok (mk_ls (ls_acts s) (ls_globals s ++ [nv]) (ls_process s) (ls_thread s) pid)
          end))
    | EvM (ProcessName p _ _ _ _ as m) =>
        rbind (merge_pid (ls_pid s) p) (fun pid =>
        rtry NameParseError (parse_process_name m) (fun name =>
        match ls_process s with
        | Some old => Err (DuplicateProcessName old name)
        | None => Ok (mk_ls (ls_acts s) (ls_globals s) (Some name) (ls_thread s) pid)
        end))
    | EvM (ThreadName _ _ _ p _ as m) =>
        rbind (match p with Some p => merge_pid (ls_pid s) p | None => Ok (ls_pid s) end) (fun pid =>
        rtry NameParseError (parse_thread_name m) (fun name =>
        match ls_thread s with
        | Some old => Err (DuplicateThreadName old name)
        | None => Ok (mk_ls (ls_acts s) (ls_globals s) (ls_process s) (Some name) pid)
        end))
    | EvM m => Err (UnexpectedMetadataEvent m)
    | _ => Err (UnexpectedEvent ev)
    end.

  Fixpoint load_events (s : load_state) (l : list trace_event) : res load_error load_state :=
    match l with
    | [] => Ok s
    | ev :: l' => rbind (load_event s ev) (fun s' => load_events s' l')
    end.

  (** clang-time-trace/src/lib.rs:223-354, after deserialisation.  An empty event list makes
      `len() - 1` at 253 overflow (debug) or the capacity overflow (release). *)
  Definition from_data (td : trace_data) : res load_error clang_trace :=
    if negb (td_plain td) then Err UnexpectedTraceMetadata
    else
      rbind (match lookup (of_string "beginningOfTime") (td_extra td) with
             | Some v => match as_f64 v with
                         | Some f => Ok (Some f)
                         | None => Err (InvalidBeginningOfTime v)
                         end
             | None => Ok None
             end) (fun bot =>
      match td_events td with
      | [] => Boom
      | _ =>
          rbind (load_events ls_init (td_events td)) (fun s =>
          match ls_process s with
          | Some name =>
              match build (ls_acts s) with
              | Ret t =>
                  Ok (mk_ct t (ls_globals s) name
                        (match ls_pid s with Some p => if Z.ltb 1 p then Some p else None | None => None end)
                        (ls_thread s) bot)
              | Panic => Boom
              end
          | None => Err NoProcessName
          end)
      end).
End Load.

(** ** Parsing an activity's argument when it is displayed (stats/activity/argument.rs) *)

(** stats/activity/argument.rs:399-409 and 325-349 *)
Inductive parsed_symbol (EK : Type) := PSParsed (e : EK) | PSDemangled (s : str) | PSMaybeMangled (s : str).
Inductive parsed_arg (EK : Type) :=
| PNothing | PString (s : str) | PFilePath (k : key) | PCppEntity (e : EK)
| PSymbol (p : parsed_symbol EK) | PUnnamedLoop | PModule.
Arguments PSParsed {EK}. Arguments PSDemangled {EK}. Arguments PSMaybeMangled {EK}.
Arguments PNothing {EK}. Arguments PString {EK}. Arguments PFilePath {EK}. Arguments PCppEntity {EK}.
Arguments PSymbol {EK}. Arguments PUnnamedLoop {EK}. Arguments PModule {EK}.

(** stats/activity/argument.rs:442-457 *)
Inductive argument_error := BadFilePath (p : str) | BadCppEntity (s : str) | UnexpectedLoopName (s : str).

Section ParseArg.
  Variable EK : Type.
  (** cpparser's entity parser and cpp_demangle, as black boxes.  The entity parser's own
      use of the path interner is not modelled here. *)
  Variable parse_entity : str -> outcome (option EK).
  Variable demangle : str -> option str.
  (** parameters of cpparser's path interner *)
  Variable comp_hash : str -> N.
  Variable seq_hash : list key -> N.
  Variable probe : N -> N -> bool.
  Variables cw w lb : N.

  (** cpparser/src/lib.rs:161-172 *)
  Definition intern_path (st : pathint) (p : str) : res argument_error key * pathint :=
    match pi_intern comp_hash seq_hash probe cw w lb st p with
    | (Ret (PKey k), st') => (Ok k, st')
    | (Ret (PErrRelative _), st') => (Boom, st')
    | (Panic, st') => (Boom, st')
    end.

  (** stats/activity/argument.rs:125-132 *)
  Definition parse_entity_arg (s : str) : res argument_error (parsed_arg EK) :=
    match parse_entity s with
    | Ret (Some e) => Ok (PCppEntity e)
    | Ret None => Err (BadCppEntity s)
    | Panic => Boom
    end.

  (** stats/activity/argument.rs:161-167 *)
  Definition parse_demangled (s : str) : res argument_error (parsed_symbol EK) :=
    match parse_entity s with
    | Ret (Some e) => Ok (PSParsed e)
    | Ret None => Ok (PSDemangled s)
    | Panic => Boom
    end.

  (** stats/activity/argument.rs:135-196 *)
  Definition parse_symbol (detail : str) : res argument_error (parsed_symbol EK) :=
    let symbol :=
      match detail with
      | 40%N :: d => match last_char detail with Some 41%N => removelast d | _ => detail end
      | _ => detail
      end in
    match demangle symbol with
    | Some d => parse_demangled d
    | None =>
        if str_eqb symbol (of_string "main") || str_eqb symbol (of_string "__clang_call_terminate")
        then parse_demangled symbol
        else Ok (PSMaybeMangled symbol)
    end.

  (** stats/activity/argument.rs:199-206 *)
  Definition parse_unnamed_loop (s : str) : res argument_error (parsed_arg EK) :=
    if str_eqb s k_loop then Ok PUnnamedLoop else Err (UnexpectedLoopName s).

  (** stats/activity/argument.rs:59-122; a missing detail panics (`expect`, 68), and so does
      (in debug builds) a present one for [TyNothing] (79) *)
  Definition parse_arg (r : raw_arg) (st : pathint) : res argument_error (parsed_arg EK) * pathint :=
    match ra_type r, ra_detail r with
    | TyNothing, None => (Ok PNothing, st)
    | TyNothing, Some _ => (Boom, st)
    | TyString, Some d => (Ok (PString d), st)
    | TyFilePathOrModule, Some d =>
        if str_eqb d k_module then (Ok PModule, st)
        else match intern_path st d with
             | (Ok k, st') => (Ok (PFilePath k), st')
             | (Err e, st') => (Err e, st')
             | (Boom, st') => (Boom, st')
             end
    | TyCppEntity, Some d => (parse_entity_arg d, st)
    | TySymbol, Some d => (rbind (parse_symbol d) (fun p => Ok (PSymbol p)), st)
    | TySymbolOpt, Some d => (rbind (parse_symbol d) (fun p => Ok (PSymbol p)), st)
    | TySymbolOpt, None => (Ok PNothing, st)
    | TyUnnamedLoop, Some d => (parse_unnamed_loop d, st)
    | TyUnnamedLoopOpt, Some d => (parse_unnamed_loop d, st)
    | TyUnnamedLoopOpt, None => (Ok PNothing, st)
    | _, None => (Boom, st)
    end.
End ParseArg.

(** Specification vocabulary for trace loading. *)
From Coq Require Import String Permutation.
From Verif Require Import Base Asylum_Model Tree_Model Tree_Spec Load_Model.
Local Open Scope list_scope.

(** What a trace event tells about the compilation. *)
Inductive fact :=
| FActivity (s : stat activity)
| FGlobal (name : str) (g : gstat)
| FProcess (name : str)
| FThread (name : str).

(** The argument object of an event has no entry / exactly one entry "detail", a string. *)
Definition no_args (a : option args) : Prop := a = None \/ a = Some [].
Definition only_detail (a : option args) (d : str) : Prop :=
  a = Some [(of_string "detail", JStr d)].

(** Does an activity of this type need a detail, accept one? *)
Definition needs_detail (t : arg_type) : Prop :=
  match t with
  | TyString | TyFilePathOrModule | TyCppEntity | TySymbol | TyUnnamedLoop => True
  | _ => False
  end.
Definition accepts_detail (t : arg_type) : Prop := t <> TyNothing.

(** How the argument of activity [name] reads, for the activity table of the program and
    a guess [infer] of the type of unknown activities' arguments. *)
Inductive argument_reads (infer : str -> option arg_type) (name : str) (a : option args) : raw_arg -> Prop :=
| known_none t : In (name, t) activities -> ~ needs_detail t -> no_args a ->
    argument_reads infer name a (mk_raw t None)
| known_needed t d : In (name, t) activities -> needs_detail t -> only_detail a d -> d <> [] ->
    argument_reads infer name a (mk_raw t (Some d))
| known_optional t d : In (name, t) activities -> ~ needs_detail t -> accepts_detail t ->
    only_detail a d -> argument_reads infer name a (mk_raw t (Some d))
| unknown_none : (forall t, ~ In (name, t) activities) -> no_args a ->
    argument_reads infer name a (mk_raw TyNothing None)
| unknown_some d t : (forall t, ~ In (name, t) activities) -> only_detail a d -> d <> [] ->
    infer d = Some t -> argument_reads infer name a (mk_raw t (Some d)).

(** The identifier of the activity called [name]: its place in the table, or the name
    itself when the table does not have it. *)
Definition names (id : activity_id) (name : str) : Prop :=
  match id with
  | KnownActivity i => exists t, nth_error activities i = Some (name, t)
  | UnknownActivity n => n = name /\ forall t, ~ In (name, t) activities
  end.

(** What the activities of clang are about, by kind of argument (the documentation of
    time-trace activities, which crofiler's own table must agree with) *)
Definition known_names (t : arg_type) : list str :=
  map of_string
    match t with
    | TyNothing =>       (* activities without any argument *)
        ["Backend"; "CodeGenPasses"; "CoroSplitPass"; "ExecuteCompiler"; "Frontend";
         "OpenMPOptCGSCCPass"; "Optimizer";
         "PassManager<llvm::Loop, llvm::LoopAnalysisManager, llvm::LoopStandardAnalysisResults &, llvm::LPMUpdater &>";
         "PerFunctionPasses"; "PerModulePasses"; "PerformPendingInstantiations"]%string
    | TyString =>       (* with free text *)
        ["RunLoopPass"; "RunPass"]%string
    | TyFilePathOrModule =>       (* about a source file, or about the module `[module]` *)
        ["Annotation2MetadataPass"; "AssignmentTrackingPass"; "CGProfilePass";
         "CallGraphAnalysis"; "CalledValuePropagationPass"; "ConstantMergePass";
         "DeadArgumentEliminationPass"; "EliminateAvailableExternallyPass";
         "ForceFunctionAttrsPass"; "GlobalDCEPass"; "GlobalOptPass"; "GlobalsAA"; "IPSCCPPass";
         "InferFunctionAttrsPass"; "InnerAnalysisManagerProxy<CGSCCAnalysisManager, Module>";
         "LazyCallGraphAnalysis"; "ModuleInlinerWrapperPass"; "ModuleToFunctionPassAdaptor";
         "ModuleToPostOrderCGSCCPassAdaptor"; "OpenMPOptPass"; "OptModule";
         "RecomputeGlobalsAAPass"; "RelLookupTableConverterPass";
         "RequireAnalysisPass<llvm::GlobalsAA, llvm::Module, llvm::AnalysisManager<Module>>";
         "RequireAnalysisPass<llvm::GlobalsAA, llvm::Module>";
         "RequireAnalysisPass<llvm::ProfileSummaryAnalysis, llvm::Module>";
         "ReversePostOrderFunctionAttrsPass"; "Source"]%string
    | TyCppEntity =>       (* about a C++ entity *)
        ["CodeGen Function"; "DebugConstGlobalVariable"; "DebugFunction";
         "DebugGlobalVariable"; "DebugType"; "InstantiateClass"; "InstantiateFunction";
         "ParseClass"; "ParseTemplate"]%string
    | TySymbol =>       (* about a mangled symbol *)
        ["AAManager"; "ADCEPass"; "AggressiveInstCombinePass"; "AlignmentFromAssumptionsPass";
         "AnnotationRemarksPass"; "BDCEPass"; "BlockFrequencyAnalysis";
         "BranchProbabilityAnalysis"; "ConstraintEliminationPass"; "CoroCleanupPass";
         "CoroEarlyPass"; "CoroElidePass"; "CorrelatedValuePropagationPass"; "DSEPass";
         "DivRemPairsPass"; "DominatorTreeAnalysis"; "EarlyCSEPass"; "Float2IntPass";
         "FunctionToLoopPassAdaptor"; "GVNPass"; "InjectTLIMappings"; "InstCombinePass";
         "InstSimplifyPass"; "InvalidateAnalysisPass<llvm::AAManager>";
         "InvalidateAnalysisPass<llvm::ShouldNotRunFunctionPassesAnalysis>";
         "JumpThreadingPass"; "LCSSAPass"; "LibCallsShrinkWrapPass"; "LoopAnalysis";
         "LoopDistributePass"; "LoopLoadEliminationPass"; "LoopSimplifyPass"; "LoopSinkPass";
         "LoopUnrollPass"; "LoopVectorizePass"; "LowerConstantIntrinsicsPass";
         "LowerExpectIntrinsicPass"; "MemCpyOptPass"; "MemorySSAAnalysis";
         "MergedLoadStoreMotionPass"; "OptFunction";
         "PassManager<LazyCallGraph::SCC, CGSCCAnalysisManager, LazyCallGraph &, CGSCCUpdateResult &>";
         "PostDominatorTreeAnalysis"; "PromotePass"; "ReassociatePass";
         "RequireAnalysisPass<llvm::OptimizationRemarkEmitterAnalysis, llvm::Function>";
         "SCCPPass"; "SLPVectorizerPass"; "SROAPass"; "ScalarEvolutionAnalysis";
         "SimplifyCFGPass"; "SpeculativeExecutionPass"; "TailCallElimPass"; "TargetIRAnalysis";
         "VectorCombinePass"; "WarnMissedTransformationsPass"]%string
    | TySymbolOpt =>       (* about a mangled symbol, or without argument *)
        ["CGSCCToFunctionPassAdaptor"; "DevirtSCCRepeatedPass"; "InlinerPass";
         "PassManager<Function>"; "PassManager<llvm::Function>"; "PostOrderFunctionAttrsPass"]%string
    | TyUnnamedLoop =>       (* about a loop *)
        ["IndVarSimplifyPass"; "LoopDeletionPass"; "LoopFullUnrollPass";
         "LoopIdiomRecognizePass"; "LoopInstSimplifyPass"; "LoopRotatePass";
         "LoopSimplifyCFGPass";
         "PassManager<Loop, LoopAnalysisManager, LoopStandardAnalysisResults &, LPMUpdater &>";
         "SimpleLoopUnswitchPass"]%string
    | TyUnnamedLoopOpt =>       (* about a loop, or without argument *)
        ["LICMPass"]%string
    end.

(** How one event reads.  [us] is one microsecond. *)
Inductive reads (us : Z) (infer : str -> option arg_type) : trace_event -> fact -> Prop :=
| reads_activity pid tid ts name a dur act :
    (us < ts)%Z -> (tid = pid \/ (pid = 1 /\ tid = 0))%Z ->
    names (a_id act) name ->
    argument_reads infer name a (a_arg act) ->
    reads us infer (EvX (mk_de pid tid ts (Some name) None None a None) dur None None)
      (FActivity (mk_stat act ts dur))
| reads_global pid tid name cnt avg f a dur :
    (0 <= us)%Z -> tid <> 0%Z ->
    as_u64 cnt = Some f -> as_f64 avg <> None ->
    Permutation a [(of_string "count", cnt); (of_string "avg ms", avg)] ->
    reads us infer
      (EvX (mk_de pid tid 0 (Some (of_string "Total " ++ name)) None None (Some a) None) dur None None)
      (FGlobal name (mk_gs dur f))
| reads_process pid name tid :
    (tid = pid \/ (pid = 1 /\ tid = 0))%Z ->
    reads us infer (EvM (ProcessName pid name [] (Some tid) (mk_mo (Some []) (Some 0%Z) None)))
      (FProcess name)
| reads_thread tid name :
    reads us infer (EvM (ThreadName tid name [] (Some tid) (mk_mo (Some []) (Some 0%Z) None)))
      (FThread name).

(** The process id an event carries. *)
Definition event_pid (e : trace_event) : option Z :=
  match e with
  | EvX d _ _ _ => Some (de_pid d)
  | EvM (ProcessName p _ _ _ _) => Some p
  | EvM (ThreadName _ _ _ p _) => p
  | _ => None
  end.
Definition one_pid (l : list trace_event) : Prop :=
  forall e1 e2 p1 p2, In e1 l -> In e2 l -> event_pid e1 = Some p1 -> event_pid e2 = Some p2 -> p1 = p2.

(** Facts of each kind, in order. *)
Fixpoint f_activities (l : list fact) : list (stat activity) :=
  match l with [] => [] | FActivity s :: l' => s :: f_activities l' | _ :: l' => f_activities l' end.
Fixpoint f_globals (l : list fact) : list (str * gstat) :=
  match l with [] => [] | FGlobal n g :: l' => (n, g) :: f_globals l' | _ :: l' => f_globals l' end.
Fixpoint f_processes (l : list fact) : list str :=
  match l with [] => [] | FProcess n :: l' => n :: f_processes l' | _ :: l' => f_processes l' end.
Fixpoint f_threads (l : list fact) : list str :=
  match l with [] => [] | FThread n :: l' => n :: f_threads l' | _ :: l' => f_threads l' end.

(** The beginning of time: absent, or a number. *)
Definition bot_reads (extra : args) (b : option N) : Prop :=
  match lookup (of_string "beginningOfTime") extra with
  | None => b = None
  | Some v => exists f, as_f64 v = Some f /\ b = Some f
  end.

(** Same argument maps up to iteration order; JSON objects have distinct keys. *)
Definition distinct_keys {V} (l : list (str * V)) : Prop := NoDup (map fst l).
Definition same_map (a b : args) : Prop := distinct_keys a /\ Permutation a b.
Definition same_omap (a b : option args) : Prop :=
  match a, b with
  | None, None => True
  | Some x, Some y => same_map x y
  | _, _ => False
  end.
Definition same_de (d d' : duration_event) : Prop :=
  de_pid d = de_pid d' /\ de_tid d = de_tid d' /\ de_ts d = de_ts d' /\ de_name d = de_name d' /\
  de_cat d = de_cat d' /\ de_tts d = de_tts d' /\ de_stack d = de_stack d' /\
  same_omap (de_args d) (de_args d').
Inductive same_event : trace_event -> trace_event -> Prop :=
| se_b d d' : same_de d d' -> same_event (EvB d) (EvB d')
| se_e d d' : same_de d d' -> same_event (EvE d) (EvE d')
| se_x d d' dur td es : same_de d d' -> same_event (EvX d dur td es) (EvX d' dur td es)
| se_p pid n x x' tid o : same_map x x' ->
    same_event (EvM (ProcessName pid n x tid o)) (EvM (ProcessName pid n x' tid o))
| se_t tid n x x' pid o : same_map x x' ->
    same_event (EvM (ThreadName tid n x pid o)) (EvM (ThreadName tid n x' pid o))
| se_o k : same_event (EvM (OtherMetadata k)) (EvM (OtherMetadata k)).
(** Two documents that differ only in the iteration order of their maps. *)
Definition same_data (d d' : trace_data) : Prop :=
  td_plain d = td_plain d' /\ same_map (td_extra d) (td_extra d') /\
  Forall2 same_event (td_events d) (td_events d').

(** JSON objects have distinct keys (serde_json collects them in HashMaps). *)
Definition distinct_event (e : trace_event) : Prop :=
  match e with
  | EvX d _ _ _ => match de_args d with Some a => distinct_keys a | None => True end
  | _ => True
  end.
Definition distinct_data (d : trace_data) : Prop := Forall distinct_event (td_events d).

(** A loaded argument has a detail exactly when its type calls for one. *)
Definition well_formed_arg (r : raw_arg) : Prop :=
  (ra_detail r = None -> ~ needs_detail (ra_type r)) /\
  (ra_detail r <> None -> accepts_detail (ra_type r)).

(** What is wrong with the arguments [a] of an event whose arguments should be [expected]. *)
Definition faulty_arguments (value_ok : str -> json -> Prop) (expected : list str) (a : args)
  (e : arg_error) : Prop :=
  match e with
  | UnexpectedKeys m => m <> [] /\ distinct_keys m /\
      forall k v, In (k, v) m <-> In (k, v) a /\ ~ In k expected
  | MissingKey k => In k expected /\ forall v, ~ In (k, v) a
  | UnexpectedValue k v => In k expected /\ In (k, v) a /\ ~ value_ok k v
  end.
(** The only fields set in the complete events of activities and of global statistics. *)
Definition activity_shaped (ev : trace_event) : Prop :=
  exists pid tid ts name a dur, ev = EvX (mk_de pid tid ts (Some name) None None a None) dur None None /\
    (tid = pid \/ (pid = 1 /\ tid = 0))%Z.
Definition total_shaped (ev : trace_event) : Prop :=
  exists pid tid name a dur, ev = EvX (mk_de pid tid 0 (Some name) None None (Some a) None) dur None None /\
    tid <> 0%Z.
(** What the errors about complete events say. *)
Definition activity_fault (ev : trace_event) (e : activity_stat_error) : Prop :=
  match e with
  | SUnexpectedInput e' => e' = ev /\ ~ activity_shaped ev
  | SBadArguments (ABadArguments id err) => activity_shaped ev /\
      exists d dur td es name expected, ev = EvX d dur td es /\ de_name d = Some name /\ names id name /\
        (In name (known_names TyNothing) /\ expected = [] \/
         ~ In name (known_names TyNothing) /\ expected = [of_string "detail"]) /\
        faulty_arguments (fun _ v => exists s, v = JStr s) expected
          (match de_args d with Some a => a | None => [] end) err
  end.
Definition total_fault (ev : trace_event) (e : gstat_error) : Prop :=
  match e with
  | GUnexpectedInput e' => e' = ev /\ ~ total_shaped ev
  | GNoTotalPrefix n => total_shaped ev /\ exists d dur td es, ev = EvX d dur td es /\ de_name d = Some n /\
      forall r, n <> of_string "Total " ++ r
  | GBadArguments err => total_shaped ev /\ exists d dur td es a r, ev = EvX d dur td es /\
      de_name d = Some (of_string "Total " ++ r) /\ de_args d = Some a /\
      faulty_arguments (fun k v => (k = of_string "count" /\ as_u64 v <> None) \/
                                   (k = of_string "avg ms" /\ as_f64 v <> None))
        [of_string "count"; of_string "avg ms"] a err
  end.

(** What an error of the event loop says about the first event [ev] that could not be
    taken in after the events [pre], which read as [ks]. *)
Definition describes (us : Z) (infer : str -> option arg_type)
  (pre : list trace_event) (ks : list fact) (ev : trace_event) (e : load_error) : Prop :=
  match e with
  | InconsistentPid p q => p <> q /\ event_pid ev = Some q /\ exists e0, In e0 pre /\ event_pid e0 = Some p
  | DuplicateProcessName a b => In (FProcess a) ks /\ reads us infer ev (FProcess b)
  | DuplicateThreadName a b => In (FThread a) ks /\ reads us infer ev (FThread b)
  | DuplicateGlobalStat n old new => In (FGlobal n old) ks /\ reads us infer ev (FGlobal n new)
  | ActivityTreeError te => exists st b, reads us infer ev (FActivity st) /\
      insert_all b_new (f_activities ks ++ [st]) = (inr (length (f_activities ks), IErr te), b)
  | UnexpectedEvent e' => e' = ev /\ (exists d, ev = EvB d \/ ev = EvE d)
  | UnexpectedMetadataEvent m => ev = EvM m /\ exists k, m = OtherMetadata k
  | ActivityStatParseError f => activity_fault ev f /\ (exists d dur td es, ev = EvX d dur td es /\ (us < de_ts d)%Z) /\
      forall k, ~ reads us infer ev k
  | GlobalStatParseError f => total_fault ev f /\ (exists d dur td es, ev = EvX d dur td es /\ (de_ts d <= us)%Z) /\
      forall k, ~ reads us infer ev k
  | NameParseError (NUnexpectedInput m) => ev = EvM m /\ forall k, ~ reads us infer ev k
  | UnexpectedTraceMetadata | InvalidBeginningOfTime _ | NoProcessName => False
  end.

(** The complete events above 1 µs, in order: their name, time and duration. *)
Fixpoint timed_events (us : Z) (l : list trace_event) : list (option str * Z * Z) :=
  match l with
  | [] => []
  | EvX d dur _ _ :: l' =>
      if Z.ltb us (de_ts d) then (de_name d, de_ts d, dur) :: timed_events us l' else timed_events us l'
  | _ :: l' => timed_events us l'
  end.
(** The numbers of argument "count". *)
Definition reports_count (d : duration_event) (n : N) : Prop :=
  exists a v, de_args d = Some a /\ In (of_string "count", v) a /\ as_u64 v = Some n.

(** ** What the detail of an activity says *)

(** Symbols as the linker knows them; clang may write them in parentheses. *)
Definition linker_symbol (s : str) : Prop :=
  (exists r, s = of_string "_Z" ++ r) \/ s = of_string "main" \/ s = of_string "__clang_call_terminate" \/
  (exists r, s = of_string "__cxx_global_var_init" ++ r) \/ (exists r, s = of_string "_GLOBAL__sub_I_" ++ r).
Definition parenthesized (d s : str) : Prop := d = of_string "(" ++ s ++ of_string ")".
Definition without_parentheses (d s : str) : Prop :=
  parenthesized d s \/ (s = d /\ forall x, ~ parenthesized d x).
Definition symbol_like (d : str) : Prop := exists s, without_parentheses d s /\ linker_symbol s.
(** Paths and their stand-in *)
Definition file_like (d : str) : Prop := (exists r, d = of_string "/" ++ r) \/ d = of_string "[module]".

(** Words of a text for humans: letters and digits, with dashes, slashes, arrows and, after
    capitals, underscores inside. *)
Section Text.
  Variables upper alnum : chr -> bool.
  Definition inside (before : str) (c : chr) : Prop :=
    alnum c = true \/ c = 45%N \/ c = 47%N \/
    (c = 62%N /\ exists b x, before = b :: x ++ [45%N]) \/
    (c = 95%N /\ exists b x u, before = b :: x ++ [u] /\ upper u = true).
  Definition text_word (w : str) : Prop :=
    w = of_string "&" \/ w = of_string "memcmp()" \/ w = [] \/
    (exists c, w = [c] /\ alnum c = true) \/
    (exists a m z, w = a :: m ++ [z] /\ alnum a = true /\ alnum z = true /\
       forall x c y, m = x ++ c :: y -> inside (a :: x) c).
  (** words separated by single spaces *)
  Fixpoint spaced (ws : list str) : str :=
    match ws with
    | [] => []
    | [w] => w
    | w :: rest => w ++ of_string " " ++ spaced rest
    end.
  Definition text_like (d : str) : Prop :=
    (exists c r, d = c :: r /\ upper c = true) /\
    exists ws, d = spaced ws /\ Forall (fun w => text_word w /\ ~ In 32%N w) ws.

  (** What a detail is taken for when the activity is unknown *)
  Inductive taken_for (d : str) : arg_type -> Prop :=
  | tf_symbol : symbol_like d -> taken_for d TySymbol
  | tf_loop : d = of_string "<unnamed loop>" -> taken_for d TyUnnamedLoop
  | tf_file : file_like d -> taken_for d TyFilePathOrModule
  | tf_text : ~ symbol_like d -> d <> of_string "<unnamed loop>" -> ~ file_like d -> text_like d ->
      taken_for d TyString
  | tf_entity : ~ symbol_like d -> d <> of_string "<unnamed loop>" -> ~ file_like d -> ~ text_like d ->
      d <> [] -> taken_for d TyCppEntity.
End Text.

(** What the display gets of an argument: [entity] reads a C++ entity ([None] if it is not
    one), [demangle] a symbol, [file] stores a path. *)
Section Shown.
  Context {EK : Type}.
  Variable entity : str -> option EK -> Prop.
  Variable demangle : str -> option str.
  Variable file : str -> key -> Prop.
  (** the C++ entity of a symbol *)
  Definition named_by (s t : str) : Prop :=
    demangle s = Some t \/
    (demangle s = None /\ t = s /\ (s = of_string "main" \/ s = of_string "__clang_call_terminate")).
  Inductive symbol_read (d : str) : parsed_symbol EK -> Prop :=
  | sr_parsed s t e : without_parentheses d s -> named_by s t -> entity t (Some e) -> symbol_read d (PSParsed e)
  | sr_text s t : without_parentheses d s -> named_by s t -> entity t None -> symbol_read d (PSDemangled t)
  | sr_raw s : without_parentheses d s -> demangle s = None -> s <> of_string "main" ->
      s <> of_string "__clang_call_terminate" -> symbol_read d (PSMaybeMangled s).
  Inductive argument_shown : raw_arg -> parsed_arg EK -> Prop :=
  | as_nothing t : In t [TyNothing; TySymbolOpt; TyUnnamedLoopOpt] -> argument_shown (mk_raw t None) PNothing
  | as_text d : argument_shown (mk_raw TyString (Some d)) (PString d)
  | as_module : argument_shown (mk_raw TyFilePathOrModule (Some (of_string "[module]"))) PModule
  | as_file d k : d <> of_string "[module]" -> file d k ->
      argument_shown (mk_raw TyFilePathOrModule (Some d)) (PFilePath k)
  | as_entity d e : entity d (Some e) -> argument_shown (mk_raw TyCppEntity (Some d)) (PCppEntity e)
  | as_symbol t d p : In t [TySymbol; TySymbolOpt] -> symbol_read d p ->
      argument_shown (mk_raw t (Some d)) (PSymbol p)
  | as_loop t : In t [TyUnnamedLoop; TyUnnamedLoopOpt] ->
      argument_shown (mk_raw t (Some (of_string "<unnamed loop>"))) PUnnamedLoop.
  (** and why it may get nothing *)
  Inductive argument_rejected : raw_arg -> argument_error -> Prop :=
  | ar_entity d : entity d None -> argument_rejected (mk_raw TyCppEntity (Some d)) (BadCppEntity d)
  | ar_loop t d : In t [TyUnnamedLoop; TyUnnamedLoopOpt] -> d <> of_string "<unnamed loop>" ->
      argument_rejected (mk_raw t (Some d)) (UnexpectedLoopName d).
End Shown.

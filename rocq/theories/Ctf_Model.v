(** * Model of the Chrome Trace Event layer of clang-time-trace

    Source: clang-time-trace/src/ctf/{mod,stack}.rs and src/ctf/events/{duration,metadata}.rs,
    that is, of the deserialisers that serde_derive 1.0.216 generates from the attributes of
    these types, and of `ClangTrace::from_str` (src/lib.rs:223-226), which runs them first.

    The input is a JSON document as serde_json's tokenizer presents it: objects are lists of
    fields in file order, possibly with duplicate keys; a number is an integer (if it is one
    that fits u64 or i64) or a float.  Not modelled: text to document (syntax, depth limit).

    Simplifications, for the whole file:
    - All deserialisation errors are one value ([None]), so a field may be read after the loop
      over fields rather than in it.
    - The f64 value of a number is a parameter: [time n] is its value in the unit of Load_Model,
      [ident n] identifies it.
    - The iteration order of HashMaps is a parameter [iter], any permutation.
    - Contents of stack traces are dropped: present ones are [Some 0]. *)

From Coq Require Import String.
From Verif Require Import Base Load_Model.
Local Open Scope bool_scope.
Local Open Scope list_scope.

Inductive number := NInt (z : Z) | NFloat (f : N).

Inductive doc :=
| DNull | DBool (b : bool) | DNum (n : number) | DStr (s : str)
| DArr (l : list doc) | DObj (l : list (str * doc)).

Definition fields := list (str * doc).

(** Order of the keys of serde_json's maps *)
Fixpoint str_ltb (a b : str) : bool :=
  match a, b with
  | [], [] => false
  | [], _ :: _ => true
  | _ :: _, [] => false
  | x :: a', y :: b' => N.ltb x y || (N.eqb x y && str_ltb a' b')
  end.

(** Insertion in a map: the last value of a key wins. *)
Fixpoint put {V} (k : str) (v : V) (l : list (str * V)) : list (str * V) :=
  match l with
  | [] => [(k, v)]
  | (k', v') :: r =>
      if str_eqb k' k then (k, v) :: r
      else if str_ltb k k' then (k, v) :: l
      else (k', v') :: put k v r
  end.
Definition collect {V} (l : list (str * V)) : list (str * V) :=
  fold_left (fun m e => put (fst e) (snd e) m) l [].

(** Truth that a key is one of the fields of a struct *)
Definition known (names : list str) (k : str) : bool := existsb (fun n => str_eqb n k) names.

(** serde_derive, `visit_map` of a struct: known fields (at most once each), other fields *)
Fixpoint visit (names : list str) (seen rest l : fields) : option (fields * fields) :=
  match l with
  | [] => Some (seen, rest)
  | (k, v) :: l' =>
      if known names k then
        match lookup k seen with
        | Some _ => None
        | None => visit names (seen ++ [(k, v)]) rest l'
        end
      else visit names seen (rest ++ [(k, v)]) l'
  end.

(** serde `TaggedContentVisitor::visit_map`: the tag (exactly once), other fields *)
Definition take_tag (tag : str) (l : fields) : option (doc * fields) :=
  match visit [tag] [] [] l with
  | Some ([(_, v)], rest) => Some (v, rest)
  | _ => None
  end.

Definition obnd {A B} (x : option A) (f : A -> option B) : option B :=
  match x with Some a => f a | None => None end.

(** A field that must be there *)
Definition required {A} (conv : doc -> option A) (k : str) (l : fields) : option A :=
  obnd (lookup k l) conv.
(** A field of type Option: absent or null is None *)
Definition optional {A} (conv : doc -> option A) (k : str) (l : fields) : option (option A) :=
  match lookup k l with
  | None | Some DNull => Some None
  | Some v => option_map Some (conv v)
  end.

(** Scalars *)
Definition within (lo hi : Z) (d : doc) : option Z :=
  match d with
  | DNum (NInt z) => if Z.leb lo z && Z.leb z hi then Some z else None
  | _ => None
  end.
Definition as_i32 : doc -> option Z := within (-2147483648) 2147483647.
Definition as_i64 : doc -> option Z := within (-9223372036854775808) 9223372036854775807.
Definition as_text (d : doc) : option str := match d with DStr s => Some s | _ => None end.

Fixpoint all_some {A B} (f : A -> option B) (l : list A) : option (list B) :=
  match l with
  | [] => Some []
  | a :: r => obnd (f a) (fun b => obnd (all_some f r) (fun bs => Some (b :: bs)))
  end.
Definition as_list {A} (f : doc -> option A) (d : doc) : option (list A) :=
  match d with DArr l => all_some f l | _ => None end.

(** `str::split(',')` *)
Fixpoint split_commas (cur s : str) : list str :=
  match s with
  | [] => [cur]
  | c :: r => if N.eqb c 44 then cur :: split_commas [] r else split_commas (cur ++ [c]) r
  end.
(** ctf/mod.rs:195-206, EventCategories *)
Definition as_categories (d : doc) : option (list str) :=
  option_map (fun s => filter (fun p => negb (str_eqb p [])) (split_commas [] s)) (as_text d).

(** ctf/stack.rs:35-57, StackFrameId *)
Definition as_frame_id (d : doc) : option unit :=
  match d with
  | DStr _ => Some tt
  | _ => option_map (fun _ => tt) (as_i64 d)
  end.

Definition nm (s : string) : str := of_string s.

(** ctf/stack.rs:8-32, StackTrace and EndStackTrace, as a flattened Option: the first field
    with one of the two names decides, and any error reads as None (serde,
    `FlatMapDeserializer::deserialize_option` and `deserialize_enum`). *)
Definition stack_trace (id inline : str) (l : fields) : option N :=
  match find (fun e => known [id; inline] (fst e)) l with
  | None => None
  | Some (key, v) =>
      if str_eqb key id then option_map (fun _ => 0%N) (as_frame_id v)
      else option_map (fun _ => 0%N) (as_list as_text v)
  end.

(** A struct with `deny_unknown_fields`, from an object or from an array with all its fields *)
Definition strict (names : list str) (d : doc) : option fields :=
  match d with
  | DObj l => match visit names [] [] l with Some (seen, []) => Some seen | _ => None end
  | DArr l => if Nat.eqb (length l) (length names) then Some (combine names l) else None
  | _ => None
  end.
(** ctf/stack.rs:60-70, StackFrame *)
Definition as_stack_frame (d : doc) : option unit :=
  obnd (strict [nm "category"; nm "name"; nm "parent"] d) (fun l =>
  obnd (required as_text (nm "category") l) (fun _ =>
  obnd (required as_text (nm "name") l) (fun _ =>
  obnd (optional as_frame_id (nm "parent") l) (fun _ => Some tt)))).
(** ctf/mod.rs:65, the values of stackFrames *)
Definition as_stack_frames (d : doc) : option unit :=
  match d with
  | DObj l => option_map (fun _ => tt) (all_some (fun e => as_stack_frame (snd e)) l)
  | _ => None
  end.
(** ctf/mod.rs:142-148, DisplayTimeUnit; [true] is ms, the default.  A unit variant may also be
    written as an object with null. *)
Definition as_time_unit (d : doc) : option bool :=
  match (match d with DStr s => Some s | DObj [(s, DNull)] => Some s | _ => None end) with
  | Some s => if str_eqb s (nm "ms") then Some true else if str_eqb s (nm "ns") then Some false else None
  | None => None
  end.

Section WithNumbers.
  Variable time : number -> Z.
  Variable ident : number -> N.
  Variable iter : args -> args.

  (** serde_json::Value *)
  Fixpoint to_value (d : doc) : json :=
    match d with
    | DNull => JNull
    | DBool b => JBool b
    | DNum n => JNum (match n with NInt z => if Z.leb 0 z then Some (Z.to_N z) else None | NFloat _ => None end)
                     (ident n)
    | DStr s => JStr s
    | DArr l => JArr (map to_value l)
    | DObj l => JObj (collect (map (fun e => (fst e, to_value (snd e))) l))
    end.
  (** HashMap<Box<str>, Value> *)
  Definition to_map (l : fields) : args :=
    iter (collect (map (fun e => (fst e, to_value (snd e))) l)).
  Definition as_map (d : doc) : option args :=
    match d with DObj l => Some (to_map l) | _ => None end.

  Definition as_time (d : doc) : option Z := match d with DNum n => Some (time n) | _ => None end.

  (** ctf/mod.rs:158-177, Sample *)
  Definition as_sample (d : doc) : option unit :=
    obnd (strict [nm "cpu"; nm "tid"; nm "ts"; nm "name"; nm "sf"; nm "weight"] d) (fun l =>
    obnd (optional as_i32 (nm "cpu") l) (fun _ =>
    obnd (required as_i32 (nm "tid") l) (fun _ =>
    obnd (required as_time (nm "ts") l) (fun _ =>
    obnd (required as_text (nm "name") l) (fun _ =>
    obnd (required as_frame_id (nm "sf") l) (fun _ =>
    obnd (required as_i64 (nm "weight") l) (fun _ => Some tt))))))).

  (** ctf/events/duration.rs:12-40 *)
  Definition to_duration_event (l : fields) : option duration_event :=
    obnd (visit [nm "pid"; nm "tid"; nm "ts"; nm "name"; nm "cat"; nm "tts"; nm "args"] [] [] l)
      (fun '(seen, rest) =>
    obnd (required as_i32 (nm "pid") seen) (fun pid =>
    obnd (required as_i32 (nm "tid") seen) (fun tid =>
    obnd (required as_time (nm "ts") seen) (fun ts =>
    obnd (optional as_text (nm "name") seen) (fun name =>
    obnd (optional as_categories (nm "cat") seen) (fun cat =>
    obnd (optional as_time (nm "tts") seen) (fun tts =>
    obnd (optional as_map (nm "args") seen) (fun a =>
    Some (mk_de pid tid ts name cat tts a (stack_trace (nm "sf") (nm "stack") rest)))))))))).

  (** ctf/mod.rs:96-111, the variant X *)
  Definition to_complete_event (l : fields) : option trace_event :=
    obnd (visit [nm "dur"; nm "tdur"] [] [] l) (fun '(seen, rest) =>
    obnd (required as_time (nm "dur") seen) (fun dur =>
    obnd (optional as_time (nm "tdur") seen) (fun tdur =>
    obnd (to_duration_event rest) (fun d =>
    Some (EvX d dur tdur (stack_trace (nm "esf") (nm "estack") rest)))))).

  (** ctf/events/metadata.rs:102-114, MetadataOptions *)
  Definition to_options (l : fields) : option metadata_options :=
    obnd (visit [nm "cat"; nm "ts"; nm "tts"] [] [] l) (fun '(seen, _) =>
    obnd (optional as_categories (nm "cat") seen) (fun cat =>
    obnd (optional as_time (nm "ts") seen) (fun ts =>
    obnd (optional as_time (nm "tts") seen) (fun tts => Some (mk_mo cat ts tts))))).

  (** ctf/events/metadata.rs:117-153, NameArgs, LabelsArgs and SortIndexArgs: the one standard
      argument, and the others *)
  Definition to_args {A} (name : str) (conv : doc -> option A) (d : doc) : option (A * args) :=
    match d with
    | DObj l => obnd (visit [name] [] [] l) (fun '(seen, rest) =>
                obnd (required conv name seen) (fun x => Some (x, to_map rest)))
    | _ => None
    end.

  (** ctf/events/metadata.rs:19-98: fields of the variants; [owner] must be there, [other] may *)
  Definition to_metadata {A} (arg : str) (conv : doc -> option A) (owner other : str) (l : fields)
    : option (Z * A * args * option Z * metadata_options) :=
    obnd (visit [owner; nm "args"; other] [] [] l) (fun '(seen, rest) =>
    obnd (required as_i32 owner seen) (fun x =>
    obnd (required (to_args arg conv) (nm "args") seen) (fun '(a, extra) =>
    obnd (optional as_i32 other seen) (fun y =>
    obnd (to_options rest) (fun o => Some (x, a, extra, y, o)))))).

  (** ctf/events/metadata.rs:13-18: the tag, a name or (serde, `deserialize_identifier` of
      buffered content) the index of a variant *)
  Definition metadata_kind (d : doc) : option nat :=
    match d with
    | DStr s =>
        if str_eqb s (nm "process_name") then Some 0
        else if str_eqb s (nm "process_labels") then Some 1
        else if str_eqb s (nm "process_sort_index") then Some 2
        else if str_eqb s (nm "thread_name") then Some 3
        else if str_eqb s (nm "thread_sort_index") then Some 4
        else None
    | DNum (NInt z) => if Z.leb 0 z && Z.ltb z 5 then Some (Z.to_nat z) else None
    | _ => None
    end.
  Definition to_metadata_event (l : fields) : option trace_event :=
    obnd (take_tag (nm "name") l) (fun '(tag, rest) =>
    match metadata_kind tag with
    | Some 0 => obnd (to_metadata (nm "name") as_text (nm "pid") (nm "tid") rest)
                  (fun '(pid, name, extra, tid, o) => Some (EvM (ProcessName pid name extra tid o)))
    | Some 1 => obnd (to_metadata (nm "labels") as_text (nm "pid") (nm "tid") rest)
                  (fun _ => Some (EvM (OtherMetadata 1)))
    | Some 2 => obnd (to_metadata (nm "sort_order") as_i64 (nm "pid") (nm "tid") rest)
                  (fun _ => Some (EvM (OtherMetadata 2)))
    | Some 3 => obnd (to_metadata (nm "name") as_text (nm "tid") (nm "pid") rest)
                  (fun '(tid, name, extra, pid, o) => Some (EvM (ThreadName tid name extra pid o)))
    | Some 4 => obnd (to_metadata (nm "sort_order") as_i64 (nm "tid") (nm "pid") rest)
                  (fun _ => Some (EvM (OtherMetadata 4)))
    | _ => None
    end).

  (** ctf/mod.rs:83-119 *)
  Definition to_event (d : doc) : option trace_event :=
    match d with
    | DObj l =>
        obnd (take_tag (nm "ph") l) (fun '(tag, rest) =>
        match tag with
        | DStr s =>
            if str_eqb s (nm "B") then option_map EvB (to_duration_event rest)
            else if str_eqb s (nm "E") then option_map EvE (to_duration_event rest)
            else if str_eqb s (nm "X") then to_complete_event rest
            else if str_eqb s (nm "M") then to_metadata_event rest
            else None
        | _ => None
        end)
    | _ => None
    end.

  Definition is_none {A} (o : option A) : bool := match o with None => true | Some _ => false end.

  (** ctf/mod.rs:38-78 *)
  Definition to_trace_data (d : doc) : option trace_data :=
    match d with
    | DObj l =>
        obnd (visit [nm "traceEvents"; nm "displayTimeUnit"; nm "systemTraceEvents";
                     nm "powerTraceAsString"; nm "stackFrames"; nm "samples";
                     nm "controllerTraceDataKey"] [] [] l) (fun '(seen, rest) =>
        obnd (required (as_list to_event) (nm "traceEvents") seen) (fun events =>
        obnd (match lookup (nm "displayTimeUnit") seen with
              | Some v => as_time_unit v
              | None => Some true
              end) (fun unit_ms =>
        obnd (optional as_text (nm "systemTraceEvents") seen) (fun f1 =>
        obnd (optional as_text (nm "powerTraceAsString") seen) (fun f2 =>
        obnd (optional as_stack_frames (nm "stackFrames") seen) (fun f3 =>
        obnd (optional (as_list as_sample) (nm "samples") seen) (fun f4 =>
        obnd (optional as_text (nm "controllerTraceDataKey") seen) (fun f5 =>
        Some (mk_td events
                (unit_ms && is_none f1 && is_none f2 && is_none f3 && is_none f4 && is_none f5)
                (to_map rest))))))))))
    | _ => None
    end.

  (** Results of `ClangTrace::from_str` *)
  Inductive loading := Loaded (ct : clang_trace) | CtfError | LoadError (e : load_error) | Panicked.

  (** clang-time-trace/src/lib.rs:223-354 *)
  Definition from_document (us : Z) (up al : chr -> bool) (d : doc) : loading :=
    match to_trace_data d with
    | None => CtfError
    | Some td => match from_data us up al td with
                 | Ok ct => Loaded ct
                 | Err e => LoadError e
                 | Boom => Panicked
                 end
    end.
End WithNumbers.

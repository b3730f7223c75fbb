(** Model of the processing thread of the text user interface: src/ui/tui/processing.rs.

    The library functions it calls are parameters: what a trace answers, and how activity
    arguments are parsed (which changes the trace, as it adds to its interners). *)
From Verif Require Import Base.
Local Open Scope nat_scope.

(** src/ui/display/mod.rs DisplayConfig, as used here *)
Inductive config := SingleLine (max_cols : N) | MultiLine (tot_cols : N).
(** Requests for lists of activities (processing.rs:208-218) *)
Inductive list_query := RootActivities | AllActivities | DirectChildren (id : N) | AllChildren (id : N).

Section Proc.
  Variables trace arg info : Type.
  (** ui/mod.rs:14-27, force_parse_arg *)
  Variable parse : trace -> N -> outcome (trace * arg).
  (** processing.rs:430-446: resolve the argument and display it *)
  Variable render : trace -> N -> arg -> config -> outcome (str * bool).
  (** ui/display/metadata.rs, metadata *)
  Variable metadata : trace -> N -> outcome str.
  (** ClangTrace and ActivityTrace methods, activity_list (processing.rs:343-355) *)
  Variable activities : trace -> list_query -> outcome (list info).

  (** processing.rs:199-233.  What reading and parsing the file gave is part of the instruction. *)
  Inductive instruction :=
  | LoadTrace (loaded : option trace)
  | DescribeTrace (max_cols : N)
  | GetActivities (q : list_query)
  | DescribeActivities (ids : list N) (max_cols : N)
  | DescribeActivity (id : N) (max_cols : N).
  (** What is sent over the three reply channels, or to the callback of a load *)
  Inductive reply_t :=
  | RString (s : str) (wrap : bool)
  | RActivities (l : list info)
  | RDescs (l : list str)
  | RLoaded (ok : bool).

  (** processing.rs:243-251 *)
  Record worker_state := {
    w_trace : option trace;
    w_args : list (N * arg);
    w_descs : list (N * str);
    w_cols : N }.
  Definition worker_init : worker_state :=
    {| w_trace := None; w_args := []; w_descs := []; w_cols := 0 |}.

  (** HashMap lookup *)
  Definition lookup {A} (m : list (N * A)) (id : N) : option A :=
    match find (fun '(i, _) => N.eqb i id) m with Some (_, a) => Some a | None => None end.

  (** processing.rs:412-450 *)
  Definition describe_activity (t : trace) (args : list (N * arg)) (id : N) (c : config)
    : outcome (trace * list (N * arg) * (str * bool)) :=
    match lookup args id with
    | Some a => obind (render t id a c) (fun r => Ret (t, args, r))
    | None => obind (parse t id) (fun '(t', a) => obind (render t' id a c) (fun r => Ret (t', (id, a) :: args, r)))
    end.

  (** processing.rs:362-403 *)
  Fixpoint describe_activities (t : trace) (args : list (N * arg)) (descs : list (N * str))
      (ids : list N) (max_cols : N) : outcome (trace * list (N * arg) * list (N * str) * list str) :=
    match ids with
    | [] => Ret (t, args, descs, [])
    | id :: rest =>
        match lookup descs id with
        | Some s =>
            obind (describe_activities t args descs rest max_cols)
              (fun '(t', args', descs', l) => Ret (t', args', descs', s :: l))
        | None =>
            obind (describe_activity t args id (SingleLine max_cols))
              (fun '(t1, args1, (s, wrap)) =>
                 if wrap : bool then Panic
                 else obind (describe_activities t1 args1 ((id, s) :: descs) rest max_cols)
                        (fun '(t', args', descs', l) => Ret (t', args', descs', s :: l)))
        end
    end.

  (** processing.rs:254-335, one turn of the loop *)
  Definition worker_step (w : worker_state) (i : instruction) : outcome (worker_state * reply_t) :=
    match i with
    | LoadTrace loaded =>
        Ret ({| w_trace := loaded; w_args := []; w_descs := []; w_cols := w_cols w |},
             RLoaded (match loaded with Some _ => true | None => false end))
    | DescribeTrace max_cols =>
        obind (expect (w_trace w)) (fun t => obind (metadata t max_cols) (fun s => Ret (w, RString s false)))
    | GetActivities q =>
        obind (expect (w_trace w)) (fun t => obind (activities t q) (fun l => Ret (w, RActivities l)))
    | DescribeActivities ids max_cols =>
        let '(descs, cols) :=
          if negb (N.eqb max_cols (w_cols w)) then ([], max_cols) else (w_descs w, w_cols w) in
        obind (expect (w_trace w)) (fun t =>
          obind (describe_activities t (w_args w) descs ids max_cols) (fun '(t', args', descs', l) =>
            Ret ({| w_trace := Some t'; w_args := args'; w_descs := descs'; w_cols := cols |}, RDescs l)))
    | DescribeActivity id max_cols =>
        obind (expect (w_trace w)) (fun t =>
          obind (describe_activity t (w_args w) id (MultiLine max_cols)) (fun '(t', args', (s, wrap)) =>
            Ret ({| w_trace := Some t'; w_args := args'; w_descs := w_descs w; w_cols := w_cols w |},
                 RString s wrap)))
    end.

  (** The loop on a list of instructions: the replies so far, and whether the thread panicked *)
  Fixpoint worker_run (w : worker_state) (l : list instruction) : list reply_t * outcome worker_state :=
    match l with
    | [] => ([], Ret w)
    | i :: rest =>
        match worker_step w i with
        | Panic => ([], Panic)
        | Ret (w', r) => let '(rs, o) := worker_run w' rest in (r :: rs, o)
        end
    end.

  (** ** The two threads (processing.rs:52-163, 254) *)

  (** Reply channels; the callback of a load goes to cursive's own channel *)
  Inductive channel := CString | CActivities | CDescs | CCallback.
  Definition channel_of (r : reply_t) : channel :=
    match r with RString _ _ => CString | RActivities _ => CActivities | RDescs _ => CDescs | RLoaded _ => CCallback end.
  (** Which channel the UI thread reads after its request (processing.rs:106-152); it does
      not wait for loads *)
  Definition awaited (i : instruction) : option channel :=
    match i with
    | LoadTrace _ => None
    | DescribeTrace _ | DescribeActivity _ _ => Some CString
    | GetActivities _ => Some CActivities
    | DescribeActivities _ _ => Some CDescs
    end.

  Record system := {
    y_waiting : option (instruction * channel);      (* the UI thread is in `fetch` *)
    y_instructions : list instruction;
    y_string : list reply_t;
    y_activities : list reply_t;
    y_descs : list reply_t;
    y_callbacks : list reply_t;
    y_worker : outcome worker_state;
    (* ghost state *)
    y_sent : list instruction;                       (* all instructions sent *)
    y_seen : list (instruction * reply_t) }.         (* requests and what `fetch` returned *)
  Definition system_init : system :=
    {| y_waiting := None; y_instructions := []; y_string := []; y_activities := []; y_descs := [];
       y_callbacks := []; y_worker := Ret worker_init; y_sent := []; y_seen := [] |}.

  Definition chan (y : system) (c : channel) : list reply_t :=
    match c with
    | CString => y_string y | CActivities => y_activities y | CDescs => y_descs y | CCallback => y_callbacks y
    end.
  Definition set_chan (y : system) (c : channel) (l : list reply_t) : system :=
    {| y_waiting := y_waiting y; y_instructions := y_instructions y;
       y_string := match c with CString => l | _ => y_string y end;
       y_activities := match c with CActivities => l | _ => y_activities y end;
       y_descs := match c with CDescs => l | _ => y_descs y end;
       y_callbacks := match c with CCallback => l | _ => y_callbacks y end;
       y_worker := y_worker y; y_sent := y_sent y; y_seen := y_seen y |}.

  Inductive system_step : system -> system -> Prop :=
  (* processing.rs:155-159, by any of the methods above it *)
  | ss_request y i : y_waiting y = None ->
      system_step y
        {| y_waiting := match awaited i with Some c => Some (i, c) | None => None end;
           y_instructions := y_instructions y ++ [i];
           y_string := y_string y; y_activities := y_activities y; y_descs := y_descs y;
           y_callbacks := y_callbacks y; y_worker := y_worker y;
           y_sent := y_sent y ++ [i]; y_seen := y_seen y |}
  (* processing.rs:161-166 *)
  | ss_fetch y i c r rest : y_waiting y = Some (i, c) -> chan y c = r :: rest ->
      system_step y
        {| y_waiting := None; y_instructions := y_instructions (set_chan y c rest);
           y_string := y_string (set_chan y c rest); y_activities := y_activities (set_chan y c rest);
           y_descs := y_descs (set_chan y c rest); y_callbacks := y_callbacks (set_chan y c rest);
           y_worker := y_worker y; y_sent := y_sent y; y_seen := y_seen y ++ [(i, r)] |}
  (* processing.rs:254-335, 340-342; replies are sent to the channel of their type *)
  | ss_work y w i rest w' r : y_worker y = Ret w -> y_instructions y = i :: rest ->
      worker_step w i = Ret (w', r) ->
      system_step y
        (let y' := set_chan y (channel_of r) (chan y (channel_of r) ++ [r]) in
         {| y_waiting := y_waiting y; y_instructions := rest;
            y_string := y_string y'; y_activities := y_activities y'; y_descs := y_descs y';
            y_callbacks := y_callbacks y'; y_worker := Ret w'; y_sent := y_sent y; y_seen := y_seen y |})
  | ss_crash y w i rest : y_worker y = Ret w -> y_instructions y = i :: rest ->
      worker_step w i = Panic ->
      system_step y
        {| y_waiting := y_waiting y; y_instructions := rest;
           y_string := y_string y; y_activities := y_activities y; y_descs := y_descs y;
           y_callbacks := y_callbacks y; y_worker := Panic; y_sent := y_sent y; y_seen := y_seen y |}.
  Inductive system_reach : system -> Prop :=
  | sr_init : system_reach system_init
  | sr_step y y' : system_reach y -> system_step y y' -> system_reach y'.
End Proc.
Arguments LoadTrace {trace}. Arguments DescribeTrace {trace}. Arguments GetActivities {trace}.
Arguments DescribeActivities {trace}. Arguments DescribeActivity {trace}.
Arguments RString {info}. Arguments RActivities {info}. Arguments RDescs {info}. Arguments RLoaded {info}.
Arguments awaited {trace}. Arguments channel_of {info}.
Arguments w_trace {trace arg}. Arguments w_args {trace arg}. Arguments w_descs {trace arg}. Arguments w_cols {trace arg}.
Arguments worker_init {trace arg}.
Arguments y_waiting {trace arg info}. Arguments y_instructions {trace arg info}. Arguments y_string {trace arg info}.
Arguments y_activities {trace arg info}. Arguments y_descs {trace arg info}. Arguments y_callbacks {trace arg info}.
Arguments y_worker {trace arg info}. Arguments y_sent {trace arg info}. Arguments y_seen {trace arg info}.
Arguments chan {trace arg info}. Arguments set_chan {trace arg info}.

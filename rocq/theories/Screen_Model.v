(** * Model of the screen of the text user interface

    Source: src/ui/tui/{init,mod,create}.rs, src/ui/tui/trace/{mod,load,display,measure}.rs,
    src/ui/tui/build/display.rs, and of src/ui/tui/processing.rs the queue of a processing
    thread (its replies are the subject of Proc_Model.v).

    Simplifications, for the whole file:
    - cursive itself is modelled as: a stack of layers, of which only the topmost receives
      keys; a global callback runs when the topmost layer ignores the key; a FIFO of callbacks
      sent by other threads, run one at a time by the UI thread, between two key presses;
      [find_name]/[call_on_name] look through the layers, from the bottom to the top.
    - The result of loading the [l]-th requested trace is a parameter [W l] ([None]: the load
      failed), so that theorems hold for all files.  Durations are exact natural numbers; a
      percentage norm 100 / d is represented by its divisor [d], and is not finite iff d = 0.
    - Not modelled: descriptions, terminal size (it is assumed that there are at least 31
      columns), refresh rate, direction of the sort and selection, file system (Files_Model.v),
      names of activities (an activity is named by its identifier), and the dialogs of the
      program before the full-build table appears, which leave no layer behind.
    - A panic in the UI thread, or in the processing thread which it is waiting for, is [Crash]. *)

From Coq Require Import List PeanoNat NArith Bool.
Import ListNotations.
Local Open Scope nat_scope.
Local Open Scope bool_scope.
Local Open Scope list_scope.

(** ** Traces *)

(** An activity of a trace: identifier, duration, callees (clang_time_trace ActivityTrace). *)
Inductive node := Node (id : nat) (dur : N) (kids : list node).

Definition n_id (n : node) : nat := match n with Node i _ _ => i end.
Definition n_dur (n : node) : N := match n with Node _ d _ => d end.
Definition n_kids (n : node) : list node := match n with Node _ _ k => k end.

(** A loaded trace is the list of its root activities. *)
Definition trace := list node.

(** src/ui/tui/processing.rs:184-196, ActivityInfo. *)
Record act := { a_id : nat; a_dur : N; a_kids : bool }.

(** src/ui/tui/processing.rs, activity_list: what is sent to the UI about an activity. *)
Definition info (n : node) : act :=
  {| a_id := n_id n; a_dur := n_dur n;
     a_kids := match n_kids n with [] => false | _ => true end |}.

(** An activity and all those below it. *)
Fixpoint nodes (n : node) : list node :=
  match n with
  | Node _ _ k => n :: flat_map nodes k
  end.

Definition all_nodes (tr : trace) : list node := flat_map nodes tr.

(** src/ui/tui/processing.rs:276-279, GetRootActivities. *)
Definition root_activities (tr : trace) : list act := map info tr.

(** src/ui/tui/processing.rs:282-285, GetAllActivities (in another order). *)
Definition all_activities (tr : trace) : list act := map info (all_nodes tr).

(** clang_time_trace ClangTrace::activity_trace. *)
Definition find_node (tr : trace) (id : nat) : option node :=
  find (fun n => n_id n =? id) (all_nodes tr).

(** src/ui/tui/processing.rs:288-294, GetDirectChildren; [None]: the thread panics. *)
Definition direct_children (tr : trace) (id : nat) : option (list act) :=
  option_map (fun n => map info (n_kids n)) (find_node tr id).

(** src/ui/tui/processing.rs:297-303, GetAllChildren. *)
Definition all_children (tr : trace) (id : nat) : option (list act) :=
  option_map (fun n => map info (flat_map nodes (n_kids n))) (find_node tr id).

(** src/ui/tui/trace/mod.rs:10-13, percent_norm: panics unless 100 / d is finite. *)
Definition percent_norm (d : N) : option N := if N.eqb d 0 then None else Some d.

(** src/ui/tui/trace/load.rs:42-45, sum of the durations of activities. *)
Definition sum_durations (l : list act) : N := fold_right (fun a s => (a_dur a + s)%N) 0%N l.

(** ** Display settings *)

(** src/ui/tui/trace/display.rs:121-130, ProfileKind. *)
Inductive pkind := Hierarchical | Flat.

(** src/ui/tui/trace/display.rs:619-625, PercentageReference. *)
Inductive pref := Global | Parent.

(** src/ui/tui/trace/display.rs:605-615, DurationDisplay. *)
Inductive dd := Time | Percentage (norm : N) (r : pref).

(** src/ui/tui/trace/display.rs:629-639, HierarchicalColumnName. *)
Inductive column := TotalDuration | SelfDuration | Description.

(** src/ui/tui/trace/display.rs:643-648, into_flat. *)
Definition into_flat (c : column) : column :=
  match c with TotalDuration => SelfDuration | _ => c end.

(** src/ui/tui/trace/display.rs:564-568, the column by which a table is sorted. *)
Definition kind_column (k : pkind) (c : column) : column :=
  match k with Hierarchical => c | Flat => into_flat c end.

(** src/ui/tui/trace/display.rs:268-272 and 508-512, norm of a layer in relative mode. *)
Definition with_norm (d : dd) (norm : N) : dd :=
  match d with Percentage _ Parent => Percentage norm Parent | _ => d end.

(** ** Layers *)

(** src/ui/tui/trace/display.rs:179 and 347-378, get_other_activities: either a query to the
    processing thread (about all activities, or about those below one), or the activities of
    the view that was replaced, with the load they came from. *)
Inductive other :=
| Query (about : option nat)
| Saved (rows : list act) (src : nat).

(** src/ui/tui/trace/display.rs:308-382, a profile table.  [p_src] is a ghost: the load from
    which the activities of the table came. *)
Record view := {
  p_table : nat;             (* suffix of the name of the table *)
  p_kind : pkind;
  p_rows : list act;
  p_src : nat;
  p_other : other;
  p_dd : dd;                 (* in its duration columns *)
  p_key : column             (* active sorting column *)
}.

(** src/ui/tui/init.rs:46-62, dialogs of the global shortcuts; the backtrace dialog remembers
    the number of layers below the profiles (init.rs:90-104) and has an item per profile. *)
Inductive dialog :=
| QuitDialog
| HelpDialog
| Backtrace (items : nat) (below : nat).

Inductive layer :=
| LTable                                  (* build/display.rs:100-104 *)
| LPrompt (profile_exists : bool)         (* create.rs:78-82 *)
| LInfo                                   (* Dialog::info *)
| LDialog (d : dialog)                    (* init.rs:40, "Global dialog" *)
| LLoading (load : nat)                   (* trace/load.rs:119 *)
| LMeasuring (job : nat)                  (* trace/measure.rs:143-146 *)
| LProfile (v : view).                    (* trace/display.rs:217-226 *)

(** ** State *)

(** src/ui/tui/trace/display.rs:99-111, ProfileLayer.  [e_name] is the activity whose callees
    are displayed, [None] being "<profile root>". *)
Record entry := {
  e_name : option nat;
  e_table : nat;
  e_norm : N;
  e_kind : pkind
}.

(** Callbacks sent to the UI thread. *)
Inductive callback :=
| CLoaded (load : nat)            (* trace/load.rs:24-63 *)
| CEndMeasure (job : nat)         (* trace/measure.rs:165 *)
| CShowLoader (job : nat)         (* trace/measure.rs:175-177 *)
| CInfo.                          (* trace/measure.rs:181-183, 197-199, 204-206 *)

(** src/ui/tui/processing.rs:233-267: loads that a thread was asked for and has not done, and
    the load whose trace it holds. *)
Record thread := { t_queue : list nat; t_data : option nat }.

(** src/ui/tui/mod.rs:81-111, State, together with what cursive and the other threads hold.
    The lists [screen] and [stack] start with the topmost layer. *)
Record state := {
  screen : list layer;
  stack : list entry;             (* profile_stack, last first *)
  below : nat;                    (* layers_below_profile *)
  no_escape : bool;
  full_build : bool;              (* showing_full_build *)
  cfg_dd : option dd;             (* display_config.duration_display *)
  cfg_key : column;               (* display_config.sort_config.key *)
  global_norm : option N;
  threads : list thread;          (* all those ever started *)
  cur : nat;                      (* processing_thread *)
  canceled : list nat;            (* loads whose flag is set *)
  next_load : nat;
  jobs : list (nat * option (list callback));  (* measurements: waiting for clang ([None]), or
                                                  callbacks still to be sent *)
  next_job : nat;
  callbacks : list callback
}.

Definition set_screen (l : list layer) (s : state) : state :=
  {| screen := l; stack := stack s; below := below s; no_escape := no_escape s;
     full_build := full_build s; cfg_dd := cfg_dd s; cfg_key := cfg_key s;
     global_norm := global_norm s; threads := threads s; cur := cur s;
     canceled := canceled s; next_load := next_load s; jobs := jobs s;
     next_job := next_job s; callbacks := callbacks s |}.

Definition set_stack (l : list entry) (s : state) : state :=
  {| screen := screen s; stack := l; below := below s; no_escape := no_escape s;
     full_build := full_build s; cfg_dd := cfg_dd s; cfg_key := cfg_key s;
     global_norm := global_norm s; threads := threads s; cur := cur s;
     canceled := canceled s; next_load := next_load s; jobs := jobs s;
     next_job := next_job s; callbacks := callbacks s |}.

Definition set_wait (b : nat) (e : bool) (s : state) : state :=
  {| screen := screen s; stack := stack s; below := b; no_escape := e;
     full_build := full_build s; cfg_dd := cfg_dd s; cfg_key := cfg_key s;
     global_norm := global_norm s; threads := threads s; cur := cur s;
     canceled := canceled s; next_load := next_load s; jobs := jobs s;
     next_job := next_job s; callbacks := callbacks s |}.

Definition set_config (d : option dd) (k : column) (g : option N) (s : state) : state :=
  {| screen := screen s; stack := stack s; below := below s; no_escape := no_escape s;
     full_build := full_build s; cfg_dd := d; cfg_key := k;
     global_norm := g; threads := threads s; cur := cur s;
     canceled := canceled s; next_load := next_load s; jobs := jobs s;
     next_job := next_job s; callbacks := callbacks s |}.

Definition set_threads (t : list thread) (c : nat) (s : state) : state :=
  {| screen := screen s; stack := stack s; below := below s; no_escape := no_escape s;
     full_build := full_build s; cfg_dd := cfg_dd s; cfg_key := cfg_key s;
     global_norm := global_norm s; threads := t; cur := c;
     canceled := canceled s; next_load := next_load s; jobs := jobs s;
     next_job := next_job s; callbacks := callbacks s |}.

Definition set_loads (c : list nat) (n : nat) (s : state) : state :=
  {| screen := screen s; stack := stack s; below := below s; no_escape := no_escape s;
     full_build := full_build s; cfg_dd := cfg_dd s; cfg_key := cfg_key s;
     global_norm := global_norm s; threads := threads s; cur := cur s;
     canceled := c; next_load := n; jobs := jobs s;
     next_job := next_job s; callbacks := callbacks s |}.

Definition set_jobs (j : list (nat * option (list callback))) (n : nat) (s : state) : state :=
  {| screen := screen s; stack := stack s; below := below s; no_escape := no_escape s;
     full_build := full_build s; cfg_dd := cfg_dd s; cfg_key := cfg_key s;
     global_norm := global_norm s; threads := threads s; cur := cur s;
     canceled := canceled s; next_load := next_load s; jobs := j;
     next_job := n; callbacks := callbacks s |}.

Definition set_callbacks (c : list callback) (s : state) : state :=
  {| screen := screen s; stack := stack s; below := below s; no_escape := no_escape s;
     full_build := full_build s; cfg_dd := cfg_dd s; cfg_key := cfg_key s;
     global_norm := global_norm s; threads := threads s; cur := cur s;
     canceled := canceled s; next_load := next_load s; jobs := jobs s;
     next_job := next_job s; callbacks := c |}.

(** Cursive::add_layer, Cursive::pop_layer. *)
Definition push (l : layer) (s : state) : state := set_screen (l :: screen s) s.
Definition pop (s : state) : state := set_screen (tl (screen s)) s.

(** [while screen.len() > n { screen.pop_layer(); }] *)
Definition pop_to (n : nat) (s : state) : state :=
  set_screen (skipn (length (screen s) - n) (screen s)) s.

(** What a program can become. *)
Inductive world := Running (s : state) | Ended | Crash.

(** A computation that may panic. *)
Definition bind {A : Type} (x : option A) (f : A -> world) : world :=
  match x with Some a => f a | None => Crash end.

Section WithTraces.

Variable W : nat -> option trace.

(** ** Processing thread *)

(** src/ui/tui/processing.rs:254-267: a thread loads the first trace of its queue. *)
Definition load_next (t : thread) : option (thread * callback) :=
  match t_queue t with
  | [] => None
  | l :: q => Some ({| t_queue := q;
                       t_data := match W l with Some _ => Some l | None => None end |},
                    CLoaded l)
  end.

(** The thread when it has done all that it was asked for (the UI thread awaits this when it
    makes a request: processing.rs:157-171). *)
Fixpoint load_all (q : list nat) (d : option nat) : option nat :=
  match q with
  | [] => d
  | l :: r => load_all r (match W l with Some _ => Some l | None => None end)
  end.

Fixpoint replace {A : Type} (n : nat) (x : A) (l : list A) : list A :=
  match l, n with
  | [], _ => []
  | _ :: r, 0 => x :: r
  | y :: r, S n => y :: replace n x r
  end.

(** src/ui/tui/processing.rs:114-149, a synchronous request: the trace that the current thread
    holds once it has done all loads, if any (241-245: otherwise it panics). *)
Definition ask (s : state) : option (nat * trace * state) :=
  match nth_error (threads s) (cur s) with
  | None => None
  | Some t =>
      let d := load_all (t_queue t) (t_data t) in
      let s' := set_callbacks (callbacks s ++ map CLoaded (t_queue t))
                  (set_threads (replace (cur s) {| t_queue := []; t_data := d |} (threads s))
                     (cur s) s) in
      match d with
      | None => None
      | Some l => match W l with Some tr => Some (l, tr, s') | None => None end
      end
  end.

(** ** Profiles *)

(** src/ui/tui/processing.rs:306-328, DescribeActivities: the thread panics on an identifier
    that the trace does not have. *)
Definition describable (tr : trace) (rows : list act) : bool :=
  forallb (fun a => match find_node tr (a_id a) with Some _ => true | None => false end) rows.

(** src/ui/tui/trace/display.rs:174-230, show_profile, with register_profile (241-302) and
    make_profile_view (308-335: panics if there is no activity). *)
Definition show_profile (s : state) (name : option nat) (norm : N) (rows : list act)
    (src : nat) (o : other) (k : pkind) : world :=
  bind (match cfg_dd s with
        | Some d => Some d
        | None => option_map (fun g => Percentage g Global) (global_norm s)
        end) (fun d0 =>
  let d := with_norm d0 norm in
  bind (ask (set_config (Some d) (cfg_key s) (global_norm s) s)) (fun '(_, tr, s1) =>
  if negb (describable tr rows) then Crash
  else
    let id := length (stack s1) in
    let s2 := set_stack ({| e_name := name; e_table := id; e_norm := norm; e_kind := k |}
                           :: stack s1) s1 in
    match rows with
    | [] => Crash
    | _ =>
        Running (push (LProfile {| p_table := id; p_kind := k; p_rows := rows; p_src := src;
                                   p_other := o; p_dd := d;
                                   p_key := kind_column k (cfg_key s2) |}) s2)
    end)).

(** src/ui/tui/trace/display.rs:405-450, zoom on row [row] of the topmost table, whose name
    is used to find it. *)
Fixpoint find_table (i : nat) (l : list layer) : option view :=
  match l with
  | [] => None
  | x :: r =>
      match find_table i r with
      | Some v => Some v
      | None => match x with
                | LProfile v => if p_table v =? i then Some v else None
                | _ => None
                end
      end
  end.

Definition zoom (s : state) (v : view) (row : nat) : world :=
  bind (find_table (p_table v) (screen s)) (fun v' =>
  bind (nth_error (p_rows v') row) (fun a =>
  if negb (a_kids a) then Running s
  else
    bind (ask s) (fun '(l, tr, s1) =>
    bind (direct_children tr (a_id a)) (fun kids =>
    match kids with
    | [] => Crash
    | _ => bind (percent_norm (a_dur a)) (fun norm =>
           show_profile s1 (Some (a_id a)) norm kids l (Query (Some (a_id a))) Hierarchical)
    end)))).

(** src/ui/tui/trace/display.rs:348-378, the F shortcut. *)
Definition toggle (s : state) (v : view) : world :=
  match stack s with
  | [] => Crash
  | e :: st =>
      let s1 := set_stack st s in
      bind (match p_other v with
            | Saved rows src => Some (rows, src, s1)
            | Query about =>
                match ask s1 with
                | None => None
                | Some (l, tr, s2) =>
                    match (match about with
                           | None => Some (all_activities tr)
                           | Some id => all_children tr id
                           end) with
                    | None => None
                    | Some rows => Some (rows, l, s2)
                    end
                end
            end) (fun '(rows, src, s2) =>
      show_profile (pop s2) (e_name e) (e_norm e) rows src (Saved (p_rows v) (p_src v))
        (match p_kind v with Hierarchical => Flat | Flat => Hierarchical end))
  end.

(** src/ui/tui/trace/display.rs:499-523: access to a table by its name. *)
Fixpoint update_table (i : nat) (f : view -> view) (l : list layer) : option (list layer) :=
  match l with
  | [] => None
  | x :: r =>
      match update_table i f r with
      | Some r' => Some (x :: r')
      | None => match x with
                | LProfile v => if p_table v =? i then Some (LProfile (f v) :: r) else None
                | _ => None
                end
      end
  end.

(** src/ui/tui/trace/display.rs:78-93 with 528-570: new duration columns. *)
Definition restyle (e : entry) (d : dd) (key : column) (v : view) : view :=
  {| p_table := p_table v; p_kind := p_kind v; p_rows := p_rows v; p_src := p_src v;
     p_other := p_other v; p_dd := d; p_key := kind_column (e_kind e) key |}.

(** The loop of 505-522, for switch_duration_unit. *)
Fixpoint restyle_all (es : list entry) (d : dd) (key : column) (l : list layer)
  : option (list layer) :=
  match es with
  | [] => Some l
  | e :: r =>
      let d' := with_norm d (e_norm e) in
      match update_table (e_table e) (restyle e d' key) l with
      | None => None
      | Some l' => restyle_all r d' key l'
      end
  end.

(** src/ui/tui/trace/display.rs:33-95, switch_duration_unit. *)
Definition switch_duration_unit (s : state) : world :=
  match stack s with
  | [] => Running s
  | _ =>
      match cfg_dd s with
      | None => Running s
      | Some d =>
          bind (match d with
                | Percentage _ Global => Some (Percentage 0 Parent)
                | Percentage _ Parent => Some Time
                | Time => option_map (fun g => Percentage g Global) (global_norm s)
                end) (fun d' =>
          bind (restyle_all (rev (stack s)) d' (cfg_key s) (screen s)) (fun l =>
          Running (set_screen l (set_config (Some d') (cfg_key s) (global_norm s) s))))
      end
  end.

Definition eqb_pref (a b : pref) : bool :=
  match a, b with Global, Global => true | Parent, Parent => true | _, _ => false end.

Definition eqb_dd (a b : dd) : bool :=
  match a, b with
  | Time, Time => true
  | Percentage n r, Percentage m q => N.eqb n m && eqb_pref r q
  | _, _ => false
  end.

(** Truth that a table has a column: flat profiles have no column for the total duration, and
    a duration column is identified by what it displays too (573-580). *)
Definition has_column (v : view) (c : column) (d : dd) : bool :=
  match c with
  | Description => true
  | SelfDuration => eqb_dd (p_dd v) d
  | TotalDuration =>
      eqb_dd (p_dd v) d && match p_kind v with Hierarchical => true | Flat => false end
  end.

(** cursive_table_view TableView::sort_by, which does nothing to the headers if the table does
    not have that column. *)
Definition sort_by (c : column) (d : dd) (v : view) : view :=
  if has_column v c d then
    {| p_table := p_table v; p_kind := p_kind v; p_rows := p_rows v; p_src := p_src v;
       p_other := p_other v; p_dd := p_dd v; p_key := c |}
  else v.

(** src/ui/tui/trace/display.rs:482-495, the loop of sort_other_profiles; the column is
    replaced for good by a flat layer. *)
Fixpoint sort_all (es : list entry) (d : dd) (key : column) (l : list layer)
  : option (list layer) :=
  match es with
  | [] => Some l
  | e :: r =>
      let d' := with_norm d (e_norm e) in
      let key' := kind_column (e_kind e) key in
      match update_table (e_table e) (sort_by key' d') l with
      | None => None
      | Some l' => sort_all r d' key' l'
      end
  end.

(** src/ui/tui/trace/display.rs:454-496, sort_other_profiles: the user has sorted the topmost
    table by a column. *)
Definition sort_profiles (s : state) (v : view) (c : column) : world :=
  let l := LProfile (sort_by c (p_dd v) v) :: tl (screen s) in
  match stack s with
  | [] => Crash
  | _ :: past =>
      bind (cfg_dd s) (fun d =>
      bind (sort_all (rev past) d c l) (fun l' =>
      Running (set_screen l' (set_config (cfg_dd s) c (global_norm s) s))))
  end.

(** ** Loads *)

(** src/ui/tui/trace/load.rs:145-154, end_wait_for_input, and the identical
    src/ui/tui/trace/measure.rs:226-235, end_measure. *)
Definition end_wait (s : state) : state := pop_to (below s) (set_wait (below s) false s).

(** src/ui/tui/trace/load.rs:16-68, show_loader, up to the callback, with
    start_wait_for_input (77-123). *)
Definition show_loader (s : state) : world :=
  let n := next_load s in
  let s1 := push (LLoading n) (set_wait (length (screen s)) true s) in
  match nth_error (threads s1) (cur s1) with
  | None => Crash
  | Some t =>
      Running (set_loads (canceled s1) (S n)
        (set_threads (replace (cur s1) {| t_queue := t_queue t ++ [n]; t_data := t_data t |}
                        (threads s1)) (cur s1) s1))
  end.

Fixpoint mem (n : nat) (l : list nat) : bool :=
  match l with [] => false | x :: r => (x =? n) || mem n r end.

(** src/ui/tui/trace/load.rs:25-63, the callback of a load. *)
Definition loaded (s : state) (l : nat) : world :=
  if mem l (canceled s) then Running s
  else
    let s1 := end_wait s in
    match W l with
    | None => Running (push LInfo s1)
    | Some _ =>
        bind (ask s1) (fun '(src, tr, s2) =>
        let roots := root_activities tr in
        bind (percent_norm (sum_durations roots)) (fun norm =>
        show_profile (set_config None (cfg_key s2) (Some norm) s2)
          None norm roots src (Query None) Hierarchical))
    end.

(** src/ui/tui/trace/load.rs:104-118, handle_abort. *)
Definition abort_load (s : state) (l : nat) : world :=
  let s1 := end_wait (set_loads (l :: canceled s) (next_load s) s) in
  match screen s1 with
  | [] => Ended
  | _ => Running (set_threads (threads s1 ++ [{| t_queue := []; t_data := None |}])
                    (length (threads s1)) s1)
  end.

(** ** Measurements *)

(** src/ui/tui/trace/measure.rs:108-209, start_measure: [None] if the measurement could be
    started, else the number of error dialogs (113, 122, 124). *)
Definition start_measure (s : state) (failure : option nat) : state :=
  match failure with
  | Some n => set_screen (repeat LInfo n ++ screen s) s
  | None =>
      let m := next_job s in
      set_jobs ((m, None) :: jobs s) (S m)
        (push (LMeasuring m) (set_wait (length (screen s)) true s))
  end.

(** How a measurement may end (measure.rs:164, 168-193), and whether the backup could be dealt
    with (172, 203). *)
Inductive result :=
| Success (backup_error : bool)
| Canceled (restore_error : bool)
| Failed (restore_error : bool).

(** src/ui/tui/trace/measure.rs:168-208: the callbacks that follow that of line 165. *)
Definition job_callbacks (m : nat) (r : result) : list callback :=
  match r with
  | Success e => CShowLoader m :: (if e then [CInfo] else [])
  | Canceled e => if e then [CInfo] else []
  | Failed e => CInfo :: (if e then [CInfo] else [])
  end.

Fixpoint set_job (m : nat) (x : option (list callback))
    (l : list (nat * option (list callback))) : list (nat * option (list callback)) :=
  match l with
  | [] => []
  | (k, y) :: r => if k =? m then (k, x) :: r else (k, y) :: set_job m x r
  end.

Fixpoint get_job (m : nat) (l : list (nat * option (list callback)))
  : option (option (list callback)) :=
  match l with
  | [] => None
  | (k, y) :: r => if k =? m then Some y else get_job m r
  end.

(** Callbacks run by the UI thread. *)
Definition run_callback (s : state) (c : callback) : world :=
  match c with
  | CLoaded l => loaded s l
  | CEndMeasure _ => Running (end_wait s)
  | CShowLoader _ => show_loader s
  | CInfo => Running (push LInfo s)
  end.

(** ** Global shortcuts *)

Definition is_global (l : layer) : bool := match l with LDialog _ => true | _ => false end.

(** src/ui/tui/init.rs:68-84, exit_current_layer. *)
Definition exit_current_layer (s : state) : state :=
  let n := length (screen s) in
  if 1 <? n then
    if no_escape s then s
    else pop (if n =? length (stack s) + below s then set_stack (tl (stack s)) s else s)
  else s.

(** src/ui/tui/init.rs:35-44, set_global_dialog_callback. *)
Definition global_dialog (s : state) (d : option dialog) : state :=
  if existsb is_global (screen s) then s
  else match d with Some d => push (LDialog d) s | None => s end.

(** src/ui/tui/init.rs:87-116, backtrace_dialog. *)
Definition backtrace_dialog (s : state) : option dialog :=
  match stack s with
  | [] => None
  | _ => Some (Backtrace (length (stack s)) (below s))
  end.

(** src/ui/tui/mod.rs:122-160, help_dialog. *)
Definition help_dialog (s : state) : option dialog :=
  match stack s with
  | [] => if full_build s then Some HelpDialog else None
  | _ => Some HelpDialog
  end.

(** src/ui/tui/init.rs:103-109, on_submit of the backtrace. *)
Definition jump (s : state) (idx b : nat) : state :=
  let s1 := pop_to (idx + 1 + b) s in
  set_stack (skipn (length (stack s1) - (idx + 1)) (stack s1)) s1.

(** ** Events *)

(** src/ui/tui/trace/measure.rs:22-105, what show_wizard finds out about a unit. *)
Inductive wizard :=
| WError                             (* 30-76 *)
| WPrompt (profile_exists : bool)    (* 80-100 *)
| WFresh.                            (* 103 *)

Inductive event :=
(* keys *)
| Esc | KeyU | KeyQ | KeyB | KeyH | KeyF
| Submit (w : wizard)                            (* Enter on the full-build table *)
| Reply (create : bool) (failure : option nat)   (* buttons of a prompt *)
| Zoom (row : nat) | Sort (c : column)           (* in a profile table *)
| Dismiss                                        (* "Ok" and "No" buttons *)
| Yes                                            (* of the quit dialog *)
| Jump (idx : nat)                               (* in the backtrace *)
| Abort                                          (* of a load or measurement *)
(* other threads *)
| ThreadLoads (t : nat)                          (* a processing thread ends a load *)
| ClangEnds (m : nat) (r : result)    (* a measurement thread stops waiting *)
| JobSends (m : nat)                             (* it sends its next callback *)
| RunCallback.                                   (* the UI thread runs a callback *)

(** What an event does; [None] if it cannot occur in that state. *)
Definition step (s : state) (e : event) : option world :=
  match e with
  | Esc => Some (Running (exit_current_layer s))                      (* init.rs:21 *)
  | KeyU => Some (switch_duration_unit s)                             (* init.rs:24 *)
  | KeyQ => Some (Running (global_dialog s (Some QuitDialog)))        (* init.rs:54-55 *)
  | KeyB => Some (Running (global_dialog s (backtrace_dialog s)))     (* init.rs:58 *)
  | KeyH => Some (Running (global_dialog s (help_dialog s)))          (* init.rs:61 *)
  | KeyF => match screen s with
            | LProfile v :: _ => Some (toggle s v)
            | _ => None
            end
  | Submit w =>                                                       (* build/display.rs:72-91 *)
      match screen s with
      | LTable :: _ =>
          Some (match w with
                | WError => Running (push LInfo s)
                | WPrompt ex => Running (push (LPrompt ex) s)
                | WFresh => show_loader s
                end)
      | _ => None
      end
  | Reply create failure =>                      (* create.rs:61-69, trace/measure.rs:92-100 *)
      match screen s with
      | LPrompt ex :: _ =>
          let s1 := pop s in
          Some (if create then Running (start_measure s1 failure)
                else if ex then show_loader s1 else Running s1)
      | _ => None
      end
  | Zoom row => match screen s with
                | LProfile v :: _ =>
                    match p_kind v with
                    | Hierarchical => if row <? length (p_rows v) then Some (zoom s v row) else None
                    | Flat => None
                    end
                | _ => None
                end
  | Sort c => match screen s with
              | LProfile v :: _ =>
                  if has_column v c (p_dd v) then Some (sort_profiles s v c) else None
              | _ => None
              end
  | Dismiss => match screen s with
               | LInfo :: _ | LDialog _ :: _ => Some (Running (pop s))
               | _ => None
               end
  | Yes => match screen s with LDialog QuitDialog :: _ => Some Ended | _ => None end
  | Jump idx => match screen s with
                | LDialog (Backtrace n b) :: _ =>
                    if idx <? n then Some (Running (jump s idx b)) else None
                | _ => None
                end
  | Abort => match screen s with
             | LLoading l :: _ => Some (abort_load s l)
             | LMeasuring _ :: _ => Some (Running s)          (* trace/measure.rs:384-386 *)
             | _ => None
             end
  | ThreadLoads t =>
      match nth_error (threads s) t with
      | None => None
      | Some th =>
          match load_next th with
          | None => None
          | Some (th', c) =>
              Some (Running (set_callbacks (callbacks s ++ [c])
                       (set_threads (replace t th' (threads s)) (cur s) s)))
          end
      end
  | ClangEnds m r =>
      match get_job m (jobs s) with
      | Some None =>
          Some (Running (set_callbacks (callbacks s ++ [CEndMeasure m])
                   (set_jobs (set_job m (Some (job_callbacks m r)) (jobs s)) (next_job s) s)))
      | _ => None
      end
  | JobSends m =>
      match get_job m (jobs s) with
      | Some (Some (c :: r)) =>
          Some (Running (set_callbacks (callbacks s ++ [c])
                   (set_jobs (set_job m (Some r) (jobs s)) (next_job s) s)))
      | _ => None
      end
  | RunCallback =>
      match callbacks s with
      | [] => None
      | c :: r => Some (run_callback (set_callbacks r s) c)
      end
  end.

(** An execution. *)
Fixpoint exec (s : state) (l : list event) : option world :=
  match l with
  | [] => Some (Running s)
  | e :: r => match step s e with
              | Some (Running s') => exec s' r
              | Some w => match r with [] => Some w | _ => None end
              | None => None
              end
  end.

End WithTraces.

(** src/ui/tui/mod.rs:48-56, the state at the beginning. *)
Definition empty_state : state :=
  {| screen := []; stack := []; below := 0; no_escape := false; full_build := false;
     cfg_dd := None; cfg_key := TotalDuration; global_norm := None;
     threads := [{| t_queue := []; t_data := None |}]; cur := 0; canceled := [];
     next_load := 0; jobs := []; next_job := 0; callbacks := [] |}.

(** src/ui/tui/mod.rs:59-66: with an input file, its load is requested. *)
Definition start_with_trace : state :=
  match show_loader empty_state with Running s => s | _ => empty_state end.

(** src/ui/tui/build/display.rs:94-104: without one, the full-build table is displayed. *)
Definition start_with_build : state :=
  {| screen := [LTable]; stack := []; below := 0; no_escape := false; full_build := true;
     cfg_dd := None; cfg_key := TotalDuration; global_norm := None;
     threads := [{| t_queue := []; t_data := None |}]; cur := 0; canceled := [];
     next_load := 0; jobs := []; next_job := 0; callbacks := [] |}.

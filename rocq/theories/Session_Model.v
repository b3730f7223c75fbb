(** Model of a full-build profiling session, up to the display of the build profile:
    src/ui/tui/build/mod.rs, src/ui/tui/build/measure.rs, `ask` of src/ui/tui/create.rs, and
    of cmakeperf/src/measure/mod.rs how a measurement ends.

    Simplifications:
    - What the session finds (compilation database, clang++, freshness of the profile, whether
      files can be moved, what loading the profile gives) is an input.  Clang_Model.v,
      Cmd_Model.v and Files_Model.v model how these come about.
    - The Quit shortcut (a confirmation dialog, src/ui/tui/init.rs:46-55) is one event.  Esc and
      the other shortcuts do nothing in these dialogs (init.rs:69-85, mod.rs:140-182).
    - The measurement thread is working, has a result (then `success` is set accordingly), has
      stored the outcome, has asked the UI thread to quit.  How it works is Measure_Model.v.
    - `Cursive::run` ends when the user quits or when it runs a pending quit callback; callbacks
      that are not run remain for the next `run`. *)
From Verif Require Import Base Cmd_Model Clang_Model.

(** cmakeperf/src/commands.rs:125-140 *)
Inductive db_error := DbNotFound | DbIoError | DbParseError.
(** cmakeperf/src/output.rs:40-49; contents do not matter here *)
Inductive load_result := LoadOk | LoadNotFound | LoadParseError.
(** cmakeperf/src/measure/main.rs:123-148 *)
Inductive measure_error := MJob | MOutOfMemory | MCsv | MIo | MPanicked | MKilled.
Definition result := option measure_error.     (* None is Ok *)

(** The error dialogs of build/mod.rs and build/measure.rs *)
Inductive message :=
| MDatabase (e : db_error) | MClang (e : clang_error) | MFreshness
| MBackup | MCleanup | MMeasure (e : measure_error) | MVanished | MUnparsable.

(** The buttons of the prompts, and their meaning: fields `default_reply`, `other_reply` and
    `default_means_create` of create.rs:108-176 *)
Inductive button := BYes | BNo | BReuse | BMeasure.
Definition default_reply (p : prompt) : button :=
  match p with NewProfile => BYes | StaleProfile | MaybeStaleProfile _ => BReuse end.
Definition other_reply (p : prompt) : button :=
  match p with NewProfile => BNo | StaleProfile | MaybeStaleProfile _ => BMeasure end.
Definition default_means_create (p : prompt) : bool :=
  match p with NewProfile => true | StaleProfile | MaybeStaleProfile _ => false end.

(** What a session finds. *)
Record inputs := {
  i_db : option db_error;                (* CompilationDatabase::load() *)
  i_clang : answer;                      (* find_clangpp() *)
  i_fresh : io_result freshness;         (* profile_freshness() *)
  i_manual : bool;                       (* --build-profile was given *)
  i_backup_fails : bool;                 (* build/measure.rs:158-171 *)
  i_restore_fails : bool;                (* build/measure.rs:209-221 *)
  i_load : load_result }.                (* cmakeperf::output::load() *)

(** Where the UI thread is *)
Inductive place :=
| AtDatabase                             (* build/mod.rs:18 *)
| AtClang                                (* build/mod.rs:42 *)
| AtFreshness                            (* build/mod.rs:100 *)
| AtPrompt (p : prompt) (ex : bool)      (* build/mod.rs:115, create.rs:99 *)
| AtBackup                               (* build/measure.rs:158 *)
| AtProgress                             (* build/measure.rs:90 *)
| AtDrop                                 (* build/measure.rs:226 *)
| AtCleanupError                         (* build/measure.rs:216 *)
| AtJoin                                 (* cmakeperf/src/measure/mod.rs:85 *)
| AtOutcome                              (* build/measure.rs:103 *)
| AtLoad                                 (* build/mod.rs:62 *)
| AtTable                                (* build/display.rs:106 *)
| AtError                                (* build/mod.rs:136 *)
| Over.

(** The measurement thread *)
Inductive thread := NoThread | Working | HasResult (r : result) | Stored (r : result) | Sent (r : result).

Record session := { s_at : place; s_thread : thread; s_quits : nat }.
Definition start : session := {| s_at := AtDatabase; s_thread := NoThread; s_quits := 0 |}.

(** What can happen *)
Inductive event :=
| Go                                     (* the UI thread goes on *)
| Press (default : bool)                 (* the user presses a button of a prompt *)
| Quit                                   (* the user quits, or presses Quit or Abort *)
| RunQuit                                (* the UI thread runs a quit callback *)
| Finish (r : result)                    (* the measurement thread has a result *)
| Store | Send.                          (* ... stores it, and asks the UI thread to quit *)

(** What can be seen *)
Inductive item :=
| Asked (p : prompt) | Pressed (b : button) | Started | Finished (r : result)
| Aborted | ErrorShown (m : message) | TableShown
| UserLeft                               (* the user closed the screen *)
| ProgramLeft.                           (* the program closed the screen *)

(** build/measure.rs:176-181: the flag that the destructor looks at *)
Definition success (t : thread) : bool :=
  match t with HasResult None | Stored None | Sent None => true | _ => false end.
(** build/measure.rs:50-53 *)
Definition outcome_of (t : thread) : option result :=
  match t with Stored r | Sent r => Some r | _ => None end.

Definition move (s : session) (p : place) : session :=
  {| s_at := p; s_thread := s_thread s; s_quits := s_quits s |}.
(** build/mod.rs:134-137 *)
Definition error (s : session) (m : message) : session * list item := (move s AtError, [ErrorShown m]).

(** A screen is closed by the user, or by the program *)
Definition leave (s : session) (p : place) : session * list item := (move s p, [UserLeft]).
Definition run_quit (s : session) (p : place) : option (session * list item) :=
  match s_quits s with
  | 0 => None
  | S n => Some ({| s_at := p; s_thread := s_thread s; s_quits := n |}, [ProgramLeft])
  end.

Section Session.
  Variable i : inputs.

  (** The UI thread, when it is not waiting for the user *)
  Definition go (s : session) : option (session * list item) :=
    match s_at s with
    | AtDatabase =>                                              (* build/mod.rs:18-39 *)
        Some (match i_db i with Some e => error s (MDatabase e) | None => (move s AtClang, []) end)
    | AtClang =>                                                 (* build/mod.rs:42-51 *)
        Some (match i_clang i with Error e => error s (MClang e) | Found => (move s AtFreshness, []) end)
    | AtFreshness =>                                             (* build/mod.rs:100-114 *)
        Some (match i_fresh i with
              | IoErr => error s MFreshness
              | IoOk f =>
                  match from_freshness f (i_manual i) with
                  | Some p => (move s (AtPrompt p (product_exists f)), [Asked p])
                  | None => (move s AtLoad, [])
                  end
              end)
    | AtBackup =>                                                (* build/measure.rs:158-201 *)
        Some (if i_backup_fails i then error s MBackup
              else ({| s_at := AtProgress; s_thread := Working; s_quits := s_quits s |}, [Started]))
    | AtDrop =>                                                  (* build/measure.rs:225-230 *)
        Some (if success (s_thread s) then (move s AtJoin, [])
              else if i_restore_fails i then (move s AtCleanupError, [ErrorShown MCleanup])
              else (move s AtJoin, []))
    | AtJoin =>                                                  (* measure/mod.rs:83-88 *)
        match s_thread s with Sent _ => Some (move s AtOutcome, []) | _ => None end
    | AtOutcome =>                                               (* build/measure.rs:102-120 *)
        Some (match outcome_of (s_thread s) with
              | Some None => (move s AtLoad, [])
              | Some (Some e) => error s (MMeasure e)
              | None => (move s Over, [])
              end)
    | AtLoad =>                                                  (* build/mod.rs:62-78 *)
        Some (match i_load i with
              | LoadOk => (move s AtTable, [TableShown])
              | LoadNotFound => error s MVanished
              | LoadParseError => error s MUnparsable
              end)
    | _ => None
    end.

  Definition step (s : session) (e : event) : option (session * list item) :=
    match e with
    | Go => go s
    | Press default =>                                           (* build/mod.rs:115-124 *)
        match s_at s with
        | AtPrompt p ex =>
            (* create.rs:72-82 *)
            let b := if default then default_reply p else other_reply p in
            let create := if default then default_means_create p else negb (default_means_create p) in
            Some (if create then (move s AtBackup, [Pressed b])
                  else if negb ex then (move s Over, [Pressed b])
                  else (move s AtLoad, [Pressed b]))
        | _ => None
        end
    | Quit =>
        match s_at s with
        | AtPrompt _ _ => Some (leave s Over)                    (* create.rs:86-89 *)
        | AtProgress => Some (move s AtDrop, [Aborted])          (* build/measure.rs:86 *)
        | AtCleanupError => Some (leave s AtJoin)
        | AtTable | AtError => Some (leave s Over)
        | _ => None
        end
    | RunQuit =>
        match s_at s with
        | AtPrompt _ _ => run_quit s Over
        | AtProgress => run_quit s AtDrop
        | AtCleanupError => run_quit s AtJoin
        | AtTable | AtError => run_quit s Over
        | _ => None
        end
    | Finish r =>                                                (* build/measure.rs:176-179 *)
        match s_thread s with
        | Working => Some ({| s_at := s_at s; s_thread := HasResult r; s_quits := s_quits s |}, [Finished r])
        | _ => None
        end
    | Store =>                                                   (* build/measure.rs:53 *)
        match s_thread s with
        | HasResult r => Some ({| s_at := s_at s; s_thread := Stored r; s_quits := s_quits s |}, [])
        | _ => None
        end
    | Send =>                                                    (* build/measure.rs:54-56 *)
        match s_thread s with
        | Stored r => Some ({| s_at := s_at s; s_thread := Sent r; s_quits := S (s_quits s) |}, [])
        | _ => None
        end
    end.

  (** A session: the events that happened, the state it is in, what could be seen. *)
  Inductive session_run : list event -> session -> list item -> Prop :=
  | run_start : session_run [] start []
  | run_step evs s h e s' h' :
      session_run evs s h -> step s e = Some (s', h') -> session_run (evs ++ [e]) s' (h ++ h').
End Session.

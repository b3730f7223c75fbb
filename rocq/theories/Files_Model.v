(** Model of how measurements treat the files of earlier measurements:
    src/ui/tui/trace/measure.rs (clang time-traces) and src/ui/tui/build/measure.rs with
    cmakeperf/src/measure/{mod,main}.rs (full-build profiles). *)
From Verif Require Import Base.

(** ** Two names in a directory, and files *)
Inductive name := Out | Bak.
(** Names refer to files (inode numbers), which have contents.  [f_next] is a number that was
    never used. *)
Record fs := { f_out : option nat; f_bak : option nat; f_data : nat -> str; f_next : nat }.
Definition entry (f : fs) (n : name) : option nat := match n with Out => f_out f | Bak => f_bak f end.
Definition set_entry (f : fs) (n : name) (e : option nat) : fs :=
  match n with
  | Out => {| f_out := e; f_bak := f_bak f; f_data := f_data f; f_next := f_next f |}
  | Bak => {| f_out := f_out f; f_bak := e; f_data := f_data f; f_next := f_next f |}
  end.
(** What one reads at a path *)
Definition read (f : fs) (n : name) : option str := option_map (f_data f) (entry f n).

Inductive io_result := IoOk | IoNotFound | IoOther.
(** std::fs::rename between distinct paths: replaces the target at once.  It may also fail for
    other reasons, without effect. *)
Definition rename (f : fs) (a b : name) (fault : bool) : fs * io_result :=
  if fault then (f, IoOther)
  else match entry f a with
       | None => (f, IoNotFound)
       | Some i => (set_entry (set_entry f b (Some i)) a None, IoOk)
       end.
(** std::fs::remove_file *)
Definition remove_file (f : fs) (a : name) (fault : bool) : fs * io_result :=
  if fault then (f, IoOther)
  else match entry f a with
       | None => (f, IoNotFound)
       | Some _ => (set_entry f a None, IoOk)
       end.
(** open with O_CREAT | O_TRUNC (File::create): truncates a file that exists *)
Definition create (f : fs) (a : name) : fs * nat :=
  match entry f a with
  | Some i => ({| f_out := f_out f; f_bak := f_bak f; f_data := fun j => if Nat.eqb j i then [] else f_data f j;
                  f_next := f_next f |}, i)
  | None => let i := f_next f in
      (set_entry {| f_out := f_out f; f_bak := f_bak f; f_data := fun j => if Nat.eqb j i then [] else f_data f j;
                    f_next := S i |} a (Some i), i)
  end.
(** Writes through an open file: afterwards its contents are [c] *)
Definition write (f : fs) (i : nat) (c : str) : fs :=
  {| f_out := f_out f; f_bak := f_bak f; f_data := fun j => if Nat.eqb j i then c else f_data f j; f_next := f_next f |}.

(** ** The backup protocol *)
(** trace/measure.rs:253-263, and the same in build/measure.rs:158-171.  The boolean tells
    whether the measurement may go on. *)
Definition backup_new (f : fs) (fault : bool) : fs * bool :=
  let (f', r) := rename f Out Bak fault in
  match r with IoOk => (f', true) | IoNotFound => (f', true) | IoOther => (f', false) end.
(** trace/measure.rs:265-279, and the same in build/measure.rs:209-221.  The boolean tells
    whether an error is reported. *)
Definition restore_or_delete (f : fs) (fault1 fault2 : bool) : fs * bool :=
  let (f1, r1) := rename f Bak Out fault1 in
  let (f2, r) := match r1 with IoOk => (f1, IoOk) | _ => remove_file f1 Out fault2 end in
  match r with IoOk => (f2, false) | IoNotFound => (f2, false) | IoOther => (f2, true) end.
(** trace/measure.rs:281-295 *)
Definition cleanup (f : fs) (fault : bool) : fs * bool :=
  let (f', r) := remove_file f Bak fault in
  match r with IoOk => (f', false) | IoNotFound => (f', false) | IoOther => (f', true) end.

(** ** Measuring a clang time-trace (trace/measure.rs:107-210) *)
Inductive trace_pc :=
| TBackup | TStart | TRun | TCleanup | TRestore
| TRefused | TSuccess (error : bool) | TFailed (error : bool).
Record trace_measure := {
  t_fs : fs;
  t_pc : trace_pc;
  t_alive : bool;           (* clang (or a process that it started) is running *)
  t_open : list nat;        (* files that it has opened *)
  t_result : option str }.  (* ghost: what was at the output path when clang succeeded *)
Definition trace_init (f : fs) : trace_measure :=
  {| t_fs := f; t_pc := TBackup; t_alive := false; t_open := []; t_result := None |}.

(** What clang may do: create (or truncate) its output, write what it opened, or remove its
    output.  It does not touch the backup path. *)
Inductive clang_writes : fs -> list nat -> fs -> list nat -> Prop :=
| cw_create f op f' i : create f Out = (f', i) -> clang_writes f op f' (i :: op)
| cw_write f op i c : In i op -> clang_writes f op (write f i c) op
| cw_remove f op : clang_writes f op (fst (remove_file f Out false)) op.

(** [faulty] says whether file operations may fail for reasons other than missing files.
    [lingers] says whether killing clang may leave something running: `Child::kill` does not
    wait for the end of the process, and does not kill the processes that it started
    (trace/measure.rs:361-371). *)
Inductive trace_step (faulty lingers : bool) : trace_measure -> trace_measure -> Prop :=
| ts_backup m fault f' ok : t_pc m = TBackup -> (fault = true -> faulty = true) ->
    backup_new (t_fs m) fault = (f', ok) ->
    trace_step faulty lingers m
      {| t_fs := f'; t_pc := if ok then TStart else TRefused; t_alive := false; t_open := []; t_result := None |}
(* trace/measure.rs:118-130, 307-328 *)
| ts_start m ok : t_pc m = TStart ->
    trace_step faulty lingers m
      {| t_fs := t_fs m; t_pc := if ok : bool then TRun else TRestore; t_alive := ok; t_open := []; t_result := None |}
| ts_clang m f' op' : t_alive m = true -> clang_writes (t_fs m) (t_open m) f' op' ->
    trace_step faulty lingers m {| t_fs := f'; t_pc := t_pc m; t_alive := true; t_open := op'; t_result := t_result m |}
(* trace/measure.rs:355-359: clang ended, with success or not *)
| ts_exit m success : t_pc m = TRun -> t_alive m = true ->
    trace_step faulty lingers m
      {| t_fs := t_fs m; t_pc := if success : bool then TCleanup else TRestore; t_alive := false; t_open := t_open m;
         t_result := if success then read (t_fs m) Out else None |}
(* trace/measure.rs:361-371: cancelled *)
| ts_kill m : t_pc m = TRun ->
    trace_step faulty lingers m
      {| t_fs := t_fs m; t_pc := TRestore; t_alive := lingers; t_open := t_open m; t_result := None |}
(* the end of what lingers *)
| ts_dies m : t_alive m = true -> t_pc m <> TRun ->
    trace_step faulty lingers m
      {| t_fs := t_fs m; t_pc := t_pc m; t_alive := false; t_open := t_open m; t_result := t_result m |}
(* trace/measure.rs:170-186 *)
| ts_cleanup m fault f' e : t_pc m = TCleanup -> (fault = true -> faulty = true) ->
    cleanup (t_fs m) fault = (f', e) ->
    trace_step faulty lingers m
      {| t_fs := f'; t_pc := TSuccess e; t_alive := t_alive m; t_open := t_open m; t_result := t_result m |}
(* trace/measure.rs:123-129, 203-208 *)
| ts_restore m fault1 fault2 f' e : t_pc m = TRestore ->
    (fault1 = true \/ fault2 = true -> faulty = true) -> restore_or_delete (t_fs m) fault1 fault2 = (f', e) ->
    trace_step faulty lingers m
      {| t_fs := f'; t_pc := TFailed e; t_alive := t_alive m; t_open := t_open m; t_result := t_result m |}.
Inductive trace_reach (faulty lingers : bool) (f : fs) : trace_measure -> Prop :=
| tr_init : trace_reach faulty lingers f (trace_init f)
| tr_step m m' : trace_reach faulty lingers f m -> trace_step faulty lingers m m' -> trace_reach faulty lingers f m'.

(** ** Measuring a full-build profile (build/measure.rs:29-121, 147-231) *)
Inductive ui_pc :=
| UBackup                   (* build/measure.rs:158-171 *)
| URun                      (* cursive.run(), build/measure.rs:90 *)
| UDrop                     (* Drop of MeasureHandle, build/measure.rs:224-230 *)
| URestore
| UJoin                     (* Drop of Measurement, cmakeperf/src/measure/mod.rs:82-89 *)
| URefused
| UOver.
Inductive thread_pc :=
| HNone
| HCreate                   (* cmakeperf/src/measure/main.rs:35 *)
| HRun (i : nat)            (* the rest of main.rs:35-120, with its output file *)
| HDone.
Record build_measure := {
  b_fs : fs;
  b_ui : ui_pc;
  b_thread : thread_pc;
  b_success : bool;         (* MeasureHandle::success *)
  b_outcome : option bool;  (* the outcome seen by measure_profile (build/measure.rs:47-58): Some true for Ok *)
  (* ghosts *)
  b_restored : option bool; (* the backup was restored; whether an error was reported *)
  b_early : bool }.         (* ... before the thread created its file *)
Definition build_init (f : fs) : build_measure :=
  {| b_fs := f; b_ui := UBackup; b_thread := HNone; b_success := false; b_outcome := None;
     b_restored := None; b_early := false |}.

Inductive build_step (faulty : bool) : build_measure -> build_measure -> Prop :=
| bs_backup m fault f' ok : b_ui m = UBackup -> (fault = true -> faulty = true) ->
    backup_new (b_fs m) fault = (f', ok) ->
    build_step faulty m
      {| b_fs := f'; b_ui := if ok then URun else URefused; b_thread := if ok then HCreate else HNone;
         b_success := false; b_outcome := None; b_restored := None; b_early := false |}
(* Abort button (build/measure.rs:86), or the callback sent by notify_end (build/measure.rs:50-58):
   the former may come at any time *)
| bs_quit m : b_ui m = URun ->
    build_step faulty m
      {| b_fs := b_fs m; b_ui := UDrop; b_thread := b_thread m; b_success := b_success m; b_outcome := b_outcome m;
         b_restored := b_restored m; b_early := b_early m |}
| bs_check m : b_ui m = UDrop ->
    build_step faulty m
      {| b_fs := b_fs m; b_ui := if b_success m then UJoin else URestore; b_thread := b_thread m;
         b_success := b_success m; b_outcome := b_outcome m; b_restored := b_restored m; b_early := b_early m |}
| bs_restore m fault1 fault2 f' e : b_ui m = URestore ->
    (fault1 = true \/ fault2 = true -> faulty = true) -> restore_or_delete (b_fs m) fault1 fault2 = (f', e) ->
    build_step faulty m
      {| b_fs := f'; b_ui := UJoin; b_thread := b_thread m; b_success := b_success m; b_outcome := b_outcome m;
         b_restored := Some e; b_early := match b_thread m with HCreate => true | _ => false end |}
| bs_join m : b_ui m = UJoin -> b_thread m = HDone ->
    build_step faulty m
      {| b_fs := b_fs m; b_ui := UOver; b_thread := b_thread m; b_success := b_success m; b_outcome := b_outcome m;
         b_restored := b_restored m; b_early := b_early m |}
(* main.rs:35 *)
| bs_create m f' i : b_thread m = HCreate -> create (b_fs m) Out = (f', i) ->
    build_step faulty m
      {| b_fs := f'; b_ui := b_ui m; b_thread := HRun i; b_success := b_success m; b_outcome := b_outcome m;
         b_restored := b_restored m; b_early := b_early m |}
| bs_create_fails m : b_thread m = HCreate -> faulty = true ->
    build_step faulty m
      {| b_fs := b_fs m; b_ui := b_ui m; b_thread := HDone; b_success := false; b_outcome := Some false;
         b_restored := b_restored m; b_early := b_early m |}
(* main.rs:84-100 and csv::Writer *)
| bs_write m i c : b_thread m = HRun i ->
    build_step faulty m
      {| b_fs := write (b_fs m) i c; b_ui := b_ui m; b_thread := HRun i; b_success := b_success m;
         b_outcome := b_outcome m; b_restored := b_restored m; b_early := b_early m |}
(* build/measure.rs:175-183 and 50-58.  Errors include KilledByUser. *)
| bs_end m i ok : b_thread m = HRun i ->
    build_step faulty m
      {| b_fs := b_fs m; b_ui := b_ui m; b_thread := HDone; b_success := ok; b_outcome := Some ok;
         b_restored := b_restored m; b_early := b_early m |}.
Inductive build_reach (faulty : bool) (f : fs) : build_measure -> Prop :=
| br_init : build_reach faulty f (build_init f)
| br_step m m' : build_reach faulty f m -> build_step faulty m m' -> build_reach faulty f m'.
(** build/measure.rs:101-120: what measure_profile returns *)
Definition measure_profile_returns (m : build_measure) : bool :=
  match b_outcome m with Some true => true | _ => false end.

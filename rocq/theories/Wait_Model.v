(** Model of how a clang time-trace run is awaited: `CancelableClang` and
    `child_failure_message` of src/ui/tui/trace/measure.rs.

    Simplifications:
    - Pipes are bounded queues of bytes, of some capacity; clang writes one byte at a time and
      is blocked while the pipe is full.  It ends by itself after its last write, or because of
      a signal.  Processes that it started do not outlive it.
    - `wait_timeout` answers at any time: the status of a process that ended, nothing
      otherwise, or an error.  The flag is sequentially consistent.
    - How statuses are shown and how invalid UTF-8 is replaced are parameters. *)
From Coq Require Import Ascii String.
From Verif Require Import Base.
Local Open Scope nat_scope.
Local Open Scope list_scope.
Local Notation "' s" := (of_string s) (at level 0, s at level 0).

Definition newline : chr := 10%N.
Inductive stream := SOut | SErr.
Definition byte := N.
(** An exit code, or a signal *)
Inductive status := Exited (code : N) | Signalled (signal : N).
(** std `ExitStatus::success` *)
Definition success (st : status) : bool := match st with Exited code => N.eqb code 0 | Signalled _ => false end.

(** What clang does: bytes that it writes, then how it ends (never, maybe) *)
Record clang := { c_writes : list (stream * byte); c_end : option N }.

(** trace/measure.rs:353-381: results of `wait` *)
Inductive wait_error := ClangFailed (message : str) | KillFailed | AwaitFailed.
Inductive wait_result := Completed | Canceled | Failed (e : wait_error).

Inductive pc := Polling | Killing | Done (r : wait_result).
Record waiting := {
  w_todo : list (stream * byte);        (* what clang has yet to write *)
  w_out : list byte; w_err : list byte; (* contents of the pipes *)
  w_ended : option status;
  w_cancel : bool;                      (* CancelTrigger *)
  w_pc : pc }.

Section Wait.
  Variable show_status : status -> str.
  Variable lossy : list byte -> str.    (* String::from_utf8_lossy *)
  Variable capacity : nat.              (* of a pipe *)
  Variable c : clang.

  (** trace/measure.rs:310-328 *)
  Definition started : waiting :=
    {| w_todo := c_writes c; w_out := []; w_err := []; w_ended := None; w_cancel := false; w_pc := Polling |}.

  (** trace/measure.rs:417-427 *)
  Definition append_pipe (error : str) (is_first : bool) (name : str) (data : list byte) : str :=
    error ++ (if is_first then ' " with" else newline :: ' "and") ++ ' " the following " ++ name ++ ' " output:"
      ++ [newline] ++ ' "---" ++ [newline] ++ lossy data ++ ' "---".
  Definition is_empty (l : list byte) : bool := match l with [] => true | _ => false end.
  (** trace/measure.rs:400-435 *)
  Definition child_failure_message (st : status) (out err : list byte) : str :=
    let error := ' "clang time-trace run failed (" ++ show_status st ++ ' ")" in
    let error := if negb (is_empty out) then append_pipe error true ' "stdout" out else error in
    if negb (is_empty err) then append_pipe error (is_empty out) ' "stderr" err else error.

  Definition set_pc (w : waiting) (p : pc) : waiting :=
    {| w_todo := w_todo w; w_out := w_out w; w_err := w_err w; w_ended := w_ended w; w_cancel := w_cancel w; w_pc := p |}.
  Definition set_ended (w : waiting) (st : status) : waiting :=
    {| w_todo := w_todo w; w_out := w_out w; w_err := w_err w; w_ended := Some st; w_cancel := w_cancel w; w_pc := w_pc w |}.

  Inductive event :=
  | Write | End                          (* clang goes on *)
  | Signal (n : N)                       (* a signal ends clang *)
  | Cancel                               (* the user presses Abort *)
  | Poll                                 (* wait_timeout returns a status or nothing *)
  | PollError
  | Kill | KillError.

  Definition step (w : waiting) (e : event) : option waiting :=
    match e with
    | Write =>
        match w_ended w, w_todo w with
        | None, (SOut, b) :: r =>
            if Nat.ltb (List.length (w_out w)) capacity
            then Some {| w_todo := r; w_out := w_out w ++ [b]; w_err := w_err w; w_ended := None;
                         w_cancel := w_cancel w; w_pc := w_pc w |}
            else None
        | None, (SErr, b) :: r =>
            if Nat.ltb (List.length (w_err w)) capacity
            then Some {| w_todo := r; w_out := w_out w; w_err := w_err w ++ [b]; w_ended := None;
                         w_cancel := w_cancel w; w_pc := w_pc w |}
            else None
        | _, _ => None
        end
    | End =>
        match w_ended w, w_todo w, c_end c with
        | None, [], Some code => Some (set_ended w (Exited code))
        | _, _, _ => None
        end
    | Signal n => match w_ended w with None => Some (set_ended w (Signalled n)) | Some _ => None end
    | Cancel =>                                                  (* trace/measure.rs:392-394 *)
        Some {| w_todo := w_todo w; w_out := w_out w; w_err := w_err w; w_ended := w_ended w;
                w_cancel := true; w_pc := w_pc w |}
    | Poll =>                                                    (* trace/measure.rs:337-359 *)
        match w_pc w with
        | Polling =>
            Some match w_ended w with
                 | Some st =>
                     if success st then set_pc w (Done Completed)
                     else set_pc w (Done (Failed (ClangFailed (child_failure_message st (w_out w) (w_err w)))))
                 | None => if w_cancel w then set_pc w Killing else w
                 end
        | _ => None
        end
    | PollError =>                                               (* trace/measure.rs:373-374 *)
        match w_pc w with Polling => Some (set_pc w (Done (Failed AwaitFailed))) | _ => None end
    | Kill =>                                                    (* trace/measure.rs:362-369 *)
        match w_pc w with Killing => Some (set_pc w (Done Canceled)) | _ => None end
    | KillError =>                                               (* trace/measure.rs:370 *)
        match w_pc w with Killing => Some (set_pc w (Done (Failed KillFailed))) | _ => None end
    end.

  Inductive wait_run : list event -> waiting -> Prop :=
  | wr_start : wait_run [] started
  | wr_step evs w e w' : wait_run evs w -> step w e = Some w' -> wait_run (evs ++ [e]) w'.
End Wait.

(** Running compilation commands: cmakeperf/src/commands.rs:178-251,
    cmakeperf/src/measure/worker.rs:127-147, src/ui/tui/trace/measure.rs:79-90.
    The crate `shlex` 1.3 is transcribed by hand; it works on bytes, all the characters it
    looks at are ASCII, so it is given on characters here. *)
From Coq Require Import String.
From Verif Require Import Base.
From Verif Require Import Cpp_Lex_Model Cmd_Model.
Local Open Scope nat_scope.
Local Open Scope bool_scope.
Local Open Scope list_scope.

(** Where shlex::bytes::Shlex is in its input: `next` skipping white space, `next` skipping a
    comment, `parse_word`, its case of a backslash, `parse_single`, `parse_double` and its
    case of a backslash. *)
Inductive lex_mode := Between | Comment | InWord | Escaped | InSingle | InDouble | EscapedInDouble.

Definition is_blank (c : chr) : bool := N.eqb c 32 || N.eqb c 9 || N.eqb c 10.

(** One character of `parse_word` *)
Definition word_char (c : chr) : lex_mode :=
  if N.eqb c 34 then InDouble
  else if N.eqb c 39 then InSingle
  else if N.eqb c 92 then Escaped
  else InWord.

(** shlex::Shlex as an iterator, until it returns None; [w] is the current word.  At the end of
    the input an open quote or backslash makes `next` return None and the word is lost. *)
Fixpoint shlex (m : lex_mode) (w : str) (s : str) : list str :=
  match s with
  | [] => match m with InWord => [w] | _ => [] end
  | c :: s' =>
      match m with
      | Between =>
          if is_blank c then shlex Between [] s'
          else if N.eqb c 35 then shlex Comment [] s'
          else match word_char c with
               | InWord => shlex InWord [c] s'
               | m' => shlex m' [] s'
               end
      | Comment => if N.eqb c 10 then shlex Between [] s' else shlex Comment [] s'
      | InWord =>
          if is_blank c then w :: shlex Between [] s'
          else match word_char c with
               | InWord => shlex InWord (w ++ [c]) s'
               | m' => shlex m' w s'
               end
      | Escaped => if N.eqb c 10 then shlex InWord w s' else shlex InWord (w ++ [c]) s'
      | InSingle => if N.eqb c 39 then shlex InWord w s' else shlex InSingle (w ++ [c]) s'
      | InDouble =>
          if N.eqb c 92 then shlex EscapedInDouble w s'
          else if N.eqb c 34 then shlex InWord w s'
          else shlex InDouble (w ++ [c]) s'
      | EscapedInDouble =>
          if N.eqb c 36 || N.eqb c 96 || N.eqb c 34 || N.eqb c 92 then shlex InDouble (w ++ [c]) s'
          else if N.eqb c 10 then shlex InDouble w s'
          else shlex InDouble (w ++ [92%N; c]) s'
      end
  end.

(** commands.rs:152-167 *)
Record db_job := mkJob { j_directory : str; j_command : str; j_file : str; j_output : option str }.

(** commands.rs:244-246 *)
Definition full_args (e : db_job) : list str := shlex Between [] (j_command e).
(** commands.rs:189-197 *)
Definition job_program (e : db_job) : option str := nth_error (full_args e) 0.
Definition job_args (e : db_job) : list str := skipn 1 (full_args e).

(** The same entry with its command cut into words, as used by Cmd_Model.v *)
Definition job_entry (e : db_job) : entry :=
  {| e_directory := j_directory e; e_words := full_args e; e_file := j_file e; e_output := j_output e |}.

(** A process to be spawned: program, arguments, working directory *)
Record process := mkProcess { p_program : str; p_args : list str; p_cwd : str }.

(** worker.rs:128-147, up to spawning it; None is JobError::NoProgram *)
Definition start_job (e : db_job) : option process :=
  match job_program e with
  | None => None
  | Some program => Some (mkProcess program (job_args e) (j_directory e))
  end.

(** src/ui/tui/trace/measure.rs:82-89 *)
Definition trace_command (clangpp : str) (granularity : option N) (e : db_job) : process :=
  mkProcess clangpp
    (of_string "-ftime-trace" ::
     match granularity with
     | Some g => [of_string "-ftime-trace-granularity=" ++ uint_str (N.to_uint g)]
     | None => []
     end ++ job_args e)
    (j_directory e).

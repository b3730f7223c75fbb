(** Specification vocabulary for awaiting clang. *)
From Coq Require Import Ascii String.
From Verif Require Import Base Wait_Model.
Local Open Scope nat_scope.
Local Open Scope list_scope.
Local Notation "' s" := (of_string s) (at level 0, s at level 0).

(** What some writes put on a stream *)
Inductive prints (s : stream) : list (stream * byte) -> list byte -> Prop :=
| pr_nil : prints s [] []
| pr_here b r l : prints s r l -> prints s ((s, b) :: r) (b :: l)
| pr_other s' b r l : s' <> s -> prints s r l -> prints s ((s', b) :: r) l.
(** clang prints no more than what fits into the pipes. *)
Definition fits (capacity : nat) (c : clang) : Prop :=
  forall s l, prints s (c_writes c) l -> List.length l <= capacity.

(** The message about a failure *)
Definition section_of (lossy : list byte -> str) (word name : str) (data : list byte) : str :=
  word ++ ' " the following " ++ name ++ ' " output:" ++ [10%N] ++ ' "---" ++ [10%N] ++ lossy data ++ ' "---".
Inductive failure_text (show_status : status -> str) (lossy : list byte -> str) (st : status)
  : list byte -> list byte -> str -> Prop :=
| ft_none : failure_text show_status lossy st [] []
    (' "clang time-trace run failed (" ++ show_status st ++ ' ")")
| ft_out o out : failure_text show_status lossy st (o :: out) []
    (' "clang time-trace run failed (" ++ show_status st ++ ' ")" ++ section_of lossy ' " with" ' "stdout" (o :: out))
| ft_err e err : failure_text show_status lossy st [] (e :: err)
    (' "clang time-trace run failed (" ++ show_status st ++ ' ")" ++ section_of lossy ' " with" ' "stderr" (e :: err))
| ft_both o out e err : failure_text show_status lossy st (o :: out) (e :: err)
    (' "clang time-trace run failed (" ++ show_status st ++ ' ")" ++ section_of lossy ' " with" ' "stdout" (o :: out)
       ++ section_of lossy (10%N :: ' "and") ' "stderr" (e :: err)).

(** How clang ended: by itself after all its writes, or because of a signal after some of
    them.  The lists are what it printed. *)
Inductive ended (c : clang) : status -> list byte -> list byte -> Prop :=
| en_exit code out err : c_end c = Some code -> prints SOut (c_writes c) out -> prints SErr (c_writes c) err ->
    ended c (Exited code) out err
| en_signal n done rest out err : c_writes c = done ++ rest -> prints SOut done out -> prints SErr done err ->
    ended c (Signalled n) out err.

(** What the system does by itself when nothing goes wrong: clang goes on, the program polls
    and kills. *)
Definition own (e : event) : bool :=
  match e with Write | End | Poll | Kill => true | _ => false end.

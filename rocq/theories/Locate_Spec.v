(** Specification vocabulary: files, and what the trace of a unit is. *)
From Coq Require Import String.
From Verif Require Import Base Asylum_Model.
From Verif Require Import Cpp_Lex_Model Cpp_Lex_Spec Cmd_Model Shell_Model Locate_Model.
Local Open Scope nat_scope.
Local Open Scope list_scope.

(** A name of a file or directory. *)
Definition real_name (s : str) : Prop := s <> [] /\ s <> of_string "." /\ s <> of_string ".." /\ ~ In slash s.

(** A place that is a directory, and so is everything above it: no symbolic link is involved. *)
Definition real_directory (fs : filesystem) (d : list str) : Prop :=
  Forall real_name d /\ forall k, fs (firstn k d) = Some Directory.
(** A file in such a directory. *)
Definition real_file (fs : filesystem) (p : list str) : Prop :=
  exists d name, p = d ++ [name] /\ real_directory fs d /\ real_name name /\ fs p = Some RegularFile.

(** The segments [segs] of a path, followed from the place [d], lead to the place [p] by way of
    [n] symbolic links. *)
Inductive leads (fs : filesystem) : nat -> list str -> list str -> list str -> Prop :=
| leads_here d : leads fs 0 d [] d
| leads_stay n d (s : str) segs p : fs d = Some Directory -> s = [] \/ s = of_string "." ->
    leads fs n d segs p -> leads fs n d (s :: segs) p
| leads_up n d segs p : fs d = Some Directory ->
    leads fs n (removelast d) segs p -> leads fs n d (of_string ".." :: segs) p
| leads_down n d (s : str) segs p : fs d = Some Directory -> s <> [] -> s <> of_string "." -> s <> of_string ".." ->
    fs (d ++ [s]) = Some Directory \/ fs (d ++ [s]) = Some RegularFile ->
    leads fs n (d ++ [s]) segs p -> leads fs n d (s :: segs) p
| leads_link n d (s t : str) segs p : fs d = Some Directory -> s <> [] -> s <> of_string "." -> s <> of_string ".." ->
    fs (d ++ [s]) = Some (SymLink t) ->
    leads fs n (if path_has_root t then [] else d) (split_slash t ++ segs) p ->
    leads fs (S n) d (s :: segs) p.
(** The path [text] names the place [p] in a process whose current directory is [cwd], with at
    most [links] symbolic links. *)
Definition names_place (links : nat) (fs : filesystem) (cwd : list str) (text : str) (p : list str) : Prop :=
  text <> [] /\ exists n, n <= links /\
    leads fs n (if path_has_root text then [] else cwd) (split_slash text) p.

(** The name of the trace of an output: what follows its last dot is replaced, unless the name
    starts with that dot. *)
Definition trace_name (name t : str) : Prop :=
  exists stem, t = stem ++ of_string ".json" /\
    ((stem <> [] /\ exists ext, name = stem ++ dot :: ext /\ ~ In dot ext) \/
     (stem = name /\ forall b ext, name = b ++ dot :: ext -> ~ In dot ext -> b = [])).

(** How an age in nanoseconds is written. *)
Definition seconds_ns : Z := 1000000000.
Definition age_text (d : Z) (t : str) : Prop :=
  exists ds n, are_digits ds /\ digits_value ds = n /\
   ((t = digits_text ds ++ of_string "min" /\ 0 < n < 60 /\ n * (60 * seconds_ns) <= d < (n + 1) * (60 * seconds_ns))%Z \/
    (t = digits_text ds ++ of_string "h" /\ 0 < n < 24 /\ n * (3600 * seconds_ns) <= d < (n + 1) * (3600 * seconds_ns))%Z \/
    (t = digits_text ds ++ of_string " day" /\ n = 1 /\ n * (86400 * seconds_ns) <= d < (n + 1) * (86400 * seconds_ns))%Z \/
    (t = digits_text ds ++ of_string " days" /\ 1 < n /\ n * (86400 * seconds_ns) <= d < (n + 1) * (86400 * seconds_ns))%Z).

(** Specification vocabulary for the detection of clang++. *)
From Coq Require Import String.
From Verif Require Import Base Clang_Model.
Local Open Scope nat_scope.
Local Open Scope list_scope.

(** What is assumed of Unicode digits: ASCII digits are, a dot is not. *)
Record digit_class (is_digit : chr -> bool) : Prop := {
  dc_ascii : forall c, (48 <= c <= 57)%N -> is_digit c = true;
  dc_dot : is_digit dot = false }.

(** The first line of a text: what precedes its first line break (CR LF or LF), or all of it. *)
Inductive starts_with_line : str -> str -> Prop :=
| sl_only l : l <> [] -> ~ In 10%N l -> starts_with_line l l
| sl_lf l rest : ~ In 10%N l -> (forall l', l <> l' ++ [13%N]) -> starts_with_line (l ++ 10%N :: rest) l
| sl_crlf l rest : ~ In 10%N l -> starts_with_line (l ++ 13%N :: 10%N :: rest) l.

(** "clang version <major>.<minor>" occurs in a line after [before]. *)
Definition version_after (is_digit : chr -> bool) (line before major : str) : Prop :=
  exists d rest, line = before ++ of_string "clang version " ++ major ++ dot :: d :: rest /\
    major <> [] /\ Forall (fun c => is_digit c = true) major /\ is_digit d = true.
(** The first such occurrence. *)
Definition version (is_digit : chr -> bool) (line major : str) : Prop :=
  exists before, version_after is_digit line before major /\
    forall before' major', version_after is_digit line before' major' -> length before <= length before'.

(** [text] is a decimal numeral for [n]. *)
Inductive numeral : str -> N -> Prop :=
| num_one c : (48 <= c <= 57)%N -> numeral [c] (c - 48)
| num_more s n c : numeral s n -> (48 <= c <= 57)%N -> numeral (s ++ [c]) (10 * n + (c - 48)).
(** The numerals of the versions that fit in 64 bits. *)
Definition number_of (text : str) (n : N) : Prop := numeral text n /\ (n < 2 ^ 64)%N.

(** The answer to each outcome of `clang++ --version`. *)
Inductive decides (is_digit : chr -> bool) : probe -> answer -> Prop :=
| de_not_found : decides is_digit PNotFound (Error NotFound)
| de_io : decides is_digit PIoError (Error IoError)
| de_status stdout : decides is_digit (PRan false stdout) (Error BadStatus)
| de_utf8 : decides is_digit (PRan true None) (Error NotUtf8)
| de_empty : decides is_digit (PRan true (Some [])) (Error EmptyVersion)
| de_found text line major n :
    starts_with_line text line -> version is_digit line major -> number_of major n -> (9 <= n)%N ->
    decides is_digit (PRan true (Some text)) Found
| de_ancient text line major n :
    starts_with_line text line -> version is_digit line major -> number_of major n -> (n < 9)%N ->
    decides is_digit (PRan true (Some text)) (Error (AncientVersion n))
| de_unexpected text line :
    starts_with_line text line ->
    (forall major n, version is_digit line major -> ~ number_of major n) ->
    decides is_digit (PRan true (Some text)) (Error (UnexpectedVersion line)).

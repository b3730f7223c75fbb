(** Vocabulary to state the properties of the entity parser. *)
From Coq Require Import Ascii String.
From Verif Require Import Base Cpp_Lex_Model Cpp_Ast_Model.
Local Open Scope nat_scope.
Local Open Scope bool_scope.
Local Open Scope list_scope.

Definition contains (pattern s : str) : Prop := exists before after, s = before ++ pattern ++ after.

(** One of `^^`, `%%`, `//`, `**`, `~~`, `!!`, `,,` occurs *)
Definition has_doubled_operator (s : str) : Prop :=
  exists c, In c (of_string "^%/*~!,") /\ contains [c; c] s.

(** `at ` followed by something that is not an absolute path *)
Definition has_relative_location (s : str) : Prop :=
  exists c, c <> slash /\ contains (of_string "at " ++ [c]) s.

(** Neither part of an identifier or number nor white space *)
Definition is_punctuation (c : chr) : bool := negb (is_id_continue c) && negb (is_space c).
Fixpoint punctuation (s : str) : nat :=
  match s with
  | [] => 0
  | c :: r => (if is_punctuation c then 1 else 0) + punctuation r
  end.
(** At least 63 punctuation characters *)
Definition is_crowded (s : str) : Prop := 63 <= punctuation s.

(** What an input that makes the parser panic looks like *)
Definition may_panic (why : panic_reason) (s : str) : Prop :=
  match why with
  | PROperator => has_doubled_operator s
  | PRRelativePath => has_relative_location s
  | PRSequence => is_crowded s
  | PRImpossible => False
  end.

(** How command lines are written. *)
From Coq Require Import String.
From Verif Require Import Base.
Local Open Scope nat_scope.
Local Open Scope list_scope.

Local Notation dquote := 34%N.
Local Notation squote := 39%N.
Local Notation backslash := 92%N.
Local Notation newline := 10%N.

(** Space, tab, newline *)
Definition blank (c : chr) : Prop := c = 32%N \/ c = 9%N \/ c = newline.
(** Characters that stand for themselves outside of quotes *)
Definition ordinary (c : chr) : Prop := ~ blank c /\ c <> dquote /\ c <> squote /\ c <> backslash.
(** Dollar, backquote, double quote and backslash: a backslash escapes them between double quotes *)
Definition escapable (c : chr) : Prop := c = 36%N \/ c = 96%N \/ c = dquote \/ c = backslash.

(** [in_double v t]: between double quotes, [t] stands for [v]. *)
Inductive in_double : str -> str -> Prop :=
| dq_end : in_double [] []
| dq_char c v t : c <> dquote -> c <> backslash -> in_double v t -> in_double (c :: v) (c :: t)
| dq_escape c v t : escapable c -> in_double v t -> in_double (c :: v) (backslash :: c :: t)
| dq_newline v t : in_double v t -> in_double v (backslash :: newline :: t)
| dq_backslash c v t : ~ escapable c -> c <> newline -> in_double v t ->
    in_double (backslash :: c :: v) (backslash :: c :: t).

(** [piece v t]: the piece [t] of a word stands for [v]. *)
Inductive piece : str -> str -> Prop :=
| pc_char c : ordinary c -> piece [c] [c]
| pc_escape c : c <> newline -> piece [c] [backslash; c]
| pc_newline : piece [] [backslash; newline]
| pc_single v : ~ In squote v -> piece v (squote :: v ++ [squote])
| pc_double v t : in_double v t -> piece v (dquote :: t ++ [dquote]).

Inductive pieces : str -> str -> Prop :=
| pcs_nil : pieces [] []
| pcs_cons v t v' t' : piece v t -> pieces v' t' -> pieces (v ++ v') (t ++ t').

(** A word: some pieces; it does not start with #. *)
Definition word_text (v t : str) : Prop := pieces v t /\ t <> [] /\ hd 0%N t <> 35%N.

(** What may come before a word: blanks and comments up to the end of the line. *)
Inductive space : str -> Prop :=
| sp_nil : space []
| sp_blank c t : blank c -> space t -> space (c :: t)
| sp_comment u t : ~ In newline u -> space t -> space (35%N :: u ++ newline :: t).

(** [command_text words t]: [t] is a command line made of these words. *)
Inductive command_text : list str -> str -> Prop :=
| cmd_end sp : space sp -> command_text [] sp
| cmd_comment sp u : space sp -> ~ In newline u -> command_text [] (sp ++ 35%N :: u)
| cmd_last sp v t : space sp -> word_text v t -> command_text [v] (sp ++ t)
| cmd_word sp v t c s vs : space sp -> word_text v t -> blank c -> command_text vs (c :: s) ->
    command_text (v :: vs) (sp ++ t ++ c :: s).

(** A quote that is not closed, or a backslash at the end. *)
Inductive unclosed : str -> Prop :=
| un_backslash : unclosed [backslash]
| un_single v : ~ In squote v -> unclosed (squote :: v)
| un_double v t : in_double v t -> unclosed (dquote :: t)
| un_double_backslash v t : in_double v t -> unclosed (dquote :: t ++ [backslash]).

(** A command line whose last word, after the words [words], is unclosed. *)
Inductive broken_text : list str -> str -> Prop :=
| br_last sp v t u : space sp -> pieces v t -> (forall w, t <> 35%N :: w) -> unclosed u -> broken_text [] (sp ++ t ++ u)
| br_word sp v t c s vs : space sp -> word_text v t -> blank c -> broken_text vs (c :: s) ->
    broken_text (v :: vs) (sp ++ t ++ c :: s).

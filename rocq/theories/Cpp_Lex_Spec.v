(** Vocabulary to state the properties of literals, words, qualifiers, type names and operators,
    in terms of the characters of the text. *)
From Coq Require Import Ascii String Permutation.
From Verif Require Import Base Cpp_Lex_Model.
Local Open Scope nat_scope.
Local Open Scope bool_scope.
Local Open Scope list_scope.

(** ** Words *)

Definition letters : string := "ABCDEFGHIJKLMNOPQRSTUVWXYZabcdefghijklmnopqrstuvwxyz_$".
Definition can_start_word (c : chr) : Prop := In c (of_string letters).
Definition can_continue_word (c : chr) : Prop := In c (of_string letters ++ of_string "0123456789").
Definition word (w : str) : Prop :=
  exists c r, w = c :: r /\ can_start_word c /\ Forall can_continue_word r.
(** the text before [s] is not continued by [s] *)
Definition word_ends (s : str) : Prop := forall c r, s = c :: r -> ~ can_continue_word c.
(** [s] starts with the word [w] *)
Definition starts_with_word (w : string) (s : str) : Prop :=
  exists r, s = of_string w ++ r /\ word_ends r.

Definition white (c : chr) : Prop := In c [32; 9; 13; 10]%N.
Definition not_white (s : str) : Prop := forall c r, s = c :: r -> ~ white c.

(** [s] is the words [ws] of the vocabulary, separated and followed by white space, and then
    [r], which does not start with a word of the vocabulary *)
Inductive words_then (vocabulary : list string) : list string -> str -> str -> Prop :=
| words_end r :
    (forall w, In w vocabulary -> ~ starts_with_word w r) -> words_then vocabulary [] r r
| words_next w ws sp s r :
    In w vocabulary -> Forall white sp -> word_ends (sp ++ s) -> not_white s ->
    words_then vocabulary ws s r ->
    words_then vocabulary (w :: ws) (of_string w ++ sp ++ s) r.

(** ** Decimal numbers *)

Definition digits_text (ds : list N) : str := map (fun d => 48 + d)%N ds.
Definition digits_value (ds : list N) : Z :=
  fold_left (fun v d => 10 * v + Z.of_N d)%Z ds 0%Z.
Definition are_digits (ds : list N) : Prop := ds <> [] /\ Forall (fun d => (d < 10)%N) ds.
(** the type suffixes u, l, z, in any case, number and order *)
Definition int_suffix (c : chr) : Prop := In c (of_string "uUlLzZ").
(** [s] cannot continue a number with the suffix letters [sfx] *)
Definition number_ends (sfx s : str) : Prop :=
  forall c r, s = c :: r -> ~ int_suffix c /\ (sfx = [] -> ~ In c (of_string "0123456789")).

(** optional sign *)
Inductive sign := NoSign | Minus | Plus.
Definition sign_text (s : sign) : str :=
  match s with NoSign => [] | Minus => of_string "-" | Plus => of_string "+" end.

(** ** Legacy type names: the combinations of C (with `__int128` and `_Complex`) *)

Definition legacy_words : list string :=
  ["float"; "double"; "long"; "unsigned"; "char"; "int"; "__int128"; "signed"; "short";
   "_Complex"]%string.
Definition legacy_table : list (list string * legacy_name) :=
  [ (["short"], SignedShort); (["short"; "int"], SignedShort);
    (["signed"; "short"], SignedShort); (["signed"; "short"; "int"], SignedShort);
    (["unsigned"; "short"], UnsignedShort); (["unsigned"; "short"; "int"], UnsignedShort);
    (["int"], SignedInt); (["signed"], SignedInt); (["signed"; "int"], SignedInt);
    (["unsigned"], UnsignedInt); (["unsigned"; "int"], UnsignedInt);
    (["long"], SignedLong); (["long"; "int"], SignedLong);
    (["signed"; "long"], SignedLong); (["signed"; "long"; "int"], SignedLong);
    (["unsigned"; "long"], UnsignedLong); (["unsigned"; "long"; "int"], UnsignedLong);
    (["long"; "long"], SignedLongLong); (["long"; "long"; "int"], SignedLongLong);
    (["signed"; "long"; "long"], SignedLongLong);
    (["signed"; "long"; "long"; "int"], SignedLongLong);
    (["unsigned"; "long"; "long"], UnsignedLongLong);
    (["unsigned"; "long"; "long"; "int"], UnsignedLongLong);
    (["__int128"], SignedInt128); (["signed"; "__int128"], SignedInt128);
    (["unsigned"; "__int128"], UnsignedInt128);
    (["char"], Char); (["signed"; "char"], SignedChar); (["unsigned"; "char"], UnsignedChar);
    (["float"], Float); (["double"], Double); (["long"; "double"], LongDouble);
    (["float"; "_Complex"], FloatComplex); (["double"; "_Complex"], DoubleComplex);
    (["long"; "double"; "_Complex"], LongDoubleComplex) ]%string.

(** ** Operators *)

(** Text of the arithmetic, comparison and access operators *)
Definition symbol_text (s : sym) : str :=
  match s with
  | AddPlus => of_string "+" | SubNeg => of_string "-" | MulDeref => of_string "*"
  | Div => of_string "/" | Mod => of_string "%" | Xor => of_string "^"
  | AndRef => of_string "&" | Or => of_string "|" | BitNot => of_string "~"
  | Not => of_string "!" | AssignEq => of_string "=" | Less => of_string "<"
  | Greater => of_string ">" | Comma => of_string ","
  end.
Definition operator_text {T} (op : operator T) : option str :=
  match op with
  | OBasic s twice equal =>
      Some (symbol_text s ++ (if twice then symbol_text s else []) ++
            (if equal then of_string "=" else []))
  | ODeref star => Some (of_string (if star then "->*" else "->"))
  | OSpaceship => Some (of_string "<=>")
  | _ => None
  end.
(** `==` has two representations, of which parsers use the one with `equal` *)
Definition canonical {T} (op : operator T) : Prop := op <> OBasic AssignEq true false.
(** [op] is written [t] *)
Definition written {T} (op : operator T) (t : str) : Prop :=
  canonical op /\ operator_text op = Some t.

(** The operators that may stand between two values; inside template parameters, a lone or
    double `>` and a comma may not. *)
Definition binary_operator {T} (allow_comma allow_greater : bool) (op : operator T) : Prop :=
  match op with
  | OBasic s false false =>
      In s [AddPlus; SubNeg; MulDeref; Div; Mod; Xor; AndRef; Or; AssignEq; Less] \/
      (s = Comma /\ allow_comma = true) \/ (s = Greater /\ allow_greater = true)
  | OBasic s true false => In s [AndRef; Or; Less] \/ (s = Greater /\ allow_greater = true)
  | OBasic _ _ true | ODeref _ | OSpaceship => True
  | _ => False
  end.

(** [s] does not start with one of the fourteen symbols of operators *)
Definition no_symbol (s : str) : Prop := forall c r, s = c :: r -> ~ In c (of_string "+-*/%^&|~!=<>,").

(** ** Literals as parsers produce them *)

Definition canonical_literal (l : literal) : Prop :=
  match lit_value l with
  | LI64 z => (- 2 ^ 63 <= z < 2 ^ 63)%Z
  | LU64 z => (2 ^ 63 <= z < 2 ^ 64)%Z
  | LChar _ => True
  end /\
  match lit_suffix l with
  | None => True
  | Some i =>
      word i /\
      match lit_value l with
      | LChar _ => True
      | _ => forall c r, i = c :: r -> ~ int_suffix c
      end
  end.

(** The user-defined suffix of a literal, when there is one; after a number it cannot start
    with a letter of the standard suffixes. *)
Definition suffix_text (o : option str) : str := match o with Some w => w | None => [] end.
Definition suffix_ok (o : option str) : Prop := forall w, o = Some w -> word w.
Definition number_suffix_ok (o : option str) : Prop :=
  forall w, o = Some w -> word w /\ forall c r, w = c :: r -> ~ int_suffix c.

(** What may be written between the quotes of a character literal, and the character it stands
    for: a character, an escape, an octal value or a hexadecimal one. *)
Definition positional (base : N) (ds : list N) : N := fold_left (fun v d => base * v + d)%N ds 0%N.
Definition hex_digit (c : chr) (d : N) : Prop :=
  nth_error (of_string "0123456789abcdef") (N.to_nat d) = Some c \/
  nth_error (of_string "0123456789ABCDEF") (N.to_nat d) = Some c.
(** Unicode scalar values *)
Definition scalar (n : N) : Prop := (n < 55296 \/ 57344 <= n < 1114112)%N.
Definition simple_escapes : list (string * chr) :=
  [("t", 9); ("r", 13); ("n", 10); ("'", 39); ("""", 34); ("\", 92)]%N%string.
Inductive denotes : str -> chr -> Prop :=
| denotes_itself c : c <> 92%N -> denotes [c] c
| denotes_escape e c : In (e, c) simple_escapes -> denotes (of_string "\" ++ of_string e) c
| denotes_octal ds :
    ds <> [] -> Forall (fun d => (d < 8)%N) ds -> (positional 8 ds < 256)%N ->
    denotes (of_string "\" ++ digits_text ds) (positional 8 ds)
| denotes_hex letter hs ds :
    In letter ["x"; "u"; "U"]%string -> ds <> [] -> Forall2 hex_digit hs ds ->
    scalar (positional 16 ds) ->
    denotes (of_string "\" ++ of_string letter ++ hs) (positional 16 ds).
Definition char_prefixes : list string := [""; "u8"; "u"; "U"; "L"]%string.

(** Characters that Rust's `{:?}` shows as an escape that is also one of C++ *)
Definition escaped_alike (c : chr) : Prop := In c [0; 9; 10; 13; 39; 92]%N.
(** Escapes of Rust's `{:?}` for a char *)
Definition rust_escapes : list (chr * string) :=
  [(0, "\0"); (9, "\t"); (10, "\n"); (13, "\r"); (39, "\'"); (92, "\\")]%N%string.
(** [t] is the lower-case hexadecimal writing of [n], without leading zeros *)
Definition hexadecimal (n : N) (t : str) : Prop :=
  exists ds, positional 16 ds = n /\ ds <> [] /\ (forall d ds', ds = 0%N :: d :: ds' -> False) /\
    Forall2 (fun c d => nth_error (of_string "0123456789abcdef") (N.to_nat d) = Some c) t ds.

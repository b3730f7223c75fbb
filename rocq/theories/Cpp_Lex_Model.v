(** Model of the lexical layer of the C++ entity parser (cpparser/src/subparsers):
    identifiers and keywords, literals, qualifiers, legacy C type names, operator symbols.

    Simplifications, in all the Cpp_* files:
    - an input `&str` is its list of Unicode scalar values; the crate is built without the
      `unicode-xid` feature and with `debug_assert!` off (release), so that non-ASCII
      characters are just never identifier characters;
    - interning is not repeated here: parsers return the parsed item itself where the code
      returns a key that stands for it (Asylum_*.v proves that keys and items correspond);
      what remains visible is that a sequence too long for its key panics
      ([intern_seq] below); exhaustion of a whole interner by many entities is not modelled;
    - nom's errors carry a position that is only reported, so they are one value [PErr]. *)
From Coq Require Import Ascii String.
From Verif Require Import Base.
Local Open Scope nat_scope.
Local Open Scope bool_scope.
Local Open Scope list_scope.

(** ** nom parsers *)

(** Why a panic happened *)
Inductive panic_reason :=
| PROperator          (* operators/usage.rs:114 unreachable!() *)
| PRRelativePath      (* lib.rs:170 expect *)
| PRSequence          (* asylum sequence interner: sequence too long for the key *)
| PRImpossible.       (* legacy.rs:407 and usage.rs:98 unreachable!() *)

(** `IResult`: success with the remaining input, recoverable error, unwinding.  [PFuel] is
    not an outcome of the code: it marks that the model's recursion budget ran out. *)
Inductive pres (A : Type) :=
| POk (rest : str) (a : A)
| PErr
| PPanic (why : panic_reason)
| PFuel.
Arguments POk {A}. Arguments PErr {A}. Arguments PPanic {A}. Arguments PFuel {A}.

Definition parser (A : Type) := str -> pres A.

(** `Parser::and_then`-like sequencing, used to write the others *)
Definition pbind {A B} (x : pres A) (f : str -> A -> pres B) : pres B :=
  match x with
  | POk r a => f r a
  | PErr => PErr
  | PPanic w => PPanic w
  | PFuel => PFuel
  end.

Definition pmap {A B} (f : A -> B) (p : parser A) : parser B :=
  fun s => pbind (p s) (fun r a => POk r (f a)).
Definition pvalue {A B} (b : B) (p : parser A) : parser B := pmap (fun _ => b) p.
Definition pand {A B} (p : parser A) (q : parser B) : parser (A * B) :=
  fun s => pbind (p s) (fun r a => pbind (q r) (fun r' b => POk r' (a, b))).
Definition preceded {A B} (p : parser A) (q : parser B) : parser B := pmap snd (pand p q).
Definition terminated {A B} (p : parser A) (q : parser B) : parser A := pmap fst (pand p q).
Definition delimited {A B C} (p : parser A) (q : parser B) (t : parser C) : parser B :=
  preceded p (terminated q t).
Definition separated_pair {A B C} (p : parser A) (q : parser B) (t : parser C) : parser (A * C) :=
  pand p (preceded q t).

(** `Parser::or`: the alternative is tried on a recoverable error only *)
Definition por {A} (p q : parser A) : parser A :=
  fun s => match p s with PErr => q s | x => x end.

(** nom `opt` *)
Definition opt {A} (p : parser A) : parser (option A) :=
  fun s => match p s with
           | POk r a => POk r (Some a)
           | PErr => POk s None
           | PPanic w => PPanic w
           | PFuel => PFuel
           end.
(** nom `peek` *)
Definition peek {A} (p : parser A) : parser A :=
  fun s => match p s with POk _ a => POk s a | x => x end.
(** nom `map_opt` / `map_res` *)
Definition map_opt {A B} (p : parser A) (f : A -> option B) : parser B :=
  fun s => pbind (p s) (fun r a => match f a with Some b => POk r b | None => PErr end).
(** nom_supreme `verify` *)
Definition verify {A} (p : parser A) (f : A -> bool) : parser A :=
  map_opt p (fun a => if f a then Some a else None).

(** nom `fold_many0` / `many0_count`, collecting the items.  An iteration that consumes
    nothing is an error.  [n] bounds the number of iterations (see [many0]). *)
Fixpoint many_loop {A} (n : nat) (p : parser A) (s : str) : pres (list A) :=
  match n with
  | O => PFuel
  | S n' =>
      match p s with
      | POk r a =>
          if Nat.eqb (List.length r) (List.length s) then PErr
          else pbind (many_loop n' p r) (fun r' l => POk r' (a :: l))
      | PErr => POk s []
      | PPanic w => PPanic w
      | PFuel => PFuel
      end
  end.
Definition many0 {A} (p : parser A) : parser (list A) :=
  fun s => many_loop (S (List.length s)) p s.
(** nom `fold_many1` *)
Definition many1 {A} (p : parser A) : parser (list A) :=
  fun s => pbind (p s) (fun r a => pbind (many0 p r) (fun r' l => POk r' (a :: l))).

(** nom_supreme `parse_separated_terminated`: item, then terminator, or else separator and
    again.  Every separator of this crate consumes a comma. *)
Fixpoint sep_loop {A B C} (n : nat) (p : parser A) (sep : parser B) (term : parser C) (s : str)
  : pres (list A) :=
  match n with
  | O => PFuel
  | S n' =>
      match term s with
      | POk r _ => POk r []
      | PErr =>
          pbind (sep s) (fun r _ =>
          pbind (p r) (fun r' a =>
          pbind (sep_loop n' p sep term r') (fun r'' l => POk r'' (a :: l))))
      | PPanic w => PPanic w
      | PFuel => PFuel
      end
  end.
Definition separated_terminated {A B C} (p : parser A) (sep : parser B) (term : parser C)
  : parser (list A) :=
  fun s => pbind (p s) (fun r a =>
           pbind (sep_loop (S (List.length r)) p sep term r) (fun r' l => POk r' (a :: l))).

(** nom `char`, `anychar`, `satisfy` *)
Definition satisfy (f : chr -> bool) : parser chr :=
  fun s => match s with c :: r => if f c then POk r c else PErr | [] => PErr end.
Definition pchar (c : ascii) : parser chr := satisfy (N.eqb (N_of_ascii c)).
Definition anychar : parser chr := satisfy (fun _ => true).
(** `str::strip_prefix`, nom `tag` *)
Fixpoint strip_tag (t s : str) : option str :=
  match t, s with
  | [], _ => Some s
  | a :: t', b :: s' => if N.eqb a b then strip_tag t' s' else None
  | _ :: _, [] => None
  end.
Definition tag (t : string) : parser unit :=
  fun s => match strip_tag (of_string t) s with Some r => POk r tt | None => PErr end.
(** nom `eof` *)
Definition eof : parser unit := fun s => match s with [] => POk [] tt | _ => PErr end.
(** nom `take_while`: longest prefix *)
Fixpoint span (f : chr -> bool) (s : str) : str * str :=
  match s with
  | c :: r => if f c then let (a, b) := span f r in (c :: a, b) else ([], s)
  | [] => ([], [])
  end.
(** nom `multispace0` / `multispace1` *)
Definition is_space (c : chr) : bool :=
  N.eqb c 32 || N.eqb c 9 || N.eqb c 13 || N.eqb c 10.
Definition multispace0 : parser unit := fun s => POk (snd (span is_space s)) tt.
Definition multispace1 : parser unit :=
  fun s => match span is_space s with ([], _) => PErr | (_, r) => POk r tt end.

(** interning/recursion.rs:115-121 with asylum/src/sequence.rs:41-60: a key with [bits]
    length bits exists for sequences shorter than 2^bits only; interning then panics. *)
Definition intern_seq {A} (bits : N) (p : parser (list A)) : parser (list A) :=
  fun s => pbind (p s) (fun r l =>
    if N.ltb (N.of_nat (List.length l)) (2 ^ bits) then POk r l else PPanic PRSequence).

(** ** Atoms (names/atoms.rs) *)

Definition in_range (a b : ascii) (c : chr) : bool :=
  N.leb (N_of_ascii a) c && N.leb c (N_of_ascii b).
(** `u8::is_ascii_alphabetic`, `u8::is_ascii_digit` *)
Definition is_alpha (c : chr) : bool := in_range "A" "Z" c || in_range "a" "z" c.
Definition is_digit (c : chr) : bool := in_range "0" "9" c.
(** names/atoms.rs:177-180 *)
Definition is_id_start (c : chr) : bool :=
  is_alpha c || N.eqb c (N_of_ascii "_") || N.eqb c (N_of_ascii "$").
(** names/atoms.rs:194-197 *)
Definition is_id_continue (c : chr) : bool := is_id_start c || is_digit c.

(** names/atoms.rs:117-142 (and 65-80 without the key): identifier *)
Definition identifier : parser str :=
  fun s => match s with
           | c :: others =>
               if is_id_start c
               then let (a, r) := span is_id_continue others in POk r (c :: a)
               else PErr
           | [] => PErr
           end.

(** names/atoms.rs:146-163 *)
Definition end_of_identifier : parser unit :=
  fun s => match s with
           | c :: _ => if is_id_continue c then PErr else POk s tt
           | [] => POk s tt
           end.

(** names/atoms.rs:25-28 *)
Definition keyword_parser (word : string) : parser unit :=
  pvalue tt (terminated (tag word) end_of_identifier).

(** names/atoms.rs:42-62 *)
Fixpoint keywords_parser {Output} (kws : list (string * Output)) : parser Output :=
  match kws with
  | [] => fun _ => PErr
  | (k, v) :: rest => por (pvalue v (keyword_parser k)) (keywords_parser rest)
  end.

(** ** Literals (values/literals.rs) *)

(** nom `character::complete::{i64, u64, u32}`: digits are accumulated with checked
    arithmetic, in the direction of the sign *)
Definition digit_value (c : chr) : Z := (Z.of_N c - 48)%Z.
Fixpoint digits_loop (in_type : Z -> bool) (neg : bool) (value : Z) (pos : bool) (s : str)
  : pres Z :=
  match s with
  | [] => if pos then POk [] value else PErr
  | c :: r =>
      if is_digit c then
        let v := (value * 10)%Z in
        let v' := (if neg then v - digit_value c else v + digit_value c)%Z in
        if in_type v && in_type v' then digits_loop in_type neg v' true r else PErr
      else if pos then POk s value else PErr
  end.
Definition in_u32 (z : Z) : bool := (0 <=? z)%Z && (z <? 2 ^ 32)%Z.
Definition in_u64 (z : Z) : bool := (0 <=? z)%Z && (z <? 2 ^ 64)%Z.
Definition in_i64 (z : Z) : bool := (- 2 ^ 63 <=? z)%Z && (z <? 2 ^ 63)%Z.
Definition parse_u32 : parser Z := digits_loop in_u32 false 0 false.
Definition parse_u64 : parser Z := digits_loop in_u64 false 0 false.
(** nom `sign`: optional `-` or `+` *)
Definition parse_sign : parser bool :=
  pmap (fun o => match o with Some b => b | None => false end)
       (opt (por (pvalue true (pchar "-")) (pvalue false (pchar "+")))).
Definition parse_i64 : parser Z :=
  fun s => pbind (parse_sign s) (fun r neg => digits_loop in_i64 neg 0 false r).

(** values/literals.rs:105-115 *)
Inductive literal_value := LI64 (z : Z) | LU64 (z : Z) | LChar (c : chr).

(** values/literals.rs:154-166 *)
Definition is_int_suffix (c : chr) : bool :=
  N.eqb c (N_of_ascii "u") || N.eqb c (N_of_ascii "U") ||
  N.eqb c (N_of_ascii "l") || N.eqb c (N_of_ascii "L") ||
  N.eqb c (N_of_ascii "z") || N.eqb c (N_of_ascii "Z").
Definition integer : parser literal_value :=
  terminated (por (pmap LI64 parse_i64) (pmap LU64 parse_u64)) (many0 (satisfy is_int_suffix)).

(** nom `oct_digit1`, `hex_digit1`; `from_str_radix` overflows to an error *)
Definition is_oct (c : chr) : bool := in_range "0" "7" c.
Definition is_hex (c : chr) : bool := is_digit c || in_range "a" "f" c || in_range "A" "F" c.
Definition digit1 (f : chr -> bool) : parser str :=
  fun s => match span f s with ([], _) => PErr | (a, r) => POk r a end.
Definition hex_value (c : chr) : N :=
  if is_digit c then (c - 48)%N
  else if in_range "a" "f" c then (c - 87)%N else (c - 55)%N.
Definition from_radix (radix limit : N) (s : str) : option N :=
  fold_left (fun acc c =>
    match acc with
    | Some v => let v' := (v * radix + hex_value c)%N in if N.ltb v' limit then Some v' else None
    | None => None
    end) s (Some 0%N).
(** `char::from_u32` *)
Definition char_from_u32 (u : N) : option chr :=
  if N.ltb u 55296 || (N.leb 57344 u && N.ltb u 1114112) then Some u else None.

(** values/literals.rs:181-193 *)
Definition escape_sequence : parser chr :=
  por (pvalue 9%N (pchar "t"))
  (por (pvalue 13%N (pchar "r"))
  (por (pvalue 10%N (pchar "n"))
  (por (pchar "'")
  (por (satisfy (N.eqb 34))                          (* double quote *)
  (por (pchar "\")
  (por (map_opt (digit1 is_oct) (from_radix 8 256))
       (preceded (por (pchar "x") (por (pchar "u") (pchar "U")))
          (map_opt (map_opt (digit1 is_hex) (from_radix 16 (2 ^ 32))) char_from_u32)))))))).

(** values/literals.rs:169-199 *)
Definition character : parser chr :=
  delimited
    (pand (opt (por (pvalue 56%N (tag "u8"))
               (por (pchar "u") (por (pchar "U") (pchar "L"))))) (pchar "'"))
    (por (preceded (pchar "\") escape_sequence) anychar)
    (pchar "'").

(** values/literals.rs:99-102 *)
Definition parse_literal_value : parser literal_value := por integer (pmap LChar character).

(** values/literals.rs:36-42 and 18-26 *)
Record literal := mk_literal { lit_value : literal_value; lit_suffix : option str }.
Definition parse_literal : parser literal :=
  pmap (fun vs => mk_literal (fst vs) (snd vs)) (pand parse_literal_value (opt identifier)).

(** `{}` of an integer *)
Fixpoint uint_str (u : Decimal.uint) : str :=
  match u with
  | Decimal.Nil => []
  | Decimal.D0 u => 48%N :: uint_str u
  | Decimal.D1 u => 49%N :: uint_str u
  | Decimal.D2 u => 50%N :: uint_str u
  | Decimal.D3 u => 51%N :: uint_str u
  | Decimal.D4 u => 52%N :: uint_str u
  | Decimal.D5 u => 53%N :: uint_str u
  | Decimal.D6 u => 54%N :: uint_str u
  | Decimal.D7 u => 55%N :: uint_str u
  | Decimal.D8 u => 56%N :: uint_str u
  | Decimal.D9 u => 57%N :: uint_str u
  end.
Definition show_int (z : Z) : str :=
  (if (z <? 0)%Z then of_string "-" else []) ++ uint_str (N.to_uint (Z.abs_N z)).
Definition hex_char (n : N) : chr := if N.ltb n 10 then (48 + n)%N else (87 + n)%N.
(** lower-case hexadecimal without leading zeros *)
Fixpoint show_hex_loop (fuel : nat) (n : N) (acc : str) : str :=
  match fuel with
  | O => acc
  | S f => if N.ltb n 16 then hex_char n :: acc
           else show_hex_loop f (n / 16) (hex_char (n mod 16) :: acc)
  end.
Definition show_hex (n : N) : str := show_hex_loop 8 n [].

(** Rust's `{:?}` of a char (core::char::methods `escape_debug_ext`).  [verbatim] stands for
    the Unicode tables "printable and not a grapheme extender", which are not modelled. *)
Definition debug_char (verbatim : chr -> bool) (c : chr) : str :=
  let body :=
    if N.eqb c 0 then of_string "\0"
    else if N.eqb c 9 then of_string "\t"
    else if N.eqb c 13 then of_string "\r"
    else if N.eqb c 10 then of_string "\n"
    else if N.eqb c 92 then of_string "\\"
    else if N.eqb c 39 then of_string "\'"
    else if verbatim c then [c]
    else of_string "\u{" ++ show_hex c ++ of_string "}" in
  of_string "'" ++ body ++ of_string "'".

(** values/literals.rs:143-151 and 87-96 *)
Definition show_literal_value (verbatim : chr -> bool) (v : literal_value) : str :=
  match v with
  | LI64 i => show_int i
  | LU64 u => show_int u
  | LChar c => debug_char verbatim c
  end.
Definition show_literal (verbatim : chr -> bool) (l : literal) : str :=
  show_literal_value verbatim (lit_value l) ++
  match lit_suffix l with Some s => s | None => [] end.

(** ** Qualifiers (types/qualifiers.rs) *)

(** types/qualifiers.rs:40-47 *)
Record cv := mk_cv { is_const : bool; is_volatile : bool }.
(** types/qualifiers.rs:39 (derive Default), 51-60, 63-71 *)
Definition cv_default : cv := mk_cv false false.
Definition cv_const : cv := mk_cv true false.
Definition cv_volatile : cv := mk_cv false true.
Definition cv_or (a b : cv) : cv :=
  mk_cv (is_const a || is_const b) (is_volatile a || is_volatile b).
Definition cv_is_default (c : cv) : bool := negb (is_const c) && negb (is_volatile c).

(** types/qualifiers.rs:13-24 *)
Definition parse_cv : parser cv :=
  pmap (fun l => fold_left cv_or l cv_default)
    (many0 (terminated (keywords_parser [("const"%string, cv_const); ("volatile"%string, cv_volatile)])
                       multispace0)).

(** types/qualifiers.rs:73-86 *)
Definition show_cv (c : cv) : str :=
  (if is_const c then of_string "const" else []) ++
  (if is_const c && is_volatile c then of_string " " else []) ++
  (if is_volatile c then of_string "volatile" else []).

(** types/qualifiers.rs:91-100, 27-36, 108-117 *)
Inductive reference := RNone | RLValue | RRValue.
Definition parse_reference : parser reference :=
  map_opt (many0 (pchar "&"))
    (fun l => match List.length l with
              | 0 => Some RNone
              | 1 => Some RLValue
              | 2 => Some RRValue
              | _ => None
              end).
Definition show_reference (r : reference) : str :=
  match r with RNone => [] | RLValue => of_string "&" | RRValue => of_string "&&" end.
Definition ref_is_none (r : reference) : bool := match r with RNone => true | _ => false end.

(** ** Legacy type names (types/specifiers/legacy.rs) *)

(** legacy.rs:433-473 *)
Inductive signedness := Signed | Unsigned.
Inductive size := Short | Long | LongLong.
Inductive base := BInt | BChar | BInt128 | BFloat | BDouble.
(** legacy.rs:147-204 *)
Inductive legacy_name :=
| SignedShort | UnsignedShort | SignedInt | UnsignedInt | SignedLong | UnsignedLong
| SignedLongLong | UnsignedLongLong | SignedInt128 | UnsignedInt128
| Char | SignedChar | UnsignedChar | Float | Double | LongDouble
| FloatComplex | DoubleComplex | LongDoubleComplex.

(** legacy.rs:235-247 *)
Record builder := mk_builder {
  b_base : option base; b_sign : option signedness; b_size : option size; b_complex : bool }.
Definition b_default : builder := mk_builder None None None false.

(** legacy.rs:31-102 *)
Definition legacy_keywords : list (string * builder) :=
  [ ("float"%string, mk_builder (Some BFloat) None None false);
    ("double"%string, mk_builder (Some BDouble) None None false);
    ("long"%string, mk_builder None None (Some Long) false);
    ("unsigned"%string, mk_builder None (Some Unsigned) None false);
    ("char"%string, mk_builder (Some BChar) None None false);
    ("int"%string, mk_builder (Some BInt) None None false);
    ("__int128"%string, mk_builder (Some BInt128) None None false);
    ("signed"%string, mk_builder None (Some Signed) None false);
    ("short"%string, mk_builder None None (Some Short) false);
    ("_Complex"%string, mk_builder None None None true) ].

Definition option_or {A} (a b : option A) : option A := match a with Some _ => a | None => b end.

(** legacy.rs:109-136, the ParseError kinds being one [None] *)
Definition legacy_step (acc : option builder) (item : builder) : option builder :=
  match acc with
  | None => None
  | Some acc =>
      match b_base acc, b_base item with
      | Some _, Some _ => None
      | _, _ =>
          match b_sign acc, b_sign item with
          | Some _, Some _ => None
          | _, _ =>
              if b_complex acc && b_complex item then None
              else
                let mk sz := Some (mk_builder (option_or (b_base acc) (b_base item))
                                     (option_or (b_sign acc) (b_sign item)) sz
                                     (b_complex acc || b_complex item)) in
                match b_size acc, b_size item with
                | Some Long, Some Long => mk (Some LongLong)
                | Some _, Some _ => None
                | _, _ => mk (option_or (b_size acc) (b_size item))
                end
          end
      end
  end.

(** Result of legacy.rs:250-427: a name, a ParseError, or the unreachable!() of line 407 *)
Inductive built := BOk (n : legacy_name) | BErr | BUnreachable.
Definition legacy_build (b : builder) : built :=
  match b with
  | mk_builder (Some BFloat) None None complex =>
      BOk (if complex then FloatComplex else Float)
  | mk_builder (Some BFloat) _ _ _ => BErr
  | mk_builder (Some BDouble) None None complex =>
      BOk (if complex then DoubleComplex else Double)
  | mk_builder (Some BDouble) None (Some Long) complex =>
      BOk (if complex then LongDoubleComplex else LongDouble)
  | mk_builder (Some BDouble) _ _ _ => BErr
  | mk_builder _ _ _ true => BErr
  | mk_builder (Some BChar) None None false => BOk Char
  | mk_builder (Some BChar) (Some Signed) None false => BOk SignedChar
  | mk_builder (Some BChar) (Some Unsigned) None false => BOk UnsignedChar
  | mk_builder (Some BChar) _ (Some _) _ => BErr
  | mk_builder (Some BInt128) None None false => BOk SignedInt128
  | mk_builder (Some BInt128) (Some Signed) None false => BOk SignedInt128
  | mk_builder (Some BInt128) (Some Unsigned) None false => BOk UnsignedInt128
  | mk_builder (Some BInt128) _ (Some _) _ => BErr
  | mk_builder _ (Some Unsigned) None _ => BOk UnsignedInt
  | mk_builder _ (Some Unsigned) (Some Short) _ => BOk UnsignedShort
  | mk_builder _ (Some Unsigned) (Some Long) _ => BOk UnsignedLong
  | mk_builder _ (Some Unsigned) (Some LongLong) _ => BOk UnsignedLongLong
  | mk_builder None None None false => BUnreachable
  | mk_builder _ _ (Some Short) _ => BOk SignedShort
  | mk_builder _ _ None _ => BOk SignedInt
  | mk_builder _ _ (Some Long) _ => BOk SignedLong
  | mk_builder _ _ (Some LongLong) _ => BOk SignedLongLong
  end.

(** legacy.rs:105-141 and 17-19 *)
Definition parse_legacy_name : parser legacy_name :=
  fun s => pbind (many1 (terminated (keywords_parser legacy_keywords) multispace0) s)
    (fun r l => match fold_left legacy_step l (Some b_default) with
                | None => PErr
                | Some b => match legacy_build b with
                            | BOk n => POk r n
                            | BErr => PErr
                            | BUnreachable => PPanic PRImpossible
                            end
                end).

(** legacy.rs:206-231 *)
Definition show_legacy (n : legacy_name) : str :=
  of_string
    (match n with
     | SignedShort => "short"
     | UnsignedShort => "unsigned short"
     | SignedInt => "int"
     | UnsignedInt => "unsigned int"
     | SignedLong => "long"
     | UnsignedLong => "unsigned long"
     | SignedLongLong => "long long"
     | UnsignedLongLong => "unsigned long long"
     | SignedInt128 => "__int128"
     | UnsignedInt128 => "unsigned __int128"
     | Char => "char"
     | SignedChar => "signed char"
     | UnsignedChar => "unsigned char"
     | Float => "float"
     | Double => "double"
     | LongDouble => "long double"
     | FloatComplex => "float _Complex"
     | DoubleComplex => "double _Complex"
     | LongDoubleComplex => "long double _Complex"
     end).

(** ** Operator symbols (operators/mod.rs, operators/usage.rs) *)

(** operators/mod.rs:402-444 *)
Inductive sym :=
| AddPlus | SubNeg | MulDeref | Div | Mod | Xor | AndRef | Or | BitNot | Not | AssignEq
| Less | Greater | Comma.

Definition sym_eqb (a b : sym) : bool :=
  match a, b with
  | AddPlus, AddPlus | SubNeg, SubNeg | MulDeref, MulDeref | Div, Div | Mod, Mod | Xor, Xor
  | AndRef, AndRef | Or, Or | BitNot, BitNot | Not, Not | AssignEq, AssignEq | Less, Less
  | Greater, Greater | Comma, Comma => true
  | _, _ => false
  end.

(** operators/mod.rs:380-396 *)
Definition sym_of_chr (c : chr) : option sym :=
  match ascii_of_N c with
  | "+"%char => Some AddPlus
  | "-"%char => Some SubNeg
  | "*"%char => Some MulDeref
  | "/"%char => Some Div
  | "%"%char => Some Mod
  | "^"%char => Some Xor
  | "&"%char => Some AndRef
  | "|"%char => Some Or
  | "~"%char => Some BitNot
  | "!"%char => Some Not
  | "="%char => Some AssignEq
  | "<"%char => Some Less
  | ">"%char => Some Greater
  | ","%char => Some Comma
  | _ => None
  end.
(** operators/mod.rs:377-397; a character beyond ASCII matches no arm *)
Definition symbol : parser sym :=
  map_opt anychar (fun c => if N.ltb c 128 then sym_of_chr c else None).

(** operators/mod.rs:446-466 *)
Definition show_sym (s : sym) : str :=
  of_string (match s with
  | AddPlus => "+" | SubNeg => "-" | MulDeref => "*" | Div => "/" | Mod => "%" | Xor => "^"
  | AndRef => "&" | Or => "|" | BitNot => "~" | Not => "!" | AssignEq => "=" | Less => "<"
  | Greater => ">" | Comma => "," end).

(** operators/mod.rs:27-73; [T] is the type of types, for conversions *)
Inductive operator (T : Type) :=
| OBasic (s : sym) (twice equal : bool)
| ODeref (star : bool)
| OSpaceship
| OCallIndex (is_index : bool)
| OCustomLiteral (id : str)
| ONewDelete (is_delete array : bool)
| OCoAwait
| OConversion (t : T).
Arguments OBasic {T}. Arguments ODeref {T}. Arguments OSpaceship {T}. Arguments OCallIndex {T}.
Arguments OCustomLiteral {T}. Arguments ONewDelete {T}. Arguments OCoAwait {T}.
Arguments OConversion {T}.

(** operators/mod.rs:301-355, LEN = 1, 2, 3 *)
Definition arithmetic_or_comparison1 {T} : parser (operator T) :=
  pmap (fun s => OBasic s false false) symbol.
Definition arithmetic_or_comparison2 {T} : parser (operator T) :=
  map_opt (pand symbol symbol)
    (fun p => match p with
              | (s, AssignEq) => Some (OBasic s false true)
              | (s, s2) =>
                  if sym_eqb s2 s then Some (OBasic s true false)
                  else match s, s2 with
                       | SubNeg, Greater => Some (ODeref false)
                       | _, _ => None
                       end
              end).
Definition arithmetic_or_comparison3 {T} : parser (operator T) :=
  map_opt (pand symbol (pand symbol symbol))
    (fun p => match p with
              | (s, (s2, s3)) =>
                  if sym_eqb s3 AssignEq && sym_eqb s2 s then Some (OBasic s true true)
                  else match s, s2, s3 with
                       | SubNeg, Greater, MulDeref => Some (ODeref true)
                       | Less, AssignEq, Greater => Some OSpaceship
                       | _, _, _ => None
                       end
              end).

(** operators/mod.rs:358-374, operators/overloads.rs:114-131 *)
Definition delete_op {T} : parser (operator T) :=
  pmap (fun a => ONewDelete true (match a with Some _ => true | None => false end))
       (preceded (keyword_parser "delete") (opt (tag "[]"))).
Definition co_await_op {T} : parser (operator T) := pvalue OCoAwait (keyword_parser "co_await").
Definition new_op {T} : parser (operator T) :=
  pmap (fun a => ONewDelete false (match a with Some _ => true | None => false end))
       (preceded (keyword_parser "new") (opt (tag "[]"))).
Definition call_or_index {T} : parser (operator T) :=
  pmap OCallIndex (por (pvalue false (tag "()")) (pvalue true (tag "[]"))).

(** operators/usage.rs:18-31 *)
Definition parse_increment_decrement {T} : parser (operator T) :=
  por (pvalue (OBasic AddPlus true false) (tag "++"))
      (pvalue (OBasic SubNeg true false) (tag "--")).

(** A closure passed to `verify` that may be unreachable!() *)
Inductive decision := Accept | Reject | Unreachable (w : panic_reason).
Definition verify_panicking {A} (p : parser A) (f : A -> decision) : parser A :=
  fun s => pbind (p s) (fun r a => match f a with
                                   | Accept => POk r a
                                   | Reject => PErr
                                   | Unreachable w => PPanic w
                                   end).
Definition accept_if (b : bool) : decision := if b then Accept else Reject.

(** operators/usage.rs:83-99 *)
Definition binary1 {T} (allow_comma allow_greater : bool) : parser (operator T) :=
  verify_panicking arithmetic_or_comparison1
    (fun op => match op with
               | OBasic s false false =>
                   match s with
                   | BitNot | Not => Reject
                   | AddPlus | SubNeg | MulDeref | Div | Mod | Xor | AndRef | Or | AssignEq
                   | Less => Accept
                   | Comma => accept_if allow_comma
                   | Greater => accept_if allow_greater
                   end
               | _ => Unreachable PRImpossible
               end).
(** operators/usage.rs:103-119 *)
Definition binary2 {T} (allow_greater : bool) : parser (operator T) :=
  verify_panicking arithmetic_or_comparison2
    (fun op => match op with
               | OBasic s true false =>
                   match s with
                   | AddPlus | SubNeg => Reject
                   | AndRef | Or | AssignEq | Less => Accept
                   | Greater => accept_if allow_greater
                   | Xor | Mod | Div | MulDeref | BitNot | Not | Comma => Unreachable PROperator
                   end
               | _ => Accept
               end).
(** operators/usage.rs:76-126 *)
Definition parse_binary_expr_middle {T} (allow_comma allow_greater : bool) : parser (operator T) :=
  por arithmetic_or_comparison3 (por (binary2 allow_greater) (binary1 allow_comma allow_greater)).

(** operators/mod.rs:278-291 *)
Inductive op_context := Declaration | PrefixUsage | BinaryUsage | PostfixUsage.

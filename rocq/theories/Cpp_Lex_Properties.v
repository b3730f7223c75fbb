(** C23-C28: literals, words, qualifiers, legacy type names and operators. *)
From Coq Require Import Ascii String Permutation.
From Verif Require Import Base Cpp_Lex_Model Cpp_Ast_Model Cpp_Parse_Model Cpp_Lex_Spec
  Cpp_Lex_Proofs Cpp_Lex_Proofs2 Cpp_Lex_Proofs3 Cpp_Lex_Proofs4 Cpp_Lex_Proofs5 Cpp_Lex_Proofs6 Cpp_Lex_Proofs7.
Local Open Scope nat_scope.
Local Open Scope bool_scope.
Local Open Scope list_scope.

(** C23: a number, with any sign, digits, standard suffix letters and user-defined suffix, is
    read as its value when it is in range (as i64 if it fits, else as u64 if it has no sign),
    and rejected otherwise. *)
Theorem C23_value_of_numbers : forall sn ds sfx o rest,
  are_digits ds -> Forall int_suffix sfx -> number_suffix_ok o -> word_ends rest ->
  let v := (match sn with Minus => - digits_value ds | _ => digits_value ds end)%Z in
  ((- 2 ^ 63 <= v < 2 ^ 63)%Z ->
   parse_literal (sign_text sn ++ digits_text ds ++ sfx ++ suffix_text o ++ rest) =
     POk rest (mk_literal (LI64 v) o)) /\
  ((2 ^ 63 <= v < 2 ^ 64)%Z -> sn = NoSign ->
   parse_literal (sign_text sn ++ digits_text ds ++ sfx ++ suffix_text o ++ rest) =
     POk rest (mk_literal (LU64 v) o)) /\
  ((v < - 2 ^ 63 \/ 2 ^ 64 <= v \/ (2 ^ 63 <= v /\ sn <> NoSign))%Z ->
   parse_literal (sign_text sn ++ digits_text ds ++ sfx ++ suffix_text o ++ rest) = PErr).
Proof. exact literal_number. Qed.
Print Assumptions C23_value_of_numbers.

(** C23: and nothing else is read as an integer. *)
Theorem C23_only_numbers : forall s r l,
  parse_literal s = POk r l -> (forall c, lit_value l <> LChar c) ->
  exists sn ds sfx,
    s = sign_text sn ++ digits_text ds ++ sfx ++ suffix_text (lit_suffix l) ++ r /\
    are_digits ds /\ Forall int_suffix sfx /\ number_suffix_ok (lit_suffix l) /\
    let v := (match sn with Minus => - digits_value ds | _ => digits_value ds end)%Z in
    (lit_value l = LI64 v /\ (- 2 ^ 63 <= v < 2 ^ 63)%Z \/
     lit_value l = LU64 v /\ (2 ^ 63 <= v < 2 ^ 64)%Z /\ sn = NoSign).
Proof. exact number_accepted. Qed.
Print Assumptions C23_only_numbers.

(** C23: display of an integer literal and parse again. *)
Theorem C23_display_then_parse : forall verbatim s r l rest,
  parse_literal s = POk r l -> (forall c, lit_value l <> LChar c) -> word_ends rest ->
  parse_literal (show_literal verbatim l ++ rest) = POk rest l.
Proof.
  intros verbatim s r l rest H Hc Hr.
  exact (integer_round_trip verbatim l rest (literal_canonical s r l H) Hc Hr).
Qed.
Print Assumptions C23_display_then_parse.
Example C23_witness :
  parse_literal (of_string "-9223372036854775808uLL_foo)") =
    POk (of_string ")") (mk_literal (LI64 (- 2 ^ 63)) (Some (of_string "_foo"))) /\
  parse_literal (of_string "18446744073709551615ul>") =
    POk (of_string ">") (mk_literal (LU64 (2 ^ 64 - 1)) None) /\
  parse_literal (of_string "18446744073709551616") = PErr /\
  parse_literal (of_string "+9223372036854775808") = PErr /\
  show_literal (fun _ => true) (mk_literal (LU64 (2 ^ 64 - 1)) None) = of_string "18446744073709551615".
Proof. repeat split; vm_compute; reflexivity. Qed.

(** C24: what is read as a character literal: an optional encoding prefix, quotes, and between
    them a character or an escape, read as the character it denotes. *)
Theorem C24_value_of_characters : forall s r c o,
  (o = None -> forall x t, r = x :: t -> ~ can_start_word x) ->
  (o <> None -> word_ends r) -> suffix_ok o ->
  parse_literal s = POk r (mk_literal (LChar c) o) <->
  exists p body, In p char_prefixes /\ denotes body c /\
    s = of_string p ++ of_string "'" ++ body ++ of_string "'" ++ suffix_text o ++ r.
Proof. exact char_literal_iff. Qed.
Print Assumptions C24_value_of_characters.

(** C24: the display of a character that Rust shows verbatim, or with an escape that C++ has
    too, parses back to the same literal; that of any other character does not parse. *)
Theorem C24_display_then_parse : forall verbatim c o rest,
  suffix_ok o -> word_ends rest ->
  (escaped_alike c \/ verbatim c = true ->
   parse_literal (show_literal verbatim (mk_literal (LChar c) o) ++ rest) =
     POk rest (mk_literal (LChar c) o)) /\
  (~ escaped_alike c -> verbatim c = false ->
   parse_literal (show_literal verbatim (mk_literal (LChar c) o) ++ rest) = PErr).
Proof. exact char_round_trip. Qed.
Print Assumptions C24_display_then_parse.

(** C24: how a character literal is displayed: with Rust's short escape if there is one, else
    as it is if Rust finds it printable, else by its number in hexadecimal. *)
Theorem C24_display_of_characters : forall verbatim c o, scalar c ->
  exists body, show_literal verbatim (mk_literal (LChar c) o) =
      of_string "'" ++ body ++ of_string "'" ++ suffix_text o /\
    ((exists e, In (c, e) rust_escapes /\ body = of_string e) \/
     (forall e, ~ In (c, e) rust_escapes) /\
       (verbatim c = true /\ body = [c] \/
        verbatim c = false /\ exists h, hexadecimal c h /\ body = of_string "\u{" ++ h ++ of_string "}")).
Proof. exact shown_characters. Qed.
Print Assumptions C24_display_of_characters.

(** C24 as stated is false: the bell character, which is not printable, is accepted but its
    display is not. *)
Theorem C24_refuted : forall verbatim : chr -> bool, verbatim 7%N = false ->
  exists l, parse_literal (of_string "'\x7'") = POk [] l /\
    show_literal verbatim l = of_string "'\u{7}'" /\
    parse_literal (show_literal verbatim l) = PErr.
Proof.
  intros verbatim H. exists (mk_literal (LChar 7%N) None). split; [vm_compute; reflexivity|].
  assert (E : show_literal verbatim (mk_literal (LChar 7%N) None) = of_string "'\u{7}'").
  { unfold show_literal, lit_value, lit_suffix, show_literal_value, debug_char.
    cbn [N.eqb Pos.eqb]. rewrite H. reflexivity. }
  split; [exact E|]. rewrite E. vm_compute. reflexivity.
Qed.
Print Assumptions C24_refuted.
Example C24_witness :
  parse_literal (of_string "u8'\u2026'_s,") =
    POk (of_string ",") (mk_literal (LChar ellipsis) (Some (of_string "_s"))) /\
  parse_literal (of_string "L'\377'") = POk [] (mk_literal (LChar 255%N) None) /\
  parse_literal (of_string "'\400'") = PErr /\
  show_literal (fun _ => false) (mk_literal (LChar ellipsis) None) = of_string "'\u{2026}'" /\
  denotes (of_string "\u2026") ellipsis.
Proof.
  repeat split; try (vm_compute; reflexivity).
  apply (denotes_hex "u" (of_string "2026") [2; 0; 2; 6]%N);
    [cbn; auto|discriminate| |unfold scalar; vm_compute; auto].
  repeat constructor.
Qed.

(** C25: a list of cv qualifiers, in any order, number and spacing, is read up to the first
    thing that is not one, and means the set of the qualifiers in it. *)
Theorem C25_cv_is_a_set : forall ws s r,
  words_then ["const"; "volatile"]%string ws s r ->
  exists c, parse_cv s = POk r c /\
    (is_const c = true <-> In "const"%string ws) /\
    (is_volatile c = true <-> In "volatile"%string ws).
Proof. exact cv_meaning. Qed.
Print Assumptions C25_cv_is_a_set.

(** C25: every text is such a list (perhaps empty) and a rest. *)
Theorem C25_every_text : forall s, exists ws r, words_then ["const"; "volatile"]%string ws s r.
Proof. exact cv_words_total. Qed.
Print Assumptions C25_every_text.

(** C25: display and parse again. *)
Theorem C25_display_then_parse : forall c r,
  word_ends r -> not_white r -> parse_cv (show_cv c ++ r) = POk r c.
Proof. exact cv_round_trip. Qed.
Print Assumptions C25_display_then_parse.

(** C25: none, one and two ampersands are references, three or more are an error. *)
Theorem C25_references : forall k r,
  (forall r', r <> 38%N :: r') ->
  parse_reference (repeat 38%N k ++ r) =
  match k with 0 => POk r RNone | 1 => POk r RLValue | 2 => POk r RRValue | _ => PErr end /\
  forall q, parse_reference (show_reference q ++ r) = POk r q.
Proof.
  intros k r H. split; [exact (reference_meaning k r H)|].
  intros q. destruct q; [exact (reference_meaning 0 r H)|exact (reference_meaning 1 r H)|exact (reference_meaning 2 r H)].
Qed.
Print Assumptions C25_references.
Example C25_witness :
  parse_cv (of_string "volatile const  volatile constant") = POk (of_string "constant") (mk_cv true true) /\
  parse_reference (of_string "&&)") = POk (of_string ")") RRValue /\
  parse_reference (of_string "&&&)") = PErr.
Proof. repeat split; vm_compute; reflexivity. Qed.

(** C26: a list of type keywords, in any order and spacing, is accepted exactly if it is a
    permutation of a row of the table of legal combinations, and then means that row's type. *)
Theorem C26_legal_combinations : forall ws s r,
  words_then legacy_words ws s r ->
  (exists row n, In (row, n) legacy_table /\ Permutation row ws /\ parse_legacy_name s = POk r n) \/
  ((forall row n, In (row, n) legacy_table -> ~ Permutation row ws) /\ parse_legacy_name s = PErr).
Proof. exact legacy_meaning. Qed.
Print Assumptions C26_legal_combinations.

Theorem C26_every_text : forall s, exists ws r, words_then legacy_words ws s r.
Proof. exact legacy_words_total. Qed.
Print Assumptions C26_every_text.

(** C26: so the order of the keywords does not matter. *)
Theorem C26_order_independent : forall ws ws' s s' r r',
  words_then legacy_words ws s r -> words_then legacy_words ws' s' r' -> Permutation ws ws' ->
  (exists n, parse_legacy_name s = POk r n /\ parse_legacy_name s' = POk r' n) \/
  (parse_legacy_name s = PErr /\ parse_legacy_name s' = PErr).
Proof. exact legacy_order. Qed.
Print Assumptions C26_order_independent.

(** C26: display and parse again. *)
Theorem C26_display_then_parse : forall n r,
  word_ends r -> not_white r -> parse_legacy_name (show_legacy n ++ r) = POk r n.
Proof. exact legacy_round_trip. Qed.
Print Assumptions C26_display_then_parse.
Example C26_witness :
  parse_legacy_name (of_string "long unsigned int long*") = POk (of_string "*") UnsignedLongLong /\
  parse_legacy_name (of_string "long char") = PErr /\
  parse_legacy_name (of_string "long integer") = POk (of_string "integer") SignedLong.
Proof. repeat split; vm_compute; reflexivity. Qed.

(** C27: a keyword is matched exactly where it stands as a whole word. *)
Theorem C27_keywords_are_whole_words : forall w s,
  (forall r, keyword_parser w s = POk r tt <-> s = of_string w ++ r /\ word_ends r) /\
  ((exists r, keyword_parser w s = POk r tt) \/ keyword_parser w s = PErr).
Proof. intros w s. split; [intros r; apply keyword_iff|apply keyword_total]. Qed.
Print Assumptions C27_keywords_are_whole_words.

(** C27: an identifier is read whole. *)
Theorem C27_identifiers_are_maximal : forall s,
  (forall r i, identifier s = POk r i <-> s = i ++ r /\ word i /\ word_ends r) /\
  (identifier s = PErr <-> forall c r, s = c :: r -> ~ can_start_word c).
Proof. intros s. split; [intros r i; apply identifier_iff|apply identifier_none]. Qed.
Print Assumptions C27_identifiers_are_maximal.

(** C27 is false of `new` where a value is expected: it matches inside an identifier. *)
Theorem C27_refuted :
  exists e, parse_entity (of_string "decltype(newfoo)") = EOk e /\
    forall verbatim, entity_full verbatim e = of_string "decltype(new foo)".
Proof. eexists. split; [vm_compute; reflexivity|]. intros verbatim. vm_compute. reflexivity. Qed.
Print Assumptions C27_refuted.
Example C27_witness :
  keyword_parser "const" (of_string "const*") = POk (of_string "*") tt /\
  keyword_parser "const" (of_string "constant") = PErr /\
  identifier (of_string "_x$9-") = POk (of_string "-") (of_string "_x$9") /\
  identifier (of_string "9x") = PErr.
Proof. repeat split; vm_compute; reflexivity. Qed.

(** C28: the parsers of operators of one, two and three characters read exactly the text of
    the operator they return. *)
Theorem C28_operators_read_their_text : forall s r (op : operator type_like),
  (arithmetic_or_comparison1 s = POk r op <-> exists t, written op t /\ List.length t = 1 /\ s = t ++ r) /\
  (arithmetic_or_comparison2 s = POk r op <-> exists t, written op t /\ List.length t = 2 /\ s = t ++ r) /\
  (arithmetic_or_comparison3 s = POk r op <-> exists t, written op t /\ List.length t = 3 /\ s = t ++ r).
Proof. intros s r op. split; [apply arith1_iff|split; [apply arith2_iff|apply arith3_iff]]. Qed.
Print Assumptions C28_operators_read_their_text.

(** C28: no two operators have the same text. *)
Theorem C28_texts_determine_operators : forall (op op' : operator type_like) t,
  written op t -> written op' t -> op = op'.
Proof. exact written_inj. Qed.
Print Assumptions C28_texts_determine_operators.

(** C28: between two values, the longest operator that may stand there is read; there is an
    error if there is none, and a panic before some doubled operators. *)
Theorem C28_longest_binary_operator : forall allow_comma allow_greater s,
  (exists r (op : operator type_like) t,
     parse_binary_expr_middle allow_comma allow_greater s = POk r op /\ s = t ++ r /\ written op t /\
     binary_operator allow_comma allow_greater op /\
     forall (op' : operator type_like) t' r', written op' t' ->
       binary_operator allow_comma allow_greater op' -> s = t' ++ r' ->
       List.length t' <= List.length t) \/
  (parse_binary_expr_middle (T := type_like) allow_comma allow_greater s = PErr /\
     forall (op : operator type_like) t r, written op t ->
       binary_operator allow_comma allow_greater op -> s <> t ++ r) \/
  (parse_binary_expr_middle (T := type_like) allow_comma allow_greater s = PPanic PROperator /\
     exists x r, In x (of_string "^%/*~!,") /\ s = x :: x :: r /\ forall r', r <> 61%N :: r').
Proof. exact binary_result. Qed.
Print Assumptions C28_longest_binary_operator.

(** C28: a binary operator is displayed as its text, with spaces around unless it is `->` or
    `->*`, and that text parses back to it before anything but another symbol. *)
Theorem C28_binary_display_then_parse :
  forall ty d allow_comma allow_greater (op : operator type_like) t rest,
  written op t -> binary_operator allow_comma allow_greater op -> no_symbol rest ->
  text (fst (op_render ty op BinaryUsage d)) =
    (match op with ODeref _ => t | _ => of_string " " ++ t ++ of_string " " end) /\
  parse_binary_expr_middle allow_comma allow_greater (t ++ rest) = POk rest op.
Proof.
  intros ty d c g op t rest Hw Hb Hr. split; [|exact (binary_round_trip c g op t rest Hw Hb Hr)].
  rewrite (op_shown ty op t BinaryUsage d Hw) by discriminate. now destruct op.
Qed.
Print Assumptions C28_binary_display_then_parse.

(** C28: an operator overload is displayed as `operator` and its text, which parses back to it
    (whatever the parsers of types and values are) before anything but a symbol, white space or
    template parameters, unless its second character is `<`. *)
Theorem C28_overload_display_then_parse : forall E ty d (op : operator type_like) t c rest,
  written op t -> (forall x r, t <> x :: 60%N :: r) -> c <> 60%N -> ~ white c -> no_symbol (c :: rest) ->
  text (fst (op_render ty op Declaration d)) = of_string "operator" ++ t /\
  parse_operator_overload E (of_string "operator" ++ t ++ c :: rest) = POk (c :: rest) (op, None).
Proof.
  intros E ty d op t c rest Hw H1 H2 H3 H4. split; [exact (op_declared ty op t d Hw)|].
  exact (overload_round_trip E op t c rest Hw H1 H2 H3 H4).
Qed.
Print Assumptions C28_overload_display_then_parse.

(** The exception is a real ambiguity of the text: this is also the overload of `<` with a
    parenthesised template parameter. *)
Example C28_left_shift_is_ambiguous : exists e,
  parse_entity (of_string "operator<<(a)>(b)") = EOk e /\
  (forall verbatim, entity_full verbatim e = of_string "operator<<(a)>(b)") /\
  exists spec tp decl, e = Some (TypeLike [] spec decl) /\
    spec = TypeSpec (mk_cv false false)
             (STId (IdExpr (Nested false []) (UOperator (OBasic Less false false) (Some tp)))).
Proof.
  eexists. split; [vm_compute; reflexivity|]. split; [intros verbatim; vm_compute; reflexivity|].
  repeat eexists.
Qed.
Example C28_witness :
  parse_binary_expr_middle (T := type_like) false false (of_string "<<=a") = POk (of_string "a") (OBasic Less true true) /\
  parse_binary_expr_middle (T := type_like) false false (of_string "<=>a") = POk (of_string "a") OSpaceship /\
  parse_binary_expr_middle (T := type_like) false false (of_string ">>a") = PErr /\
  parse_binary_expr_middle (T := type_like) false true (of_string ">>a") = POk (of_string "a") (OBasic Greater true false) /\
  written (OBasic (T := type_like) Less true true) (of_string "<<=").
Proof. repeat split; try (vm_compute; reflexivity). discriminate. Qed.

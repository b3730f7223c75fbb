(** Model of the C++ entity grammar (cpparser/src/subparsers and lib.rs): every `parse_*_imut`
    function, with the alternatives in the order of the code.

    The functions call each other in cycles.  All cycles go through types, values and
    declarators, so each function takes these three as a parameter [env] and the knot is tied
    in [env_n] by a recursion budget; [Cpp_Parse_Proofs.v] shows that a budget larger than the
    input is never exhausted, so that the budget is not a bound on what is proved. *)
From Coq Require Import Ascii String.
From Verif Require Asylum_Model.
From Verif Require Import Base Cpp_Lex_Model Cpp_Ast_Model.
Local Open Scope nat_scope.
Local Open Scope bool_scope.
Local Open Scope list_scope.

Record env := mk_env {
  r_type : parser type_like;
  r_value : bool -> bool -> parser value_like;       (* allow_comma, allow_greater *)
  r_decl : parser (list decl_operator) }.

(** `s.as_bytes().first()` against an ASCII character *)
Definition starts (c : ascii) (s : str) : bool :=
  match s with x :: _ => N.eqb (N_of_ascii c) x | [] => false end.

Definition comma_sep : parser unit :=
  pvalue tt (pand (pand multispace0 (pchar ",")) multispace0).
Definition ws_then (c : ascii) : parser unit := pvalue tt (pand multispace0 (pchar c)).
Definition then_ws (c : ascii) : parser unit := pvalue tt (pand (pchar c) multispace0).
Definition is_some {A} (o : option A) : bool := match o with Some _ => true | None => false end.

(** asylum/src/path.rs:253-271 without the keys; see Asylum_Model.pi_loop *)
Definition path_push (acc : list str) (c : Asylum_Model.component) : list str :=
  match c with
  | Asylum_Model.Normal _ | Asylum_Model.RootDir => acc ++ [Asylum_Model.component_str c]
  | Asylum_Model.ParentDir => if Nat.ltb 1 (List.length acc) then removelast acc else acc
  | Asylum_Model.CurDir => acc
  end.
(** lib.rs:166-171 with asylum/src/path.rs:238-275; PathKey has 8 length bits (lib.rs:66) *)
Definition intern_path (p : str) (r : str) : pres (list str) :=
  if Asylum_Model.path_is_relative p then PPanic PRRelativePath
  else
    let comps := fold_left path_push (Asylum_Model.path_components p) [] in
    if N.ltb (N.of_nat (List.length comps)) (2 ^ 8) then POk r comps else PPanic PRSequence.

(** nom `take_till1(|c| c == ':')` *)
Definition path_text : parser str :=
  fun s =>
    let after := match opt (pand anychar (pchar ":")) s with POk r _ => r | _ => s end in
    match span (fun c => negb (N.eqb c (N_of_ascii ":"))) after with
    | ([], _) => PErr
    | (_, r) => POk r (firstn (List.length s - List.length r) s)
    end.
(** anonymous.rs:144-165 *)
Definition parse_source_location : parser source_location :=
  pmap (fun x => mk_loc (fst x) (fst (snd x)) (snd (snd x)))
    (separated_pair (fun s => pbind (path_text s) (fun r p => intern_path p r))
                    (pchar ":")
                    (separated_pair parse_u32 (pchar ":") parse_u32)).

(** anonymous.rs:53-62 *)
Definition parse_clang_lambda : parser anonymous :=
  pmap AClangLambda (delimited (tag "(lambda at ") parse_source_location (pchar ")")).
(** anonymous.rs:93-116 *)
Definition parse_clang_anonymous : parser anonymous :=
  pmap (fun x => AClangOther (fst x) (snd x))
    (delimited
       (pand (pchar "(") (por (tag "anonymous") (tag "unnamed")))
       (pand (opt (preceded (pchar " ") identifier))
             (opt (preceded (tag " at ") parse_source_location)))
       (pchar ")")).
(** anonymous.rs:124-136 *)
Definition parse_libiberty_unnamed : parser anonymous :=
  pmap ALibUnnamed (delimited (tag "{unnamed type#") parse_u32 (pchar "}")).

Section Grammar.
  Variable E : env.

  (** functions.rs:65-92; FunctionArgumentsKey has 6 length bits (functions.rs:40) *)
  Definition parse_function_call : parser (list value_like) :=
    preceded (then_ws "(")
      (por (intern_seq 6 (separated_terminated (r_value E false true) comma_sep (ws_then ")")))
           (pvalue [] (pchar ")"))).

  (** templates.rs:116-131 *)
  Definition parse_template_parameter : parser template_parameter :=
    let lookahead := pand multispace0 (peek (por (pchar ",") (pchar ">"))) in
    por (terminated (pmap TPType (r_type E)) lookahead)
        (terminated (pmap TPValue (r_value E false false)) lookahead).

  (** templates.rs:44-77; 10 length bits (templates.rs:32) *)
  Definition parse_template_parameters : parser template_parameters :=
    preceded (then_ws "<")
      (por (pmap TPList
             (por (intern_seq 10 (separated_terminated parse_template_parameter comma_sep
                                                       (ws_then ">")))
                  (pvalue [] (pchar ">"))))
           (pvalue TPInvalid (tag ", void>"))).

  (** functions.rs:169-216; 8 length bits (functions.rs:53).  An item is a parameter type or
      the ellipsis (functions.rs:429-432). *)
  Definition parameter_step (acc : list type_like * bool * bool) (item : option type_like)
    : list type_like * bool * bool :=
    let '(entry, variadic, bad) := acc in
    if variadic || bad then (entry, variadic, true)
    else match item with
         | Some p => (entry ++ [p], variadic, false)
         | None => (entry, true, false)
         end.
  Definition parse_function_parameter_set : parser (list type_like * bool) :=
    preceded (then_ws "(")
      (por (fun s =>
              pbind (map_opt (separated_terminated
                                (por (pmap Some (r_type E)) (pvalue None (tag "...")))
                                comma_sep (ws_then ")"))
                             (fun items =>
                                match fold_left parameter_step items ([], false, false) with
                                | (entry, variadic, bad) =>
                                    if bad then None else Some (entry, variadic)
                                end) s)
                    (fun r pv => if N.ltb (N.of_nat (List.length (fst pv))) (2 ^ 8)
                                 then POk r pv else PPanic PRSequence))
           (pvalue ([], false) (pchar ")"))).

  (** functions.rs:240-255 *)
  Definition parse_noexcept : parser (option value_like) :=
    preceded (keyword_parser "noexcept")
      (opt (delimited (then_ws "(") (r_value E false true) (ws_then ")"))).

  (** functions.rs:124-161 *)
  Definition parse_function_signature : parser fn_signature :=
    let abi := delimited (tag "[abi:") identifier (pchar "]") in
    let trailing_return := preceded (pand (tag "->") multispace0) (r_type E) in
    pmap (fun x => match x with
                   | (a, ((params, variadic), (c, (r, (n, t))))) => FnSig a params variadic c r n t
                   end)
      (pand (opt abi)
      (pand (terminated parse_function_parameter_set multispace0)
      (pand (terminated parse_cv multispace0)
      (pand (terminated parse_reference multispace0)
      (pand (opt (terminated parse_noexcept multispace0))
            (opt trailing_return)))))).

  (** anonymous.rs:70-85 *)
  Definition parse_libiberty_lambda : parser anonymous :=
    pmap (fun x => ALibLambda (fst x) (snd x))
      (pand (preceded (tag "{lambda") parse_function_signature)
            (delimited (pchar "#") parse_u32 (pchar "}"))).
  (** anonymous.rs:37-50 *)
  Definition parse_anonymous : parser anonymous :=
    fun s => if starts "(" s then por parse_clang_lambda parse_clang_anonymous s
             else por parse_libiberty_lambda parse_libiberty_unnamed s.

  (** operators/overloads.rs:69-99 *)
  Definition arith_and_templates (arith : parser (operator type_like))
    : parser (operator type_like * option template_parameters) :=
    map_opt (pand arith (pand (preceded multispace0 (opt parse_template_parameters))
                              (peek (opt symbol))))
      (fun x => match x with
                | (op, (tp, None)) => Some (op, tp)
                | (_, (_, Some _)) => None
                end).
  (** operators/overloads.rs:102-110 *)
  Definition parse_custom_literal : parser (operator type_like) :=
    pmap OCustomLiteral
      (preceded (pand (pand (satisfy (N.eqb 34)) (satisfy (N.eqb 34))) multispace0) identifier).
  (** operators/overloads.rs:22-59 *)
  Definition parse_operator_overload : parser (operator type_like * option template_parameters) :=
    preceded (keyword_parser "operator")
      (por (por (arith_and_templates arithmetic_or_comparison1)
           (por (arith_and_templates arithmetic_or_comparison2)
                (arith_and_templates arithmetic_or_comparison3)))
           (pand (por (por call_or_index (preceded multispace0 parse_custom_literal))
                      (preceded multispace1
                         (por new_op (por delete_op (por co_await_op
                            (pmap OConversion (r_type E)))))))
                 (preceded multispace0 (opt parse_template_parameters)))).

  (** names/unqualified.rs:41-54 *)
  Definition parse_named (is_destructor : bool) : parser unqualified_id :=
    pmap (fun x => UNamed is_destructor (fst x) (snd x))
      (pand identifier
         (opt (preceded (opt (pand multispace0 parse_cv)) parse_template_parameters))).
  (** names/unqualified.rs:66-71 *)
  Definition parse_decltype : parser unqualified_id :=
    pmap UDecltype (delimited (pand (tag "decltype(") multispace0) (r_value E false true)
                              (ws_then ")")).
  (** names/unqualified.rs:27-91 *)
  Definition parse_unqualified_id : parser unqualified_id :=
    fun s =>
      if starts "{" s || starts "(" s then pmap UAnonymous parse_anonymous s
      else if starts "d" s then por parse_decltype (parse_named false) s
      else if starts "o" s
           then por (pmap (fun x => UOperator (fst x) (snd x)) parse_operator_overload)
                    (parse_named false) s
      else if starts "~" s then parse_named true (tl s)
      else parse_named false s.

  (** names/scopes.rs:168-218; inl is a scope, inr a lone id *)
  Definition ignored_qualifiers : parser unit :=
    pvalue tt (pand (many0 (pand multispace0
        (por (pvalue tt (verify parse_cv (fun c => negb (cv_is_default c))))
             (pvalue tt (verify parse_reference (fun r => negb (ref_is_none r)))))))
      (tag "::")).
  Definition parse_scope_or_unqualified_id : parser (scope + unqualified_id) :=
    fun s => pbind (parse_unqualified_id s) (fun after_id id =>
      match terminated (opt parse_function_signature) ignored_qualifiers after_id with
      | POk after_scope f => POk after_scope (inl (Scope id f))
      | PErr => POk after_id (inr id)
      | PPanic w => PPanic w
      | PFuel => PFuel
      end).

  (** names/scopes.rs:123-141; 8 length bits for scope sequences (names/scopes.rs:34) *)
  Definition make_output (rooted : bool) (scopes : list scope) (rest : str)
    (id : option (str * unqualified_id)) : pres (nested_name * option (str * unqualified_id)) :=
    if N.ltb (N.of_nat (List.length scopes)) (2 ^ 8)
    then POk rest (Nested rooted scopes, id) else PPanic PRSequence.
  Fixpoint proto_loop (n : nat) (rooted : bool) (scopes : list scope) (input : str)
    : pres (nested_name * option (str * unqualified_id)) :=
    match n with
    | O => PFuel
    | S n' =>
        match parse_scope_or_unqualified_id input with
        | POk rest (inl sc) => proto_loop n' rooted (scopes ++ [sc]) rest
        | POk rest (inr id) => make_output rooted scopes rest (Some (input, id))
        | PErr => make_output rooted scopes input None
        | PPanic w => PPanic w
        | PFuel => PFuel
        end
    end.
  (** names/scopes.rs:99-142 *)
  Definition parse_proto_id_expression : parser (nested_name * option (str * unqualified_id)) :=
    fun s => match strip_tag (of_string "::") s with
             | Some rest => proto_loop (S (List.length rest)) true [] rest
             | None => proto_loop (S (List.length s)) false [] s
             end.
  (** names/scopes.rs:46-55 *)
  Definition parse_id_expression : parser id_expression :=
    map_opt parse_proto_id_expression
      (fun x => match x with
                | (path, Some (_, id)) => Some (IdExpr path id)
                | (_, None) => None
                end).
  (** names/scopes.rs:76-85 *)
  Definition parse_nested_name_specifier : parser nested_name :=
    fun s => pbind (parse_proto_id_expression s)
      (fun rest x => match x with
                     | (path, Some (backtrack, _)) => POk backtrack path
                     | (path, None) => POk rest path
                     end).

  (** types/specifiers/mod.rs:49-80 *)
  Definition parse_simple_type : parser simple_type :=
    let id_header :=
      opt (pand (keywords_parser [("typename"%string, tt); ("class"%string, tt);
                                  ("struct"%string, tt); ("enum"%string, tt);
                                  ("union"%string, tt)]) multispace1) in
    por (pmap STLegacy parse_legacy_name)
    (por (pmap STAuto (preceded (tag "auto:") parse_u32))
         (preceded id_header (pmap STId parse_id_expression))).
  (** types/specifiers/mod.rs:31-40 *)
  Definition parse_type_specifier : parser type_specifier :=
    pmap (fun x => TypeSpec (fst x) (snd x))
      (pand (terminated parse_cv multispace0) parse_simple_type).

  (** types/declarators.rs:103-111 *)
  Definition cv_restrict : parser (cv * bool) :=
    pmap (fun x => match x with (cv1, (restrict, cv2)) => (cv_or cv1 cv2, restrict) end)
      (pand (terminated parse_cv multispace0)
      (pand (pmap is_some (opt (terminated
               (keywords_parser [("__restrict"%string, tt); ("__restrict__"%string, tt);
                                 ("restrict"%string, tt)]) multispace0)))
            parse_cv)).
  (** types/declarators.rs:86-172 *)
  Definition parse_decl_operator : parser decl_operator :=
    let cvq := pmap DCv (verify parse_cv (fun c => negb (cv_is_default c))) in
    let reference := pmap DRef parse_reference in
    let basic_pointer :=
      pmap (fun x => DPointer (Nested false []) (fst x) (snd x))
           (preceded (then_ws "*") cv_restrict) in
    let member_pointer :=
      pmap (fun x => DPointer (fst x) (fst (snd x)) (snd (snd x)))
           (separated_pair (terminated parse_nested_name_specifier (pchar "*")) multispace0
                           cv_restrict) in
    let array := pmap DArray (delimited (then_ws "[") (opt (r_value E false true)) (ws_then "]")) in
    let function := pmap DFunction parse_function_signature in
    let parenthesized :=
      pmap DParen (delimited (then_ws "(")
                     (verify (r_decl E) (fun d => match d with [] => false | _ => true end))
                     (ws_then ")")) in
    let vector_size :=
      pmap DVector (delimited (tag "__vector(") (r_value E false true) (pchar ")")) in
    fun s =>
      if starts "&" s then reference s
      else if starts "*" s then basic_pointer s
      else if starts "(" s then por function (por parenthesized member_pointer) s
      else if starts "[" s then por function array s
      else if starts "_" s then por vector_size member_pointer s
      else if starts "c" s then por cvq member_pointer s
      else if starts "v" s then por cvq member_pointer s
      else member_pointer s.
  (** types/declarators.rs:46-61; 8 length bits (declarators.rs:34) *)
  Definition parse_declarator : parser (list decl_operator) :=
    intern_seq 8 (many0 (terminated parse_decl_operator multispace0)).

  (** types/mod.rs:41-74 *)
  Definition parse_type_like : parser type_like :=
    let attributes :=
      pmap (fun o => match o with Some l => l | None => [] end)
        (opt (delimited (tag "__attribute__(") parse_function_call (pchar ")"))) in
    pmap (fun x => match x with (a, (sp, d)) => TypeLike a sp d end)
      (pand (terminated attributes multispace0)
      (pand (terminated parse_type_specifier multispace0)
            parse_declarator)).

  (** operators/usage.rs:42-67 *)
  Definition parse_unary_expr_prefix : parser (operator type_like) :=
    let unary_symbol :=
      pmap (fun s => OBasic s false false)
        (verify symbol (fun s => match s with
                                 | AddPlus | SubNeg | MulDeref | AndRef | BitNot | Not => true
                                 | _ => false
                                 end)) in
    let cast := pmap OConversion (delimited (then_ws "(") (r_type E) (ws_then ")")) in
    por (terminated (por (por cast parse_increment_decrement) unary_symbol) multispace0)
        (terminated (por delete_op co_await_op) multispace1).

  (** operators/usage.rs:137-164 *)
  Definition parse_new_expression : parser new_expression :=
    pmap (fun x => match x with
                   | (rooted, (placement, (t, constructor))) =>
                       NewExpr rooted placement t constructor
                   end)
      (separated_pair (pmap is_some (opt (tag "::")))
         (pand (tag "new") multispace0)
         (pand (terminated (opt parse_function_call) multispace0)
         (pand (terminated (r_type E) multispace0)
               (opt parse_function_call)))).

  (** values/mod.rs:123-176 *)
  Definition parse_value_header (allow_comma allow_greater : bool) : parser value_header :=
    let literal := pmap VHLiteral parse_literal in
    let parenthesized :=
      pmap VHParen (delimited (then_ws "(") (r_value E true true) (ws_then ")")) in
    let unary_op :=
      pmap (fun x => VHUnary (fst x) (snd x))
        (separated_pair parse_unary_expr_prefix multispace0 (r_value E allow_comma allow_greater)) in
    let new_expression := pmap VHNew parse_new_expression in
    let id_expression := pmap VHId parse_id_expression in
    let ellipsis := pvalue VHEllipsis (tag "...") in
    let sizeof := pmap VHSizeOf (delimited (tag "sizeof(") (r_type E) (pchar ")")) in
    let declval := pmap VHDeclVal (delimited (tag "declval(") (r_type E) (pchar ")")) in
    por literal (por new_expression (por sizeof (por declval (por id_expression
    (por unary_op (por parenthesized ellipsis)))))).

  (** values/mod.rs:187-249 *)
  Definition parse_after_value (allow_comma allow_greater : bool) : parser after_value :=
    let curr := r_value E allow_comma allow_greater in
    let binary_op :=
      pmap (fun x => AVBinary (fst x) (snd x))
        (separated_pair (parse_binary_expr_middle allow_comma allow_greater) multispace0 curr) in
    let ternary_op :=
      pmap (fun x => AVTernary (fst x) (snd x))
        (preceded (then_ws "?")
           (separated_pair curr (pand (pand multispace0 (pchar ":")) multispace0) curr)) in
    let array_index :=
      pmap AVIndex (delimited (then_ws "[") (r_value E false true) (ws_then "]")) in
    let function_call := pmap AVCall parse_function_call in
    let member_access := pmap AVMember (preceded (then_ws ".") parse_unqualified_id) in
    let postfix_op := pmap AVPostfix parse_increment_decrement in
    let ellipsis := pvalue AVEllipsis (tag "...") in
    fun s =>
      if starts "(" s then function_call s
      else if starts "?" s then ternary_op s
      else if starts "." s then por member_access ellipsis s
      else if starts "[" s then array_index s
      else por binary_op postfix_op s.

  (** values/mod.rs:72-100; 6 length bits for trailers (values/mod.rs:50) *)
  Definition parse_value_like (allow_comma allow_greater : bool) : parser value_like :=
    pmap (fun x => Value (fst x) (snd x))
      (pand (parse_value_header allow_comma allow_greater)
            (intern_seq 6 (many0 (preceded multispace0
                                    (parse_after_value allow_comma allow_greater))))).
End Grammar.

(** The recursive functions, with a budget of [n] nested calls *)
Fixpoint env_n (n : nat) : env :=
  match n with
  | O => mk_env (fun _ => PFuel) (fun _ _ _ => PFuel) (fun _ => PFuel)
  | S n' => mk_env (fun s => parse_type_like (env_n n') s)
                   (fun ac ag s => parse_value_like (env_n n') ac ag s)
                   (fun s => parse_declarator (env_n n') s)
  end.

(** anonymous.rs:18-21 *)
Definition parse_unknown_entity : parser unit := tag "<unknown>".

(** Result of `parse_entity` *)
Inductive entity_result := EOk (e : entity) | EErr | EPanic (w : panic_reason) | EFuel.

(** lib.rs:198-207: `final_parser` drops the empty rest *)
Definition parse_entity_n (n : nat) (s : str) : entity_result :=
  match terminated (por (pmap Some (r_type (env_n n))) (pvalue None parse_unknown_entity)) eof s with
  | POk _ e => EOk e
  | PErr => EErr
  | PPanic w => EPanic w
  | PFuel => EFuel
  end.
Definition parse_entity (s : str) : entity_result := parse_entity_n (S (List.length s)) s.

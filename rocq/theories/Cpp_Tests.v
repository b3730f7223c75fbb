(** The unit tests of cpparser, replayed on the model.

    Nothing here is a claim: these are the assertions of the repository's own test modules, with
    the model's functions in place of the code's.  Should the model disagree with the code on one
    of the cases its authors wrote down, this file would not build. *)
From Coq Require Import Ascii String.
From Verif Require Import Base Cpp_Lex_Model Cpp_Ast_Model Cpp_Parse_Model.
Local Open Scope nat_scope.
Local Open Scope bool_scope.
Local Open Scope list_scope.

(** "$" stands for the ellipsis character in the texts below *)
Definition txt (s : string) : str :=
  map (fun c => if N.eqb c 36 then ellipsis else c) (of_string s).

Definition E : env := env_n 40.
Definition V : chr -> bool := fun _ => true.

(** assert_eq!(parser(input), Ok((rest, expected))) *)
Definition leaves {A} (p : parser A) (input rest : string) (expected : A) : Prop :=
  p (txt input) = POk (txt rest) expected.
Definition reads {A} (p : parser A) (input : string) (expected : A) : Prop :=
  leaves p input "" expected.
Definition fails {A} (p : parser A) (input : string) : Prop := p (txt input) = PErr.
(** unwrap_parse, lib.rs:270-274; None when it would panic *)
Definition unwrap {A} (p : parser A) (input : string) : option A :=
  match p (txt input) with POk [] a => Some a | _ => None end.
Definition unwraps {A} (p : parser A) (inputs : list string) : option (list A) :=
  fold_right (fun s acc => match unwrap p s, acc with Some a, Some l => Some (a :: l) | _, _ => None end)
             (Some []) inputs.
(** `p` reads `input` as `f a` where `a` is the unwrapped reading of `sub` by `q` *)
Definition reads_as {A B} (p : parser A) (input : string) (f : B -> A) (q : parser B) (sub : string)
  : Prop := exists b, unwrap q sub = Some b /\ reads p input (f b).

(** check_custom_display, display.rs:160-176 *)
Definition shows {A} (r : A -> render) (depth : A -> N) (a : A) (displays : list string) : Prop :=
  let at_depth d := text (fst (r a d)) in
  S (N.to_nat (depth a)) = List.length displays /\
  map at_depth (map N.of_nat (seq 0 (List.length displays))) = map txt displays /\
  at_depth (depth a + 1)%N = txt (last displays ""%string) /\
  at_depth full_depth = txt (last displays ""%string).
(** what `p` reads in `input` is displayed like that *)
Definition displays_as {A} (p : parser A) (r : A -> render) (depth : A -> N) (input : string)
  (displays : list string) : Prop :=
  match unwrap p input with Some a => shows r depth a displays | None => False end.

Ltac run := repeat first [split | eexists]; vm_compute; reflexivity.

(** ** subparsers/types/specifiers/legacy.rs:514-568 *)
Example legacy_name_test :
  Forall (fun c => reads parse_legacy_name (fst c) (snd c))
  [("short", SignedShort); ("short int", SignedShort); ("signed short", SignedShort);
   ("signed short int", SignedShort); ("unsigned short", UnsignedShort);
   ("unsigned short int", UnsignedShort); ("int", SignedInt); ("signed", SignedInt);
   ("signed int", SignedInt); ("unsigned", UnsignedInt); ("unsigned int", UnsignedInt);
   ("long", SignedLong); ("long int", SignedLong); ("signed long", SignedLong);
   ("signed long int", SignedLong); ("unsigned long", UnsignedLong);
   ("unsigned long int", UnsignedLong); ("long long", SignedLongLong);
   ("long long int", SignedLongLong); ("signed long long", SignedLongLong);
   ("signed long long int", SignedLongLong); ("unsigned long long", UnsignedLongLong);
   ("unsigned long long int", UnsignedLongLong); ("long int unsigned long", UnsignedLongLong);
   ("__int128", SignedInt128); ("signed __int128", SignedInt128);
   ("unsigned __int128", UnsignedInt128); ("char", Char); ("signed char", SignedChar);
   ("unsigned char", UnsignedChar); ("float", Float); ("double", Double);
   ("long double", LongDouble); ("float _Complex", FloatComplex);
   ("double _Complex", DoubleComplex); ("long double _Complex", LongDoubleComplex)]%string.
Proof. repeat constructor. Qed.

(** ** subparsers/types/specifiers/mod.rs:239-271 *)
Definition simple_shown := displays_as (parse_simple_type E) (simple_render V) simple_depth.
Example simple_type_test :
  reads_as (parse_simple_type E) "whatever" STId (parse_id_expression E) "whatever" /\
  simple_shown "whatever" ["whatever"%string] /\
  reads (parse_simple_type E) "auto:1" (STAuto 1) /\
  simple_shown "auto:1" ["auto:1"%string] /\
  reads (parse_simple_type E) "unsigned int" (STLegacy UnsignedInt) /\
  simple_shown "unsigned int" ["unsigned int"%string] /\
  reads_as (parse_simple_type E) "class MyClass" STId (parse_id_expression E) "MyClass" /\
  simple_shown "class MyClass" ["MyClass"%string].
Proof. run. Qed.
(** :273-298 *)
Example type_specifier_test :
  reads (parse_type_specifier E) "auto:42" (TypeSpec cv_default (STAuto 42)) /\
  displays_as (parse_type_specifier E) (spec_render V) spec_depth "auto:42" ["auto:42"%string] /\
  reads (parse_type_specifier E) "const int" (TypeSpec cv_const (STLegacy SignedInt)) /\
  displays_as (parse_type_specifier E) (spec_render V) spec_depth "const int" ["const int"%string].
Proof. run. Qed.

(** ** subparsers/types/declarators.rs:372-540 *)
Definition decl_shown := displays_as (parse_decl_operator E) (decl_op_render V) decl_op_depth.
Definition no_path := Nested false [].
Definition cv_both := mk_cv true true.
Example decl_operator_test :
  let p := parse_decl_operator E in
  reads p "const" (DCv cv_const) /\ decl_shown "const" [" const"%string] /\
  reads p "volatile" (DCv cv_volatile) /\ decl_shown "volatile" [" volatile"%string] /\
  unwrap (parse_nested_name_specifier E) "" = Some no_path /\
  reads p "*" (DPointer no_path cv_default false) /\ decl_shown "*" ["*"%string] /\
  reads p "*const" (DPointer no_path cv_const false) /\ decl_shown "*const" ["* const"%string] /\
  reads p "*restrict" (DPointer no_path cv_default true) /\
  decl_shown "*restrict" ["* restrict"%string] /\
  reads p "*const __restrict volatile" (DPointer no_path cv_both true) /\
  decl_shown "*const __restrict volatile" ["* const volatile restrict"%string] /\
  reads p "* volatile const __restrict__" (DPointer no_path cv_both true) /\
  decl_shown "* volatile const __restrict__" ["* const volatile restrict"%string] /\
  reads_as p "A::B::* const" (fun n => DPointer n cv_const false) (parse_nested_name_specifier E) "A::B::" /\
  decl_shown "A::B::* const" [" $::* const"; " A::B::* const"]%string /\
  reads_as p "(lambda at /test.cpp:123:456)::X::* volatile" (fun n => DPointer n cv_volatile false)
           (parse_nested_name_specifier E) "(lambda at /test.cpp:123:456)::X::" /\
  decl_shown "(lambda at /test.cpp:123:456)::X::* volatile"
    [" $::* volatile"; " (lambda at /test.cpp:123:456)::X::* volatile"]%string /\
  reads_as p "_A::B::*" (fun n => DPointer n cv_default false) (parse_nested_name_specifier E) "_A::B::" /\
  decl_shown "_A::B::*" [" $::*"; " _A::B::*"]%string /\
  reads_as p "c::LOL::*" (fun n => DPointer n cv_default false) (parse_nested_name_specifier E) "c::LOL::" /\
  decl_shown "c::LOL::*" [" $::*"; " c::LOL::*"]%string /\
  reads_as p "v::LIL::* const" (fun n => DPointer n cv_const false) (parse_nested_name_specifier E) "v::LIL::" /\
  decl_shown "v::LIL::* const" [" $::* const"; " v::LIL::* const"]%string /\
  reads p "&" (DRef RLValue) /\ decl_shown "&" ["&"%string] /\
  reads p "[]" (DArray None) /\ decl_shown "[]" ["[]"%string] /\
  reads_as p "[42]" (fun v => DArray (Some v)) (parse_value_like E false true) "42" /\
  decl_shown "[42]" ["[42]"%string] /\
  reads_as p "()" DFunction (parse_function_signature E) "()" /\ decl_shown "()" ["()"%string] /\
  reads_as p "[abi:cxx11](int)" DFunction (parse_function_signature E) "[abi:cxx11](int)" /\
  decl_shown "[abi:cxx11](int)" ["[abi:cxx11]($)"; "[abi:cxx11](int)"]%string /\
  reads_as p "(&&)" DParen (parse_declarator E) "&&" /\
  decl_shown "(&&)" [" ($)"; " (&&)"]%string /\
  reads_as p "__vector(2)" DVector (parse_value_like E false true) "2" /\
  decl_shown "__vector(2)" [" __vector(2)"%string].
Proof. run. Qed.
(** :542-562 *)
Example declarator_test :
  let case s ops := unwrap (parse_declarator E) s = unwraps (parse_decl_operator E) ops /\
                    unwrap (parse_declarator E) s <> None in
  case ""%string [] /\ case "&"%string ["&"]%string /\
  case "&&*const()"%string ["&&"; "*const"; "()"]%string.
Proof. repeat split; vm_compute; (reflexivity || discriminate). Qed.

(** ** subparsers/types/mod.rs:201-264 *)
Definition type_case (s attributes spec decl : string) (displays : list string) : Prop :=
  exists a sp d,
    unwrap (parse_function_call E) attributes = Some a /\
    unwrap (parse_type_specifier E) spec = Some sp /\
    unwrap (parse_declarator E) decl = Some d /\
    reads (parse_type_like E) s (TypeLike a sp d) /\
    displays_as (parse_type_like E) (type_render V) type_depth s displays.
Example type_like_test :
  type_case "signed char" "()" "signed char" "" ["signed char"%string] /\
  type_case "__attribute__((unused)) long long" "(unused)" "long long" ""
    ["__attribute__(($)) long long"; "__attribute__((unused)) long long"]%string /\
  type_case "something()" "()" "something" "()" ["something$"; "something()"]%string /\
  type_case "T<1>(U)" "()" "T<1>" "(U)" ["T<$>$"; "T<1>($)"; "T<1>(U)"]%string.
Proof. run. Qed.

(** ** subparsers/types/qualifiers.rs:125-165 *)
Example cv_test :
  reads parse_cv "" cv_default /\ reads parse_cv "const" cv_const /\
  reads parse_cv "volatile" cv_volatile /\ reads parse_cv "const volatile" cv_both /\
  reads parse_cv "volatile const" cv_both /\ reads parse_cv "const const" cv_const.
Proof. run. Qed.
Example reference_test :
  reads parse_reference "" RNone /\ reads parse_reference "&" RLValue /\
  reads parse_reference "&&" RRValue.
Proof. run. Qed.

(** ** subparsers/functions.rs:452-463 *)
Example noexcept_test :
  reads (parse_noexcept E) "noexcept" None /\
  reads_as (parse_noexcept E) "noexcept(123)" Some (parse_value_like E true true) "123".
Proof. run. Qed.
(** :466-487 *)
Example function_parameter_set_test :
  let case s types variadic :=
    exists l, unwraps (parse_type_like E) types = Some l /\
              reads (parse_function_parameter_set E) s (l, variadic) in
  case "()"%string [] false /\ case "(...)"%string [] true /\
  case "(signed char*)"%string ["signed char*"]%string false /\
  case "(signed char*, ...)"%string ["signed char*"]%string true /\
  case "(charamel<lol>&, T)"%string ["charamel<lol>&"; "T"]%string false /\
  case "(charamel<lol>&, T, ...)"%string ["charamel<lol>&"; "T"]%string true.
Proof. run. Qed.
(** :490-607 *)
Definition signature_shown := displays_as (parse_function_signature E) (sig_render V) sig_depth.
Example function_signature_test :
  let p := parse_function_signature E in
  reads p "()" (FnSig None [] false cv_default RNone None None) /\
  signature_shown "()" ["()"%string] /\
  reads p "[abi:cxx11]()" (FnSig (Some (txt "cxx11")) [] false cv_default RNone None None) /\
  signature_shown "[abi:cxx11]()" ["[abi:cxx11]()"%string] /\
  reads_as p "(int)" (fun t => FnSig None [t] false cv_default RNone None None) (parse_type_like E) "int" /\
  signature_shown "(int)" ["($)"; "(int)"]%string /\
  reads p "() const" (FnSig None [] false cv_const RNone None None) /\
  signature_shown "() const" ["() const"%string] /\
  reads p "() &&" (FnSig None [] false cv_default RRValue None None) /\
  signature_shown "() &&" ["() &&"%string] /\
  reads p "() noexcept" (FnSig None [] false cv_default RNone (Some None) None) /\
  signature_shown "() noexcept" ["() noexcept"%string] /\
  reads p "() volatile &" (FnSig None [] false cv_volatile RLValue None None) /\
  signature_shown "() volatile &" ["() volatile &"%string] /\
  reads p "() volatile const noexcept" (FnSig None [] false cv_both RNone (Some None) None) /\
  signature_shown "() volatile const noexcept" ["() const volatile noexcept"%string] /\
  reads_as p "() && noexcept(456)"
    (fun v => FnSig None [] false cv_default RRValue (Some (Some v)) None)
    (parse_value_like E true true) "456" /\
  signature_shown "() && noexcept(456)" ["() && noexcept(456)"%string] /\
  reads_as p "() -> int" (fun t => FnSig None [] false cv_default RNone None (Some t))
    (parse_type_like E) "int" /\
  signature_shown "() -> int" ["() -> int"%string].
Proof. run. Qed.
(** :610-629 *)
Definition args_render (l : list value_like) : render := slice_render "(" ", " ")" (map (value_render V) l).
Definition args_depth (l : list value_like) : N := slice_depth (map value_depth l).
Example function_call_test :
  let case s values displays :=
    exists l, unwraps (parse_value_like E true true) values = Some l /\
              reads (parse_function_call E) s l /\ shows args_render args_depth l displays in
  case "()"%string [] ["()"]%string /\
  case "(123)"%string ["123"]%string ["($)"; "(123)"]%string /\
  case "(42, 'a')"%string ["42"; "'a'"]%string ["($)"; "(42, 'a')"]%string.
Proof. run. Qed.

(** ** subparsers/templates.rs:270-315 *)
Example template_parameter_test :
  let p := parse_template_parameter E in
  let value s displays :=
    exists v, unwrap (parse_value_like E true true) s = Some v /\
              leaves p (s ++ ",") "," (TPValue v) /\ leaves p (s ++ ">") ">" (TPValue v) /\
              shows (param_render V) param_depth (TPValue v) displays in
  let type s displays :=
    exists t, unwrap (parse_type_like E) s = Some t /\
              leaves p (s ++ ",") "," (TPType t) /\ leaves p (s ++ ">") ">" (TPType t) /\
              shows (param_render V) param_depth (TPType t) displays in
  value "-1000000000000"%string ["-1000000000000"]%string /\
  type "signed char*"%string ["signed char$"; "signed char*"]%string /\
  type "charamel<lol>&"%string ["charamel<$>$"; "charamel<lol>&"]%string.
Proof. run. Qed.
(** :318-342 *)
Example template_parameters_test :
  let p := parse_template_parameters E in
  let case s types displays :=
    exists l, unwraps (parse_type_like E) types = Some l /\
              reads p s (TPList (map TPType l)) /\
              shows (template_render V) template_depth (TPList (map TPType l)) displays in
  case "<>"%string [] ["<>"]%string /\
  case "<T>"%string ["T"]%string ["<$>"; "<T>"]%string /\
  case "<char, stuff>"%string ["char"; "stuff"]%string ["<$>"; "<char, stuff>"]%string /\
  reads p "<, void>" TPInvalid /\
  shows (template_render V) template_depth TPInvalid ["<$>"; "<, void>"]%string.
Proof. run. Qed.

(** ** subparsers/anonymous.rs:489-636 *)
Definition test_location : source_location :=
  mk_loc (map txt ["/"; "path"; "to"; "source.cpp"]%string) 123 45.
Definition anonymous_text (a : anonymous) : str := text (fst (anonymous_render V a full_depth)).
Example anonymous_test :
  reads parse_unknown_entity "<unknown>" tt /\
  reads parse_source_location "/path/to/source.cpp:123:45" test_location /\
  show_location test_location = txt "/path/to/source.cpp:123:45" /\
  reads parse_clang_lambda "(lambda at /path/to/source.cpp:123:45)" (AClangLambda test_location) /\
  anonymous_text (AClangLambda test_location) = txt "(lambda at /path/to/source.cpp:123:45)" /\
  reads_as (parse_libiberty_lambda E) "{lambda(auto:1)#1}" (fun f => ALibLambda f 1)
           (parse_function_signature E) "(auto:1)" /\
  displays_as (parse_libiberty_lambda E) (anonymous_render V) anonymous_depth "{lambda(auto:1)#1}"
              ["{lambda($)#1}"; "{lambda(auto:1)#1}"]%string /\
  reads parse_clang_anonymous "(anonymous)" (AClangOther None None) /\
  anonymous_text (AClangOther None None) = txt "(anonymous)" /\
  reads parse_clang_anonymous "(unnamed)" (AClangOther None None) /\
  reads parse_clang_anonymous "(anonymous class)" (AClangOther (Some (txt "class")) None) /\
  anonymous_text (AClangOther (Some (txt "class")) None) = txt "(anonymous class)" /\
  reads parse_clang_anonymous "(unnamed namespace)" (AClangOther (Some (txt "namespace")) None) /\
  anonymous_text (AClangOther (Some (txt "namespace")) None) = txt "(anonymous namespace)" /\
  reads parse_clang_anonymous "(anonymous struct at /path/to/source.cpp:123:45)"
        (AClangOther (Some (txt "struct")) (Some test_location)) /\
  anonymous_text (AClangOther (Some (txt "struct")) (Some test_location))
    = txt "(anonymous struct at /path/to/source.cpp:123:45)" /\
  reads parse_libiberty_unnamed "{unnamed type#42}" (ALibUnnamed 42) /\
  anonymous_text (ALibUnnamed 42) = txt "{unnamed type#42}" /\
  reads_as (parse_anonymous E) "(lambda at /path/to/source.cpp:123:45)" id
           parse_clang_lambda "(lambda at /path/to/source.cpp:123:45)" /\
  reads_as (parse_anonymous E) "{lambda()#1}" id (parse_libiberty_lambda E) "{lambda()#1}" /\
  reads_as (parse_anonymous E) "(anonymous)" id parse_clang_anonymous "(anonymous)" /\
  reads_as (parse_anonymous E) "{unnamed type#666}" id parse_libiberty_unnamed "{unnamed type#666}".
Proof. run. Qed.

(** ** subparsers/operators/usage.rs:280-302 *)
Definition lone (s : sym) : operator type_like := OBasic s false false.
Example increment_decrement_test :
  reads (@parse_increment_decrement type_like) "++" (OBasic AddPlus true false) /\
  reads (@parse_increment_decrement type_like) "--" (OBasic SubNeg true false).
Proof. run. Qed.
(** :305-379 *)
Example unary_expr_prefix_test :
  let p := parse_unary_expr_prefix E in
  reads p "+" (lone AddPlus) /\ reads p "- " (lone SubNeg) /\ reads p "*" (lone MulDeref) /\
  reads p "& " (lone AndRef) /\ reads p "~" (lone BitNot) /\ reads p "!" (lone Not) /\
  reads p "++" (OBasic AddPlus true false) /\ reads p "--" (OBasic SubNeg true false) /\
  reads_as p "(float)" OConversion (parse_type_like E) "float" /\
  reads p "co_await  " OCoAwait /\ reads p "delete[] " (ONewDelete true true).
Proof. run. Qed.
(** :382-433 *)
Example binary_expr_middle_test :
  let p := @parse_binary_expr_middle type_like in
  reads (p true true) "=" (lone AssignEq) /\ reads (p true true) "+=" (OBasic AddPlus false true) /\
  reads (p true true) "<=>" OSpaceship /\
  fails (p false true) "," /\ reads (p true true) "," (lone Comma) /\
  fails (p true false) ">" /\ fails (p true false) ">>" /\
  reads (p true true) ">" (lone Greater) /\ reads (p true true) ">>" (OBasic Greater true false).
Proof. run. Qed.
(** :436-488 *)
Definition new_shown := displays_as (parse_new_expression E) (new_render V) new_depth.
Example new_expression_test :
  let p := parse_new_expression E in
  reads_as p "new int" (fun t => NewExpr false None t None) (parse_type_like E) "int" /\
  new_shown "new int" ["new int"]%string /\
  reads_as p "::new double" (fun t => NewExpr true None t None) (parse_type_like E) "double" /\
  new_shown "::new double" ["::new double"]%string /\
  (exists l, unwrap (parse_function_call E) "(42)" = Some l /\
     reads_as p "new (42) MyClass" (fun t => NewExpr false (Some l) t None) (parse_type_like E) "MyClass") /\
  new_shown "new (42) MyClass" ["new($) MyClass"; "new(42) MyClass"]%string /\
  (exists l, unwrap (parse_function_call E) "('x')" = Some l /\
     reads_as p "new MyClass('x')" (fun t => NewExpr false None t (Some l)) (parse_type_like E) "MyClass") /\
  new_shown "new MyClass('x')" ["new MyClass($)"; "new MyClass('x')"]%string.
Proof. run. Qed.

(** ** subparsers/operators/overloads.rs:141-263 *)
Definition quoted (s : string) : str := [34; 34; 32]%N ++ txt s.     (* two quotes, space *)
Example overloads_test :
  let p := parse_operator_overload E in
  reads (@call_or_index type_like) "()" (OCallIndex false) /\
  reads (@call_or_index type_like) "[]" (OCallIndex true) /\
  parse_custom_literal (quoted "_whatever") = POk [] (OCustomLiteral (txt "_whatever")) /\
  reads (@new_op type_like) "new" (ONewDelete false false) /\
  reads (@new_op type_like) "new[]" (ONewDelete false true) /\
  reads p "operator*" (lone MulDeref, None) /\ reads p "operator[]" (OCallIndex true, None) /\
  p (txt "operator" ++ quoted "_stuff") = POk [] (OCustomLiteral (txt "_stuff"), None) /\
  reads p "operator new[]" (ONewDelete false true, None) /\
  p (txt "operator" ++ [9%N] ++ txt "co_await") = POk [] (OCoAwait, None) /\
  reads_as p "operator unsigned long long" (fun t => (OConversion t, None)) (parse_type_like E)
    "unsigned long long" /\
  reads_as p "operator<<>" (fun l => (lone Less, Some l)) (parse_template_parameters E) "<>" /\
  reads_as p "operator<<void>" (fun l => (lone Less, Some l)) (parse_template_parameters E) "<void>".
Proof. run. Qed.

(** ** subparsers/operators/mod.rs:474-491 *)
Example symbol_test :
  Forall (fun c => reads symbol (fst c) (snd c))
  [("+", AddPlus); ("-", SubNeg); ("*", MulDeref); ("/", Div); ("%", Mod); ("^", Xor);
   ("&", AndRef); ("|", Or); ("~", BitNot); ("!", Not); ("=", AssignEq); ("<", Less);
   (">", Greater); (",", Comma)]%string.
Proof. repeat constructor. Qed.
(** :494-594 *)
Example arithmetic_or_comparison_test :
  let p1 := @arithmetic_or_comparison1 type_like in
  let p2 := @arithmetic_or_comparison2 type_like in
  let p3 := @arithmetic_or_comparison3 type_like in
  leaves p1 "+" "" (lone AddPlus) /\
  leaves p1 "-=" "=" (lone SubNeg) /\ leaves p2 "-=" "" (OBasic SubNeg false true) /\
  leaves p1 "<<" "<" (lone Less) /\ leaves p2 "<<" "" (OBasic Less true false) /\
  leaves p1 ">>=" ">=" (lone Greater) /\ leaves p2 ">>=" "=" (OBasic Greater true false) /\
  leaves p3 ">>=" "" (OBasic Greater true true) /\
  leaves p2 "==" "" (OBasic AssignEq false true) /\ leaves p3 "<=>" "" OSpaceship /\
  leaves p1 "->" ">" (lone SubNeg) /\ leaves p2 "->" "" (ODeref false) /\
  leaves p3 "->*" "" (ODeref true).
Proof. run. Qed.
(** :597-618 *)
Example delete_test :
  reads (@delete_op type_like) "delete" (ONewDelete true false) /\
  reads (@delete_op type_like) "delete[]" (ONewDelete true true).
Proof. run. Qed.

(** ** subparsers/values/mod.rs:662-724 *)
Definition literal_value_of (s : string) : option value_like :=
  match unwrap (parse_value_like E true true) s, unwrap parse_literal s with
  | Some (Value (VHLiteral l) []), Some l' => Some (Value (VHLiteral l') [])
  | _, _ => None
  end.
Definition header_shown := displays_as (parse_value_header E true true) (header_render V) header_depth.
Definition reads_value {A} (p : parser A) (input : string) (f : value_like -> A) (sub : string) : Prop :=
  exists v, literal_value_of sub = Some v /\ unwrap (parse_value_like E true true) sub = Some v /\
            reads p input (f v).
Example value_header_test :
  let p := parse_value_header E true true in
  reads_as p "69" VHLiteral parse_literal "69" /\ header_shown "69" ["69"]%string /\
  reads_as p "'@'" VHLiteral parse_literal "'@'" /\ header_shown "'@'" ["'@'"]%string /\
  reads_value p "&123" (VHUnary (lone AndRef)) "123" /\ header_shown "&123" ["&123"]%string /\
  (exists t, unwrap (parse_type_like E) "T" = Some t /\
             reads_value p "(T)666" (VHUnary (OConversion t)) "666") /\
  header_shown "(T)666" ["(T)666"]%string /\
  reads_value p "(42)" VHParen "42" /\ header_shown "(42)" ["(42)"]%string /\
  reads_as p "new TROOT" VHNew (parse_new_expression E) "new TROOT" /\
  header_shown "new TROOT" ["new TROOT"]%string /\
  reads_as p "MyValue" VHId (parse_id_expression E) "MyValue" /\
  header_shown "MyValue" ["MyValue"]%string /\
  reads p "..." VHEllipsis /\ header_shown "..." ["..."]%string /\
  reads_as p "sizeof(U)" VHSizeOf (parse_type_like E) "U" /\
  header_shown "sizeof(U)" ["sizeof(U)"]%string /\
  reads_as p "declval(Lol)" VHDeclVal (parse_type_like E) "Lol" /\
  header_shown "declval(Lol)" ["declval(Lol)"]%string.
Proof. run. Qed.
(** :727-784 *)
Definition after_shown := displays_as (parse_after_value E true true) (after_render V) after_depth.
Example after_value_test :
  let p := parse_after_value E true true in
  reads_value p "[666]" AVIndex "666" /\ after_shown "[666]" ["[666]"]%string /\
  reads_as p "('c', -5)" AVCall (parse_function_call E) "('c', -5)" /\
  after_shown "('c', -5)" ["($)"; "('c', -5)"]%string /\
  reads_value p "+42" (AVBinary (lone AddPlus)) "42" /\ after_shown "+42" [" + 42"]%string /\
  (exists v, literal_value_of "123" = Some v /\ reads_value p "? 123 : 456" (AVTernary v) "456") /\
  after_shown "? 123 : 456" [" ? 123 : 456"]%string /\
  reads_as p ".lol" AVMember (parse_unqualified_id E) "lol" /\ after_shown ".lol" [".lol"]%string /\
  reads p "++" (AVPostfix (OBasic AddPlus true false)) /\ after_shown "++" ["++"]%string /\
  reads p "..." AVEllipsis /\ after_shown "..." ["..."]%string.
Proof. run. Qed.
(** :787-836 *)
Definition value_shown := displays_as (parse_value_like E true true) (value_render V) value_depth.
Example value_like_test :
  let p := parse_value_like E true true in
  (exists i, unwrap (parse_id_expression E) "array" = Some i /\
     reads_value p "array[666]" (fun v => Value (VHId i) [AVIndex v]) "666") /\
  value_shown "array[666]" ["array$"; "array[666]"]%string /\
  (exists i l, unwrap (parse_id_expression E) "func" = Some i /\
     unwrap (parse_function_call E) "( 3,'x' )" = Some l /\
     reads_value p "func( 3,'x' )[666]" (fun v => Value (VHId i) [AVCall l; AVIndex v]) "666") /\
  value_shown "func( 3,'x' )[666]" ["func$"; "func($)[666]"; "func(3, 'x')[666]"]%string.
Proof. run. Qed.

(** ** subparsers/values/literals.rs:210-251 *)
Definition integer_read (s : string) (z : Z) : bool :=
  match integer (txt s) with
  | POk [] (LI64 i) => Z.eqb i z
  | POk [] (LU64 u) => Z.eqb u z
  | _ => false
  end.
Example integer_test :
  forallb (fun suffix =>
    (integer_read ("-9223372036854775808" ++ suffix) (- 2 ^ 63) &&
     integer_read ("18446744073709551615" ++ suffix) (2 ^ 64 - 1))%bool)
  [""; "U"; "L"; "LL"; "Z"; "UL"; "ULL"; "UZ"; "LU"; "LLU"; "ZU";
   "u"; "l"; "ll"; "z"; "ul"; "ull"; "uz"; "lu"; "llu"; "zu"]%string = true.
Proof. vm_compute; reflexivity. Qed.
(** :254-276 *)
Example character_test :
  Forall (fun prefix =>
     reads character (prefix ++ "'x'") 120%N /\ reads character (prefix ++ "'\t'") 9%N /\
     reads character (prefix ++ "'\n'") 10%N /\ reads character (prefix ++ "'\''") 39%N)
  [""; "u8"; "u"; "U"; "L"]%string /\
  reads character "'\123'" 83%N /\ reads character "'\x33'" 51%N /\
  reads character "'\u1234'" 4660%N /\ reads character "'\U1f4af'" 128175%N.
Proof. split; [repeat constructor|run]. Qed.
(** :279-294 *)
Example literal_test :
  reads parse_literal_value "-123" (LI64 (-123)) /\ reads parse_literal_value "'c'" (LChar 99%N) /\
  reads parse_literal "'x'" (mk_literal (LChar 120%N) None) /\
  reads parse_literal "42_m" (mk_literal (LI64 42) (Some (txt "_m"))).
Proof. run. Qed.

(** ** subparsers/names/atoms.rs:253-292 *)
Example atoms_test :
  let keywords := keywords_parser [("five", 5); ("three", 3); ("four", 4)]%string in
  reads end_of_identifier "" tt /\ leaves end_of_identifier "+" "+" tt /\
  fails end_of_identifier "x" /\
  reads (keyword_parser "abc") "abc" tt /\ fails (keyword_parser "abc") "x" /\
  fails (keyword_parser "abc") "abcd" /\
  reads keywords "three" 3 /\ leaves keywords "four " " " 4 /\ fails keywords "fourth" /\
  reads keywords "five" 5 /\ fails keywords "one" /\
  reads identifier "_abczd_123904" (txt "_abczd_123904") /\
  leaves identifier "_abczd_123904*" "*" (txt "_abczd_123904").
Proof. run. Qed.

(** ** subparsers/names/unqualified.rs:286-364 *)
Definition unqualified_shown :=
  displays_as (parse_unqualified_id E) (unqualified_render V) unqualified_depth.
Example unqualified_id_test :
  let p := parse_unqualified_id E in
  reads p "basic" (UNamed false (txt "basic") None) /\ unqualified_shown "basic" ["basic"]%string /\
  reads p "data" (UNamed false (txt "data") None) /\ unqualified_shown "data" ["data"]%string /\
  reads p "ozzy" (UNamed false (txt "ozzy") None) /\ unqualified_shown "ozzy" ["ozzy"]%string /\
  reads p "~stuff" (UNamed true (txt "stuff") None) /\ unqualified_shown "~stuff" ["~stuff"]%string /\
  reads_as p "no_parameters<>" (fun l => UNamed false (txt "no_parameters") (Some l))
    (parse_template_parameters E) "<>" /\
  unqualified_shown "no_parameters<>" ["no_parameters<>"]%string /\
  reads_as p "A<B, C>" (fun l => UNamed false (txt "A") (Some l)) (parse_template_parameters E) "<B, C>" /\
  unqualified_shown "A<B, C>" ["A<$>"; "A<B, C>"]%string /\
  reads p "operator()" (UOperator (OCallIndex false) None) /\
  unqualified_shown "operator()" ["operator()"]%string /\
  reads_as p "decltype(42)" UDecltype (parse_value_like E true true) "42" /\
  unqualified_shown "decltype(42)" ["decltype(42)"]%string /\
  reads_as p "{lambda(auto:1)#1}" UAnonymous (parse_anonymous E) "{lambda(auto:1)#1}" /\
  unqualified_shown "{lambda(auto:1)#1}" ["{lambda($)#1}"; "{lambda(auto:1)#1}"]%string /\
  reads_as p "(anonymous class)" UAnonymous (parse_anonymous E) "(anonymous class)" /\
  unqualified_shown "(anonymous class)" ["(anonymous class)"]%string.
Proof. run. Qed.

(** ** subparsers/names/scopes.rs:468-511 *)
Definition scope_case (s : string) (f : unqualified_id -> scope) (id : string) (displays : list string)
  : Prop :=
  exists u, unwrap (parse_unqualified_id E) id = Some u /\
            reads (parse_scope_or_unqualified_id E) s (inl (f u)) /\
            shows (scope_render V) scope_depth (f u) displays.
Example scope_or_unqualified_id_test :
  scope_case "std::" (fun u => Scope u None) "std" ["std::"]%string /\
  (exists f, unwrap (parse_function_signature E) "()" = Some f /\
     scope_case "my_function()::" (fun u => Scope u (Some f)) "my_function" ["my_function()::"]%string) /\
  scope_case "MyClass const::" (fun u => Scope u None) "MyClass" ["MyClass::"]%string /\
  scope_case "Something&::" (fun u => Scope u None) "Something" ["Something::"]%string /\
  reads_as (parse_scope_or_unqualified_id E) "std" inr (parse_unqualified_id E) "std".
Proof. run. Qed.
(** :514-664 *)
Definition scopes_of (l : list string) : list scope :=
  match unwraps (parse_unqualified_id E) l with
  | Some ids => map (fun u => Scope u None) ids
  | None => []
  end.
Example proto_id_expression_test :
  let p := parse_proto_id_expression E in
  let bare s rooted scopes := reads p s (Nested rooted (scopes_of scopes), None) in
  let named s rest rooted scopes from id :=
    exists u, unwrap (parse_unqualified_id E) id = Some u /\
              leaves p s rest (Nested rooted (scopes_of scopes), Some (txt from, u)) in
  bare ""%string false [] /\
  named "something"%string ""%string false [] "something"%string "something"%string /\
  bare "::"%string true [] /\
  named "::x"%string ""%string true [] "x"%string "x"%string /\
  bare "boost::"%string false ["boost"]%string /\
  named "boost::y"%string ""%string false ["boost"]%string "y"%string "y"%string /\
  bare "::std::"%string true ["std"]%string /\
  named "::std::z 1"%string " 1"%string true ["std"]%string "z 1"%string "z"%string /\
  bare "boost::hana::"%string false ["boost"; "hana"]%string /\
  named "boost::hana::stuff"%string ""%string false ["boost"; "hana"]%string "stuff"%string "stuff"%string.
Proof. run. Qed.
(** :667-724 *)
Example nested_name_specifier_test :
  let p := parse_nested_name_specifier E in
  let case s rest rooted scopes displays :=
    leaves p s rest (Nested rooted (scopes_of scopes)) /\
    shows (nested_render V) nested_depth (Nested rooted (scopes_of scopes)) displays in
  case ""%string ""%string false [] [""]%string /\
  case "boost::hana::"%string ""%string false ["boost"; "hana"]%string
    ["$::"; "boost::hana::"]%string /\
  case "::boost::hana::stuff"%string "stuff"%string true ["boost"; "hana"]%string
    ["$::"; "::boost::hana::"]%string.
Proof. run. Qed.
(** :727-761 *)
Example id_expression_test :
  reads_as (parse_id_expression E) "something" (IdExpr no_path) (parse_unqualified_id E) "something" /\
  displays_as (parse_id_expression E) (id_render V) id_depth "something" ["something"]%string /\
  (exists n, unwrap (parse_nested_name_specifier E) "boost::hana::" = Some n /\
     reads_as (parse_id_expression E) "boost::hana::to_t<unsigned long long>" (IdExpr n)
       (parse_unqualified_id E) "to_t<unsigned long long>") /\
  displays_as (parse_id_expression E) (id_render V) id_depth "boost::hana::to_t<unsigned long long>"
    ["$::to_t<$>"; "boost::hana::to_t<unsigned long long>"]%string.
Proof. run. Qed.

(** ** lib.rs:277-292 *)
Example entity_test :
  (exists t, unwrap (parse_type_like E) "type_name" = Some t /\
     parse_entity (txt "type_name") = EOk (Some t) /\
     shows (entity_render V) entity_depth (Some t) ["type_name"]%string) /\
  parse_entity (txt "<unknown>") = EOk None /\
  shows (entity_render V) entity_depth None ["<unknown>"]%string.
Proof. run. Qed.

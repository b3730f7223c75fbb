(** The C++ entities of the round-trip property (C76), with the text that a reader expects of
    them and what the parser is expected to make of that text.

    They are the names that clang writes into a trace: qualified names with template parameters
    and function scopes, cv qualifiers, pointers, references, arrays, functions and parenthesised
    declarators, literals, casts and addresses as template parameters, operator overloads,
    decltype, unnamed entities and lambdas (those of libiberty too), and expressions with calls,
    indices, members, increments, binary operators and the ternary operator. *)
From Coq Require Import Ascii String.
From Verif Require Import Base Cpp_Lex_Model Cpp_Ast_Model.
Local Open Scope nat_scope.
Local Open Scope bool_scope.
Local Open Scope list_scope.
Local Notation "' s" := (of_string s) (at level 0, s at level 0).

(** Overloaded operators *)
Inductive coperator :=
| CoSymbol (s : sym) (twice equal : bool)      (* + ++ += <<= and so on *)
| CoArrow (star : bool)
| CoSpaceship
| CoCall
| CoIndex
| CoNew (array : bool)
| CoDelete (array : bool)
| CoAwait
| CoLiteral (w : str).

(** Operators between two values *)
Inductive cbinary :=
| CbSymbol (s : sym) (twice equal : bool)      (* + && <= <<= and so on *)
| CbArrow (star : bool)
| CbSpaceship.

(** Absolute path of a file, with a line and a column *)
Record clocation := mk_cloc { cl_path : list str; cl_line : Z; cl_column : Z }.

(** The same entity can be written in several ways: clang writes `T *const`, `T &`, `void (int)`
    and `(Class::* )` where crofiler displays `T* const`, `T&`, `void(int)` and `( Class::* )`
    (without the last space).
    These marks tell how it is written. *)
Record layout := mk_layout {
  l_before : bool;       (* a space before this operator *)
  l_tight : bool;        (* no space before the path of a member pointer *)
  l_after : bool;        (* no space between the star and its qualifiers *)
  l_under : bool;        (* __restrict for restrict *)
  l_late : bool          (* restrict before the other qualifiers *)
}.
(** `class T` for T, and so on *)
Inductive class_key := KTypename | KClass | KStruct | KEnum | KUnion.

Inductive ctype :=
| CType (c : cv) (b : cbase) (ops : list cop)
with cbase :=
| CBuiltin (n : legacy_name)
| CAuto (u : Z)
| CNamed (k : option class_key) (n : cname)
with cname :=
| CName (rooted : bool) (scopes : list cscope) (last : cid)
with cscope :=
| CScope (id : cid) (f : option csig)
with cid :=
| CWord (destructor : bool) (w : str) (tp : option (list cparam))
| COperator (op : coperator) (tp : option (list cparam))
| CDecltype (v : cvalue)
| CAnonymous (unnamed : bool) (w : option str) (l : option clocation)
| CLambda (l : clocation)
| CLibUnnamed (n : Z)                          (* {unnamed type#1} *)
| CLibLambda (f : csig) (n : Z)                (* {lambda(int)#1} *)
with cparam :=
| CPType (t : ctype)
| CPValue (v : cvalue)
with cvalue :=
| CLiteral (l : literal)
| CVar (n : cname)
| CUnary (s : sym) (v : cvalue)
| CStep (down : bool) (v : cvalue)             (* ++v, --v *)
| CCast (t : ctype) (v : cvalue)
| CGroup (v : cvalue)
| CSizeof (declval : bool) (t : ctype)         (* sizeof(T), declval(T) *)
| CExpr (v : cvalue) (ts : list cafter)        (* a value and what comes after it *)
with cafter :=
| CIndex (v : cvalue)
| CCall (args : list cvalue)
| CMember (i : cid)
| CDots                                        (* v... *)
| CPost (down : bool)                          (* v++, v-- *)
| CBinary (op : cbinary) (v : cvalue)
| CTernary (v w : cvalue)                      (* what ? v : w *)
with cop :=
| CCv (c : cv)
| CPtr (path : list cscope) (c : cv) (restrict : bool) (l : layout)
| CRef (rvalue : bool) (l : layout)
| CArr (v : option cvalue) (l : layout)
| CFun (f : csig) (l : layout)
| CParen (ops : list cop)
with csig :=
| CSig (params : list ctype) (variadic : bool) (c : cv) (r : reference)
       (noexcept : option (option cvalue)) (ret : option ctype).

(** ** Text *)

Definition cv_text (c : cv) : str :=
  match c with
  | mk_cv false false => []
  | mk_cv true false => '"const"
  | mk_cv false true => '"volatile"
  | mk_cv true true => '"const volatile"
  end.
Definition no_cv (c : cv) : bool := match c with mk_cv false false => true | _ => false end.
Definition ref_text (r : reference) : str :=
  match r with RNone => [] | RLValue => '"&" | RRValue => '"&&" end.
Definition opt_text {A} (f : A -> str) (o : option A) : str :=
  match o with Some a => f a | None => [] end.
(** items with a separator between them *)
Fixpoint join (sep : str) (items : list str) : str :=
  match items with
  | [] => []
  | [i] => i
  | i :: rest => i ++ sep ++ join sep rest
  end.

Definition oper_text (op : coperator) : str :=
  match op with
  | CoSymbol s twice equal =>
      show_sym s ++ (if twice then show_sym s else []) ++ (if equal then '"=" else [])
  | CoArrow star => if star then '"->*" else '"->"
  | CoSpaceship => '"<=>"
  | CoCall => '"()"
  | CoIndex => '"[]"
  | CoNew array => if array then '" new[]" else '" new"
  | CoDelete array => if array then '" delete[]" else '" delete"
  | CoAwait => '" co_await"
  | CoLiteral w => [34; 34; 32]%N ++ w           (* two quotes and a space *)
  end.

Definition binary_text (op : cbinary) : str :=
  match op with
  | CbSymbol s twice equal =>
      '" " ++ show_sym s ++ (if twice then show_sym s else []) ++ (if equal then '"=" else []) ++ '" "
  | CbArrow star => if star then '"->*" else '"->"
  | CbSpaceship => '" <=> "
  end.

Definition step_text (down : bool) : str := if down then '"--" else '"++".

(** Printable ASCII, shown verbatim by Rust's `{:?}` except for quotes and backslashes *)
Definition printable (c : chr) : bool := N.leb 32 c && N.ltb c 127.

Definition loc_text (l : clocation) : str :=
  '"/" ++ join '"/" (cl_path l) ++ '":" ++ show_int (cl_line l) ++ '":" ++ show_int (cl_column l).

(** Either as marked or as crofiler displays it *)
Class style := as_marked : bool.
Definition mark {st : style} (b : bool) : bool := as_marked && b.
Definition space (b : bool) : str := if b then '" " else [].
Definition key_word (k : class_key) : str :=
  match k with
  | KTypename => '"typename" | KClass => '"class" | KStruct => '"struct" | KEnum => '"enum"
  | KUnion => '"union"
  end.

Definition quals_text {st : style} (c : cv) (restrict : bool) (l : layout) : str :=
  let cvs := if no_cv c then [] else [cv_text c] in
  let restricts :=
    if restrict then [if mark (l_under l) then '"__restrict" else '"restrict"] else [] in
  match (if mark (l_late l) then restricts ++ cvs else cvs ++ restricts) with
  | [] => []
  | words => space (negb (mark (l_after l))) ++ join '" " words
  end.

Fixpoint ttext {st : style} (t : ctype) : str :=
  match t with
  | CType c b ops =>
      (if no_cv c then [] else cv_text c ++ '" ") ++ btext b ++ concat (map optext ops)
  end
with btext {st : style} (b : cbase) : str :=
  match b with
  | CBuiltin n => show_legacy n
  | CAuto u => '"auto:" ++ show_int u
  | CNamed k n => opt_text (fun k => if mark true then key_word k ++ '" " else []) k ++ ntext n
  end
with ntext {st : style} (n : cname) : str :=
  match n with
  | CName rooted scopes last =>
      (if rooted then '"::" else []) ++ concat (map stext scopes) ++ idtext last
  end
with stext {st : style} (s : cscope) : str :=
  match s with CScope id f => idtext id ++ opt_text sigtext f ++ '"::" end
with idtext {st : style} (i : cid) : str :=
  match i with
  | CWord d w tp =>
      (if d then '"~" else []) ++ w ++
      opt_text (fun l => '"<" ++ join '", " (map ptext l) ++ '">") tp
  | COperator op tp =>
      '"operator" ++ oper_text op ++ opt_text (fun l => '"<" ++ join '", " (map ptext l) ++ '">") tp
  | CDecltype v => '"decltype(" ++ vtext v ++ '")"
  | CAnonymous u w l =>
      (if mark u then '"(unnamed" else '"(anonymous") ++ opt_text (fun w => '" " ++ w) w ++
      opt_text (fun l => '" at " ++ loc_text l) l ++ '")"
  | CLambda l => '"(lambda at " ++ loc_text l ++ '")"
  | CLibUnnamed n => '"{unnamed type#" ++ show_int n ++ '"}"
  | CLibLambda f n => '"{lambda" ++ sigtext f ++ '"#" ++ show_int n ++ '"}"
  end
with ptext {st : style} (p : cparam) : str :=
  match p with CPType t => ttext t | CPValue v => vtext v end
with vtext {st : style} (v : cvalue) : str :=
  match v with
  | CLiteral l => show_literal printable l
  | CVar n => ntext n
  | CUnary s v => show_sym s ++ vtext v
  | CStep down v => step_text down ++ vtext v
  | CCast t v => '"(" ++ ttext t ++ '")" ++ vtext v
  | CGroup v => '"(" ++ vtext v ++ '")"
  | CSizeof b t => (if b then '"declval" else '"sizeof") ++ '"(" ++ ttext t ++ '")"
  | CExpr v ts => vtext v ++ concat (map atext ts)
  end
with atext {st : style} (a : cafter) : str :=
  match a with
  | CIndex v => '"[" ++ vtext v ++ '"]"
  | CCall args => '"(" ++ join '", " (map vtext args) ++ '")"
  | CMember i => '"." ++ idtext i
  | CDots => '"..."
  | CPost down => step_text down
  | CBinary op v => binary_text op ++ vtext v
  | CTernary v w => '" ? " ++ vtext v ++ '" : " ++ vtext w
  end
with optext {st : style} (o : cop) : str :=
  match o with
  | CCv c => '" " ++ cv_text c
  | CPtr path c restrict l =>
      match path with
      | [] => space (mark (l_before l))
      | _ => space (negb (mark (l_tight l))) ++ concat (map stext path)
      end ++ '"*" ++ quals_text c restrict l
  | CRef rvalue l => space (mark (l_before l)) ++ (if rvalue then '"&&" else '"&")
  | CArr v l => space (mark (l_before l)) ++ '"[" ++ opt_text vtext v ++ '"]"
  | CFun f l => space (mark (l_before l)) ++ sigtext f
  | CParen ops => '" (" ++ concat (map optext ops) ++ '")"
  end
with sigtext {st : style} (f : csig) : str :=
  match f with
  | CSig params variadic c r noexcept ret =>
      '"(" ++ join '", " (map ttext params) ++ (if variadic then '", ..." else []) ++ '")" ++
      (if no_cv c then [] else '" " ++ cv_text c) ++
      (match r with RNone => [] | _ => '" " ++ ref_text r end) ++
      opt_text (fun o => '" noexcept" ++ opt_text (fun v => '"(" ++ vtext v ++ '")") o) noexcept ++
      opt_text (fun t => '" -> " ++ ttext t) ret
  end.

(** As it is written in a trace, and as crofiler displays it *)
Definition written_text (t : ctype) : str := @ttext true t.
Definition displayed_text (t : ctype) : str := @ttext false t.

(** ** The parsed entity *)

Definition opermean (op : coperator) : operator type_like :=
  match op with
  | CoSymbol s twice equal => OBasic s twice equal
  | CoArrow star => ODeref star
  | CoSpaceship => OSpaceship
  | CoCall => OCallIndex false
  | CoIndex => OCallIndex true
  | CoNew array => ONewDelete false array
  | CoDelete array => ONewDelete true array
  | CoAwait => OCoAwait
  | CoLiteral w => OCustomLiteral w
  end.
Definition binarymean (op : cbinary) : operator type_like :=
  match op with
  | CbSymbol s twice equal => OBasic s twice equal
  | CbArrow star => ODeref star
  | CbSpaceship => OSpaceship
  end.
Definition stepmean (down : bool) : operator type_like := OBasic (if down then SubNeg else AddPlus) true false.
Definition locmean (l : clocation) : source_location :=
  mk_loc ('"/" :: cl_path l) (cl_line l) (cl_column l).

Fixpoint tmean (t : ctype) : type_like :=
  match t with CType c b ops => TypeLike [] (TypeSpec c (bmean b)) (map opmean ops) end
with bmean (b : cbase) : simple_type :=
  match b with
  | CBuiltin n => STLegacy n
  | CAuto u => STAuto u
  | CNamed _ n => STId (nmean n)
  end
with nmean (n : cname) : id_expression :=
  match n with
  | CName rooted scopes last => IdExpr (Nested rooted (map smean scopes)) (idmean last)
  end
with smean (s : cscope) : scope :=
  match s with CScope id f => Scope (idmean id) (option_map sigmean f) end
with idmean (i : cid) : unqualified_id :=
  match i with
  | CWord d w tp => UNamed d w (option_map (fun l => TPList (map pmean l)) tp)
  | COperator op tp => UOperator (opermean op) (option_map (fun l => TPList (map pmean l)) tp)
  | CDecltype v => UDecltype (vmean v)
  | CAnonymous _ w l => UAnonymous (AClangOther w (option_map locmean l))
  | CLambda l => UAnonymous (AClangLambda (locmean l))
  | CLibUnnamed n => UAnonymous (ALibUnnamed n)
  | CLibLambda f n => UAnonymous (ALibLambda (sigmean f) n)
  end
with pmean (p : cparam) : template_parameter :=
  match p with CPType t => TPType (tmean t) | CPValue v => TPValue (vmean v) end
with vmean (v : cvalue) : value_like :=
  match v with
  | CLiteral l => Value (VHLiteral l) []
  | CVar n => Value (VHId (nmean n)) []
  | CUnary s v => Value (VHUnary (OBasic s false false) (vmean v)) []
  | CStep down v => Value (VHUnary (stepmean down) (vmean v)) []
  | CCast t v => Value (VHUnary (OConversion (tmean t)) (vmean v)) []
  | CGroup v => Value (VHParen (vmean v)) []
  | CSizeof b t => Value (if b then VHDeclVal (tmean t) else VHSizeOf (tmean t)) []
  | CExpr v ts => match vmean v with Value h before => Value h (before ++ map amean ts) end
  end
with amean (a : cafter) : after_value :=
  match a with
  | CIndex v => AVIndex (vmean v)
  | CCall args => AVCall (map vmean args)
  | CMember i => AVMember (idmean i)
  | CDots => AVEllipsis
  | CPost down => AVPostfix (stepmean down)
  | CBinary op v => AVBinary (binarymean op) (vmean v)
  | CTernary v w => AVTernary (vmean v) (vmean w)
  end
with opmean (o : cop) : decl_operator :=
  match o with
  | CCv c => DCv c
  | CPtr path c restrict _ => DPointer (Nested false (map smean path)) c restrict
  | CRef rvalue _ => DRef (if rvalue then RRValue else RLValue)
  | CArr v _ => DArray (option_map vmean v)
  | CFun f _ => DFunction (sigmean f)
  | CParen ops => DParen (map opmean ops)
  end
with sigmean (f : csig) : fn_signature :=
  match f with
  | CSig params variadic c r noexcept ret =>
      FnSig None (map tmean params) variadic c r (option_map (option_map vmean) noexcept)
            (option_map tmean ret)
  end.

(** ** What is left out *)

(** Words that mean something else to the grammar *)
Definition reserved : list str :=
  map of_string
    ["const"; "volatile"; "restrict"; "__restrict"; "__restrict__"; "noexcept";
     "float"; "double"; "long"; "unsigned"; "char"; "int"; "__int128"; "signed"; "short"; "_Complex";
     "typename"; "class"; "struct"; "enum"; "union"; "operator"; "decltype";
     "__attribute__"; "__vector"; "anonymous"; "unnamed"; "lambda"; "abi"]%string.
Definition mem (w : str) (l : list str) : bool := existsb (str_eqb w) l.
Definition is_word (w : str) : bool :=
  match w with c :: r => is_id_start c && forallb is_id_continue r | [] => false end.
Definition name_ok (w : str) : bool := is_word w && negb (mem w reserved).
Fixpoint prefix (p s : str) : bool :=
  match p, s with
  | [], _ => true
  | a :: p', b :: s' => N.eqb a b && prefix p' s'
  | _, [] => false
  end.
Definition opt_ok {A} (f : A -> bool) (o : option A) : bool :=
  match o with Some a => f a | None => true end.
Definition is_none {A} (o : option A) : bool := match o with Some _ => false | None => true end.
Definition fewer {A} (l : list A) (bits : N) : bool := N.ltb (N.of_nat (List.length l)) (2 ^ bits).

(** Numbers in range, and characters that are shown the way C++ writes them; a user-defined
    suffix of a number must not start with one of the letters of standard suffixes. *)
Definition literal_ok (l : literal) : bool :=
  match lit_value l with
  | LI64 z => (- 2 ^ 63 <=? z)%Z && (z <? 2 ^ 63)%Z
  | LU64 z => (2 ^ 63 <=? z)%Z && (z <? 2 ^ 64)%Z
  | LChar c => printable c || existsb (N.eqb c) [0; 9; 10; 13]%N
  end &&
  match lit_suffix l with
  | None => true
  | Some w => is_word w && match lit_value l, w with
                           | LChar _, _ => true
                           | _, c :: _ => negb (existsb (N.eqb c) '"uUlLzZ")
                           | _, [] => false
                           end
  end.
(** File and directory names *)
Definition component_ok (n : str) : bool :=
  match n with [] => false | _ => true end &&
  forallb (fun c => negb (N.eqb c slash) && negb (N.eqb c 58)) n &&
  negb (mem n ['"."; '".."]).
Definition u32 (z : Z) : bool := (0 <=? z)%Z && (z <? 2 ^ 32)%Z.
Definition loc_ok (l : clocation) : bool :=
  match cl_path l with [] => false | _ => true end && forallb component_ok (cl_path l) &&
  N.ltb (N.of_nat (List.length (cl_path l))) 255 && u32 (cl_line l) && u32 (cl_column l).
(** `==` is written with one representation *)
Definition oper_ok (op : coperator) : bool :=
  match op with
  | CoSymbol AssignEq true false => false
  | CoLiteral w => is_word w
  | _ => true
  end.

Definition is_operator (i : cid) : bool := match i with COperator _ _ => true | _ => false end.
(** `operator<<(...)` is ambiguous, see C28 *)
Definition bare_shift (i : cid) : bool :=
  match i with COperator (CoSymbol Less true false) None => true | _ => false end.
(** where a declarator may start with a path *)
Definition starts_path (s : cscope) : bool :=
  match s with CScope (CWord _ _ _) _ | CScope (CDecltype _) _ => true | _ => false end.
(** Neither `new...` nor `::new...`, which are taken for the operator (C27), nor `sizeof(...)` *)
Definition id_not_new (i : cid) : bool :=
  match i with
  | CWord false w tp => negb (prefix '"new" w) && (negb (mem w ['"sizeof"; '"declval"]) || negb (is_none tp))
  | _ => true
  end.
Definition not_new (n : cname) : bool :=
  match n with
  | CName _ (CScope i _ :: _) _ => id_not_new i
  | CName _ [] i => id_not_new i
  end.
(** Neither a number nor something that starts with a sign *)
Fixpoint no_sign (v : cvalue) : bool :=
  match v with
  | CLiteral l => match lit_value l with LChar _ => true | _ => false end
  | CUnary s _ => match s with AddPlus | SubNeg => false | _ => true end
  | CStep _ _ => false
  | CExpr v _ => no_sign v
  | _ => true
  end.
(** Template parameters that start like a type are taken for one *)
Fixpoint not_a_type (v : cvalue) : bool :=
  match v with CVar _ | CSizeof _ _ => false | CExpr v _ => not_a_type v | _ => true end.
Definition sig_ret (f : csig) : bool := match f with CSig _ _ _ _ _ ret => negb (is_none ret) end.
Definition sig_bare_noexcept (f : csig) : bool :=
  match f with CSig _ _ _ _ (Some None) _ => true | _ => false end.
(** Whether a declarator operator can be told from the next one: const after const, a pointer
    or a function is taken for a part of it, and so on. *)
Definition apart (a b : cop) : bool :=
  match a, b with
  | CCv _, CCv _ | CPtr _ _ _ _, CCv _ | CFun _ _, CCv _ | CRef _ _, CRef _ _ | CFun _ _, CRef _ _ => false
  | CFun f _, CFun _ _ => negb (sig_ret f) && negb (sig_bare_noexcept f)
  | CFun f _, _ => negb (sig_ret f)
  | _, _ => true
  end.
(** `Class::*` needs a space before it, except after a parenthesis *)
Definition loose (o : cop) : bool :=
  match o with CPtr (_ :: _) _ _ l => negb (l_tight l) | _ => true end.
Fixpoint all_apart (ops : list cop) : bool :=
  match ops with
  | a :: (b :: _) as r => apart a b && loose b && all_apart r
  | _ => true
  end.

(** Operators that can be written between two values anywhere.  Neither `>` and `>>`, which may
    close template parameters, nor the comma, which may separate values. *)
Definition binary_ok (op : cbinary) : bool :=
  match op with
  | CbSymbol s false false =>
      match s with AddPlus | SubNeg | MulDeref | Div | Mod | Xor | AndRef | Or | AssignEq | Less => true | _ => false end
  | CbSymbol s false true => match s with BitNot | Comma => false | _ => true end
  | CbSymbol s true false => match s with AndRef | Or | Less => true | _ => false end
  | CbSymbol s true true => match s with Less | Greater => true | _ => false end
  | CbArrow _ | CbSpaceship => true
  end.
(** These may be taken for the declarator of a type *)
Definition decl_like (op : cbinary) : bool :=
  match op with CbSymbol MulDeref _ _ | CbSymbol AndRef _ _ => true | _ => false end.
(** What comes after an operator belongs to its operand *)
Definition is_last (a : cafter) : bool := match a with CBinary _ _ | CTernary _ _ | CPost _ => true | _ => false end.
Fixpoint last_last (ts : list cafter) : bool :=
  match ts with
  | [] => true
  | t :: r => (negb (is_last t) || match r with [] => true | _ => false end) && last_last r
  end.
(** `a < b` may be taken for a template *)
Definition template_like (a : cafter) : bool :=
  match a with CBinary (CbSymbol Less _ _) _ | CBinary CbSpaceship _ => true | _ => false end.

(** The type that is written like this value, if any *)
Definition no_marks : layout := mk_layout false false false false false.
Definition sequence {A} (l : list (option A)) : option (list A) :=
  fold_right (fun o r => match o, r with Some a, Some l => Some (a :: l) | _, _ => None end) (Some []) l.
Fixpoint as_type (v : cvalue) : option ctype :=
  match v with
  | CVar n => Some (CType cv_default (CNamed None n) [])
  | CSizeof b t =>
      Some (CType cv_default (CNamed None (CName false [] (CWord false (if b then '"declval" else '"sizeof") None)))
              [CFun (CSig [t] false cv_default RNone None None) no_marks])
  | CExpr (CVar n) ts => option_map (CType cv_default (CNamed None n)) (sequence (map as_op ts))
  | _ => None
  end
with as_op (a : cafter) : option cop :=
  match a with
  | CIndex v => Some (CArr (Some v) no_marks)
  | CCall args =>
      option_map (fun ps => CFun (CSig ps false cv_default RNone None None) no_marks) (sequence (map as_type args))
  | _ => None
  end.
(** Values that start like a type but cannot be one, such as `a + b` *)
Definition type_then (v : cvalue) : bool :=
  match v with
  | CExpr (CVar _) (t :: _) =>
      match t with
      | CIndex _ | CCall _ => false
      | CBinary op _ => negb (decl_like op)
      | CMember _ | CDots | CPost _ | CTernary _ _ => true
      end
  | _ => false
  end.
(** Either clearly a type or clearly not one *)
Definition unmistakable (v : cvalue) : bool := not_a_type v || negb (is_none (as_type v)) || type_then v.
Fixpoint args_unmistakable (args : list cvalue) : bool :=
  match args with
  | [] => true
  | a :: r => if is_none (as_type a) then not_a_type a || type_then a else args_unmistakable r
  end.
(** What may come after a name: `a & &b` and `f(x) & y` may be taken for a reference, `f(x)->y`
    for a function type, `a < b` for a template *)
Definition after_name (ts : list cafter) : bool :=
  match ts with
  | CBinary (CbSymbol AndRef _ false) (CUnary AndRef _) :: _ => false
  | CCall args :: r =>
      args_unmistakable args &&
      (is_none (sequence (map as_type args)) ||
       match r with CBinary (CbSymbol AndRef _ _) _ :: _ | CBinary (CbArrow _) _ :: _ => false | _ => true end)
  | t :: _ => negb (template_like t)
  | [] => true
  end.
(** Values that can be written before the `:` of a ternary operator *)
Definition before_colon (v : cvalue) : bool :=
  match v with
  | CLiteral _ | CSizeof _ _ | CVar _ => true
  | CGroup w => is_none (as_type w)
  | _ => false
  end.
(** What may come after a member *)
Fixpoint members_apart (ts : list cafter) : bool :=
  match ts with
  | CMember _ :: (t :: _) as r => negb (template_like t) && members_apart r
  | _ :: r => members_apart r
  | [] => true
  end.
Fixpoint tok (t : ctype) : bool :=
  match t with
  | CType c b ops =>
      bok b && forallb opok ops && all_apart ops && forallb loose (firstn 1 ops) && fewer ops 8 &&
      match b, ops with
      | CNamed _ (CName _ _ i), CFun _ l :: _ => (negb (is_operator i) || negb (l_before l)) && negb (bare_shift i)
      | CNamed _ (CName _ _ i), _ => negb (is_operator i)
      | _, _ => true
      end
  end
with bok (b : cbase) : bool :=
  match b with
  | CBuiltin _ => true
  | CAuto u => u32 u
  | CNamed _ n => nok n
  end
with nok (n : cname) : bool :=
  match n with CName _ scopes last => forallb sok scopes && fewer scopes 8 && idok last end
with sok (s : cscope) : bool :=
  match s with
  | CScope id f =>
      idok id && opt_ok (fun f => sigok f && negb (sig_ret f)) f && ((negb (is_operator id) || negb (is_none f)) && negb (bare_shift id))
  end
with idok (i : cid) : bool :=
  match i with
  | CWord _ w tp => name_ok w && opt_ok (fun l => forallb pok l && fewer l 10) tp
  | COperator op tp => oper_ok op && opt_ok (fun l => forallb pok l && fewer l 10) tp
  | CDecltype v => vok v
  | CAnonymous _ w l => opt_ok is_word w && opt_ok loc_ok l && (negb (is_none w) || is_none l)
  | CLambda l => loc_ok l
  | CLibUnnamed n => u32 n
  | CLibLambda f n => sigok f && negb (sig_ret f) && u32 n
  end
with pok (p : cparam) : bool :=
  match p with CPType t => tok t | CPValue v => vok v && not_a_type v end
with vok (v : cvalue) : bool :=
  match v with
  | CLiteral l => literal_ok l
  | CVar n => nok n && not_new n && match n with CName _ _ i => negb (is_operator i) end
  | CUnary s v =>
      vok v && match s with
               | AndRef | MulDeref | Not => true
               | AddPlus | SubNeg => no_sign v       (* else `--v` and `-1` are taken for something else *)
               | _ => false
               end
  | CStep _ v => vok v
  | CCast t v => tok t && vok v
  | CGroup v => vok v && unmistakable v
  | CSizeof _ t => tok t
  | CExpr v ts =>
      vok v && forallb aok ts && fewer ts 6 && last_last ts && members_apart ts &&
      match ts with [] => false | _ => true end &&
      match v with
      | CLiteral _ | CSizeof _ _ => true
      | CVar _ => after_name ts
      | CGroup w => is_none (as_type w)            (* `(a) + b` is taken for a cast *)
      | _ => false
      end
  end
with aok (a : cafter) : bool :=
  match a with
  | CIndex v => vok v
  | CCall args => forallb vok args && fewer args 6
  | CMember i => idok i && negb (is_operator i)
  | CDots => true
  | CPost _ => true
  | CBinary op v =>
      vok v && binary_ok op &&
      match op with CbArrow _ => match v with CVar _ | CExpr (CVar _) _ => true | _ => false end | _ => true end
  | CTernary v w => vok v && vok w && before_colon v
  end
with opok (o : cop) : bool :=
  match o with
  | CCv c => negb (no_cv c)
  | CPtr path _ _ _ =>
      forallb sok path && fewer path 8 && match path with s :: _ => starts_path s | [] => true end
  | CRef _ _ => true
  | CArr v _ => opt_ok vok v
  | CFun f _ => sigok f
  | CParen ops =>
      forallb opok ops && all_apart ops && fewer ops 8 && match ops with [] => false | _ => true end
  end
with sigok (f : csig) : bool :=
  match f with
  | CSig params variadic _ _ noexcept ret =>
      forallb tok params && fewer params 8 && (negb variadic || match params with [] => false | _ => true end) &&
      opt_ok (opt_ok vok) noexcept && opt_ok tok ret
  end.

(** A whole name may also end with an operator: `std::operator<<<char>` *)
Definition core_ok (t : ctype) : bool :=
  tok t || match t with CType _ b [] => bok b | _ => false end.

(** Model of the parsed C++ entities and of their display (cpparser/src: display.rs,
    interning/slice.rs and the Display code of subparsers).

    The keys of the code are replaced by what they stand for, so that an entity is a tree.
    See Cpp_Lex_Model.v for the general simplifications. *)
From Coq Require Import Ascii String.
From Verif Require Import Base Cpp_Lex_Model.
Local Open Scope nat_scope.
Local Open Scope bool_scope.
Local Open Scope list_scope.

(** ** Entities *)

(** anonymous.rs:254-266: file (components as interned, see [intern_path]), line, column *)
Record source_location := mk_loc { loc_file : list str; loc_line : Z; loc_column : Z }.

Inductive type_like :=                          (* types/mod.rs:94-103 *)
| TypeLike (attributes : list value_like) (spec : type_specifier) (decl : list decl_operator)
with type_specifier :=                          (* types/specifiers/mod.rs:90-96 *)
| TypeSpec (c : cv) (st : simple_type)
with simple_type :=                             (* types/specifiers/mod.rs:161-170 *)
| STId (i : id_expression)
| STLegacy (n : legacy_name)
| STAuto (u : Z)
with decl_operator :=                           (* types/declarators.rs:187-217 *)
| DCv (c : cv)
| DPointer (path : nested_name) (c : cv) (restrict : bool)
| DRef (r : reference)
| DArray (v : option value_like)
| DFunction (f : fn_signature)
| DParen (d : list decl_operator)
| DVector (v : value_like)
with value_like :=                              (* values/mod.rs:281-288 *)
| Value (header : value_header) (trailer : list after_value)
with value_header :=                            (* values/mod.rs:365-389 *)
| VHLiteral (l : literal)
| VHParen (v : value_like)
| VHUnary (op : operator type_like) (v : value_like)
| VHNew (n : new_expression)
| VHId (i : id_expression)
| VHEllipsis
| VHSizeOf (t : type_like)
| VHDeclVal (t : type_like)
with new_expression :=                          (* operators/usage.rs:174-187 *)
| NewExpr (rooted : bool) (placement : option (list value_like)) (t : type_like)
          (constructor : option (list value_like))
with after_value :=                             (* values/mod.rs:517-538 *)
| AVIndex (v : value_like)
| AVCall (args : list value_like)
| AVBinary (op : operator type_like) (v : value_like)
| AVTernary (v1 v2 : value_like)
| AVMember (u : unqualified_id)
| AVPostfix (op : operator type_like)
| AVEllipsis
with id_expression :=                           (* names/scopes.rs:229-235 *)
| IdExpr (path : nested_name) (id : unqualified_id)
with nested_name :=                             (* names/scopes.rs:290-296 *)
| Nested (rooted : bool) (scopes : list scope)
with scope :=                                   (* names/scopes.rs:376-383 *)
| Scope (id : unqualified_id) (f : option fn_signature)
with unqualified_id :=                          (* names/unqualified.rs:106-133 *)
| UNamed (is_destructor : bool) (id : str) (tp : option template_parameters)
| UOperator (op : operator type_like) (tp : option template_parameters)
| UDecltype (v : value_like)
| UAnonymous (a : anonymous)
with template_parameters :=                     (* templates.rs:145; TPInvalid is `<, void>` *)
| TPInvalid
| TPList (l : list template_parameter)
with template_parameter :=                      (* templates.rs:198-204 *)
| TPType (t : type_like)
| TPValue (v : value_like)
with fn_signature :=                            (* functions.rs:264-287, 436-442 *)
| FnSig (abi : option str) (params : list type_like) (variadic : bool) (c : cv) (r : reference)
        (noexcept : option (option value_like)) (trailing_return : option type_like)
with anonymous :=                               (* anonymous.rs:175-187, 310, 347-353, 412-418, 474 *)
| AClangLambda (l : source_location)
| AClangOther (id : option str) (l : option source_location)
| ALibLambda (f : fn_signature) (id : Z)
| ALibUnnamed (id : Z).

(** lib.rs:226: None is clang's `<unknown>` *)
Definition entity := option type_like.

(** ** Rendering *)

(** What a rendering does, in order: write text, enter and leave a recursion level
    (DisplayState::recurse and the drop of its guard, display.rs:118-146). *)
Inductive event := EText (s : str) | EEnter | ELeave.

(** display.rs:89-96: the state is `max_recursion`, the levels that may still be entered *)
Definition state := N.
Definition render := state -> list event * state.

Definition write (s : str) : render := fun st => ([EText s], st).
Definition writes (s : string) : render := write (of_string s).
Definition nothing : render := fun st => ([], st).
Definition andthen (a b : render) : render :=
  fun st => let (e1, st1) := a st in let (e2, st2) := b st1 in (e1 ++ e2, st2).
Infix ">>" := andthen (at level 61, right associativity).
Definition when (b : bool) (a : render) : render := if b then a else nothing.
Definition opt_render {A} (f : A -> render) (o : option A) : render :=   (* display.rs:79-85 *)
  match o with Some a => f a | None => nothing end.

(** display.rs:113-115 *)
Definition can_recurse (st : state) : bool := N.ltb 0 st.
Definition if_can (yes no : render) : render := fun st => if can_recurse st then yes st else no st.
(** display.rs:118-127 with the guard living to the end of [yes] (Drop, display.rs:141-146) *)
Definition with_guard (yes no : render) : render :=
  fun st => if can_recurse st
            then let (e, st') := yes (st - 1)%N in (EEnter :: e ++ [ELeave], (st' + 1)%N)
            else no st.

(** interning/slice.rs:120-126 *)
Fixpoint items_render (sep : str) (items : list render) : render :=
  match items with
  | [] => nothing
  | [i] => i
  | i :: rest => i >> write sep >> items_render sep rest
  end.
(** interning/slice.rs:117-131 *)
Definition slice_render (header sep trailer : string) (items : list render) : render :=
  writes header >>
  with_guard (items_render (of_string sep) items)
             (match items with [] => nothing | _ => write [ellipsis] end) >>
  writes trailer.

(** interning/slice.rs:110-115 *)
Definition slice_depth (depths : list N) : N :=
  fold_right (fun d m => N.max (d + 1) m) 0%N depths.
Definition opt_depth {A} (f : A -> N) (o : option A) : N :=              (* display.rs:73-77 *)
  match o with Some a => f a | None => 0%N end.

Section Display.
  Variable verbatim : chr -> bool.               (* see [debug_char] *)

  Definition is_decl (c : op_context) : bool := match c with Declaration => true | _ => false end.
  Definition is_prefix (c : op_context) : bool := match c with PrefixUsage => true | _ => false end.
  Definition is_binary (c : op_context) : bool := match c with BinaryUsage => true | _ => false end.

  (** operators/mod.rs:179-274 *)
  Definition op_render (ty : type_like -> render) (op : operator type_like) (c : op_context)
    : render :=
    when (is_decl c) (writes "operator") >>
    match op with
    | OBasic s twice equal =>
        when (is_binary c) (writes " ") >> write (show_sym s) >> when twice (write (show_sym s)) >>
        when equal (writes "=") >> when (is_binary c) (writes " ")
    | ODeref star => writes "->" >> when star (writes "*")
    | OSpaceship =>
        when (is_binary c) (writes " ") >> writes "<=>" >> when (is_binary c) (writes " ")
    | OCallIndex is_index => if is_index then writes "[]" else writes "()"
    | OCustomLiteral id =>
        when (is_decl c) (write [34; 34; 32]%N) >> write id            (* two quotes, space *)
    | ONewDelete is_delete array =>
        when (is_decl c) (writes " ") >> (if is_delete then writes "delete" else writes "new") >>
        when array (writes "[]") >> when (is_prefix c) (writes " ")
    | OCoAwait =>
        when (is_decl c) (writes " ") >> writes "co_await" >> when (is_prefix c) (writes " ")
    | OConversion t =>
        (if is_decl c then writes " " else if is_prefix c then writes "(" else nothing) >>
        ty t >> when (is_prefix c) (writes ")")
    end.
  (** operators/mod.rs:165-176 *)
  Definition op_depth (ty : type_like -> N) (op : operator type_like) : N :=
    match op with OConversion t => ty t | _ => 0%N end.

  (** asylum/src/path.rs:137-143, 156-160: the root component is "/", the others are names *)
  Fixpoint join_names (l : list str) : str :=
    match l with
    | [] => []
    | [n] => n
    | n :: rest => n ++ [slash] ++ join_names rest
    end.
  Definition show_path (l : list str) : str :=
    match l with [] => [] | root :: names => root ++ join_names names end.

  (** anonymous.rs:300-306 *)
  Definition show_location (l : source_location) : str :=
    show_path (loc_file l) ++ of_string ":" ++ show_int (loc_line l) ++ of_string ":" ++
    show_int (loc_column l).

  Fixpoint type_render (t : type_like) : render :=                  (* types/mod.rs:163-176 *)
    match t with
    | TypeLike attributes spec decl =>
        match attributes with
        | [] => nothing
        | _ => writes "__attribute__(" >>
               slice_render "(" ", " ")" (map value_render attributes) >> writes ") "
        end >>
        spec_render spec >>
        match decl with
        | [] => nothing
        | _ => slice_render "" "" "" (map decl_op_render decl)
        end
    end
  with spec_render (t : type_specifier) : render :=                 (* specifiers/mod.rs:150-156 *)
    match t with
    | TypeSpec c st =>
        when (negb (cv_is_default c)) (write (show_cv c) >> writes " ") >> simple_render st
    end
  with simple_render (t : simple_type) : render :=                  (* specifiers/mod.rs:223-229 *)
    match t with
    | STId i => id_render i
    | STLegacy n => write (show_legacy n)
    | STAuto u => writes "auto:" >> write (show_int u)
    end
  with decl_op_render (d : decl_operator) : render :=               (* declarators.rs:309-347 *)
    match d with
    | DCv c => writes " " >> write (show_cv c)
    | DPointer path c restrict =>
        match path with
        | Nested false [] => nothing
        | _ => writes " " >> nested_render path
        end >>
        writes "*" >>
        when (negb (cv_is_default c)) (writes " " >> write (show_cv c)) >>
        when restrict (writes " restrict")
    | DRef r => write (show_reference r)
    | DArray a => writes "[" >> opt_render value_render a >> writes "]"
    | DFunction f => sig_render f
    | DParen d => writes " (" >> slice_render "" "" "" (map decl_op_render d) >> writes ")"
    | DVector v => writes " __vector(" >> value_render v >> writes ")"
    end
  with value_render (v : value_like) : render :=                    (* values/mod.rs:343-346 *)
    match v with
    | Value header trailer =>
        header_render header >> slice_render "" "" "" (map after_render trailer)
    end
  with header_render (h : value_header) : render :=                 (* values/mod.rs:481-508 *)
    match h with
    | VHLiteral l => write (show_literal verbatim l)
    | VHParen v => writes "(" >> value_render v >> writes ")"
    | VHUnary op v => op_render type_render op PrefixUsage >> value_render v
    | VHNew n => new_render n
    | VHId i => id_render i
    | VHEllipsis => writes "..."
    | VHSizeOf t => writes "sizeof" >> writes "(" >> type_render t >> writes ")"
    | VHDeclVal t => writes "declval" >> writes "(" >> type_render t >> writes ")"
    end
  with new_render (n : new_expression) : render :=                  (* operators/usage.rs:261-270 *)
    match n with
    | NewExpr rooted placement t constructor =>
        when rooted (writes "::") >> writes "new" >>
        opt_render (fun l => slice_render "(" ", " ")" (map value_render l)) placement >>
        writes " " >> type_render t >>
        opt_render (fun l => slice_render "(" ", " ")" (map value_render l)) constructor
    end
  with after_render (a : after_value) : render :=                   (* values/mod.rs:609-635 *)
    match a with
    | AVIndex v => writes "[" >> value_render v >> writes "]"
    | AVCall args => slice_render "(" ", " ")" (map value_render args)
    | AVBinary op v => op_render type_render op BinaryUsage >> value_render v
    | AVTernary v1 v2 => writes " ? " >> value_render v1 >> writes " : " >> value_render v2
    | AVMember u => writes "." >> unqualified_render u
    | AVPostfix op => op_render type_render op PostfixUsage
    | AVEllipsis => writes "..."
    end
  with id_render (i : id_expression) : render :=                    (* names/scopes.rs:282-285 *)
    match i with IdExpr path id => nested_render path >> unqualified_render id end
  with nested_render (n : nested_name) : render :=                  (* names/scopes.rs:350-360 *)
    match n with
    | Nested rooted scopes =>
        if_can (when rooted (writes "::") >> slice_render "" "" "" (map scope_render scopes))
               (match scopes with [] => nothing | _ => write (ellipsis :: of_string "::") end)
    end
  with scope_render (s : scope) : render :=                         (* names/scopes.rs:440-444 *)
    match s with
    | Scope id f => unqualified_render id >> opt_render sig_render f >> writes "::"
    end
  with unqualified_render (u : unqualified_id) : render :=          (* names/unqualified.rs:248-276 *)
    match u with
    | UNamed is_destructor id tp =>
        when is_destructor (writes "~") >> write id >> opt_render template_render tp
    | UOperator op tp =>
        op_render type_render op Declaration >> opt_render template_render tp
    | UDecltype v => writes "decltype(" >> value_render v >> writes ")"
    | UAnonymous a => anonymous_render a
    end
  with template_render (t : template_parameters) : render :=        (* templates.rs:177-185 *)
    match t with
    | TPInvalid => with_guard (writes "<, void>") (write [60; ellipsis; 62]%N)   (* <…> *)
    | TPList l => slice_render "<" ", " ">" (map param_render l)
    end
  with param_render (p : template_parameter) : render :=            (* templates.rs:240-245 *)
    match p with TPType t => type_render t | TPValue v => value_render v end
  with sig_render (f : fn_signature) : render :=                    (* functions.rs:383-420 *)
    match f with
    | FnSig abi params variadic c r noexcept trailing_return =>
        opt_render (fun a => writes "[abi:" >> write a >> writes "]") abi >>
        slice_render "(" ", " "" (map type_render params) >>
        if_can (when variadic (writes ", ...")) nothing >>
        writes ")" >>
        when (negb (cv_is_default c)) (writes " " >> write (show_cv c)) >>
        when (negb (ref_is_none r)) (writes " " >> write (show_reference r)) >>
        opt_render (fun o => writes " noexcept" >>
                    opt_render (fun v => writes "(" >> value_render v >> writes ")") o) noexcept >>
        opt_render (fun t => writes " -> " >> type_render t) trailing_return
    end
  with anonymous_render (a : anonymous) : render :=                 (* anonymous.rs:242-249 *)
    match a with
    | AClangLambda l =>                                             (* anonymous.rs:339-343 *)
        write (of_string "(lambda at " ++ show_location l ++ of_string ")")
    | AClangOther id l =>                                           (* anonymous.rs:457-470 *)
        writes "(anonymous" >>
        match id with
        | Some i => writes " " >> write i
        | None => when (match l with Some _ => true | None => false end) (writes " entity")
        end >>
        opt_render (fun l => writes " at " >> write (show_location l)) l >>
        writes ")"
    | ALibLambda f id =>                                            (* anonymous.rs:398-402 *)
        writes "{lambda" >> sig_render f >> writes "#" >> write (show_int id) >> writes "}"
    | ALibUnnamed id => writes "{unnamed type#" >> write (show_int id) >> writes "}"   (* :476-480 *)
    end.

  (** lib.rs:254-260 *)
  Definition entity_render (e : entity) : render :=
    match e with Some t => type_render t | None => writes "<unknown>" end.

  (** `CustomDisplay::recursion_depth` of the same types *)
  Fixpoint type_depth (t : type_like) : N :=                        (* types/mod.rs:156-161 *)
    match t with
    | TypeLike attributes spec decl =>
        N.max (N.max (slice_depth (map value_depth attributes)) (spec_depth spec))
              (slice_depth (map decl_op_depth decl))
    end
  with spec_depth (t : type_specifier) : N :=                       (* specifiers/mod.rs:146-148 *)
    match t with TypeSpec _ st => simple_depth st end
  with simple_depth (t : simple_type) : N :=                        (* specifiers/mod.rs:215-221 *)
    match t with STId i => id_depth i | STLegacy _ => 0%N | STAuto _ => 0%N end
  with decl_op_depth (d : decl_operator) : N :=                     (* declarators.rs:297-307 *)
    match d with
    | DCv _ => 0%N
    | DPointer path _ _ => nested_depth path
    | DRef _ => 0%N
    | DArray a => opt_depth value_depth a
    | DFunction f => sig_depth f
    | DParen d => slice_depth (map decl_op_depth d)
    | DVector v => value_depth v
    end
  with value_depth (v : value_like) : N :=                          (* values/mod.rs:337-341 *)
    match v with
    | Value header trailer =>
        N.max (header_depth header) (slice_depth (map after_depth trailer))
    end
  with header_depth (h : value_header) : N :=                       (* values/mod.rs:468-479 *)
    match h with
    | VHLiteral _ => 0%N
    | VHParen v => value_depth v
    | VHUnary op v => N.max (op_depth type_depth op) (value_depth v)
    | VHNew n => new_depth n
    | VHId i => id_depth i
    | VHEllipsis => 0%N
    | VHSizeOf t => type_depth t
    | VHDeclVal t => type_depth t
    end
  with new_depth (n : new_expression) : N :=                        (* operators/usage.rs:254-259 *)
    match n with
    | NewExpr _ placement t constructor =>
        N.max (N.max (opt_depth (fun l => slice_depth (map value_depth l)) placement)
                     (type_depth t))
              (opt_depth (fun l => slice_depth (map value_depth l)) constructor)
    end
  with after_depth (a : after_value) : N :=                         (* values/mod.rs:597-607 *)
    match a with
    | AVIndex v => value_depth v
    | AVCall args => slice_depth (map value_depth args)
    | AVBinary op v => N.max (op_depth type_depth op) (value_depth v)
    | AVTernary v1 v2 => N.max (value_depth v1) (value_depth v2)
    | AVMember u => unqualified_depth u
    | AVPostfix op => op_depth type_depth op
    | AVEllipsis => 0%N
    end
  with id_depth (i : id_expression) : N :=                          (* names/scopes.rs:276-280 *)
    match i with IdExpr path id => N.max (nested_depth path) (unqualified_depth id) end
  with nested_depth (n : nested_name) : N :=                        (* names/scopes.rs:346-348 *)
    match n with Nested _ scopes => slice_depth (map scope_depth scopes) end
  with scope_depth (s : scope) : N :=                               (* names/scopes.rs:436-438 *)
    match s with Scope id f => N.max (unqualified_depth id) (opt_depth sig_depth f) end
  with unqualified_depth (u : unqualified_id) : N :=                (* names/unqualified.rs:230-246 *)
    match u with
    | UNamed _ _ tp => opt_depth template_depth tp
    | UOperator op tp => N.max (op_depth type_depth op) (opt_depth template_depth tp)
    | UDecltype v => value_depth v
    | UAnonymous a => anonymous_depth a
    end
  with template_depth (t : template_parameters) : N :=              (* templates.rs:169-175 *)
    match t with TPInvalid => 1%N | TPList l => slice_depth (map param_depth l) end
  with param_depth (p : template_parameter) : N :=                  (* templates.rs:233-238 *)
    match p with TPType t => type_depth t | TPValue v => value_depth v end
  with sig_depth (f : fn_signature) : N :=                          (* functions.rs:376-381 *)
    match f with
    | FnSig _ params _ _ _ noexcept trailing_return =>
        N.max (N.max (slice_depth (map type_depth params))
                     (opt_depth (opt_depth value_depth) noexcept))
              (opt_depth type_depth trailing_return)
    end
  with anonymous_depth (a : anonymous) : N :=                       (* anonymous.rs:232-240 *)
    match a with ALibLambda f _ => sig_depth f | _ => 0%N end.

  (** lib.rs:250-252 *)
  Definition entity_depth (e : entity) : N := opt_depth type_depth e.

  (** The text written by a rendering *)
  Fixpoint text (es : list event) : str :=
    match es with
    | [] => []
    | EText s :: es' => s ++ text es'
    | _ :: es' => text es'
    end.
  (** `format!("{}", x.display(&DisplayState::new(d)))` *)
  Definition entity_at (e : entity) (d : N) : str := text (fst (entity_render e d)).
  (** `x.to_string()`: display.rs:98-104 starts from usize::MAX *)
  Definition full_depth : N := N.ones 64.
  Definition entity_full (e : entity) : str := entity_at e full_depth.

  Section Bounded.
    Variable width : str -> N.                   (* UnicodeWidthStr::width *)

    (** display.rs:38-51: the loop from [d], [k] depths remaining after it *)
    Fixpoint bounded_loop (at_depth : N -> str) (max_cols : N) (k : nat) (d : N) (prev : str)
      : str :=
      let curr := at_depth d in
      if N.ltb max_cols (width curr) then prev
      else match k with
           | O => curr
           | S k' => bounded_loop at_depth max_cols k' (d + 1)%N curr
           end.
    (** display.rs:34-53 *)
    Definition bounded_display (e : entity) (max_cols : N) : outcome str :=
      if N.leb 1 max_cols
      then Ret (bounded_loop (entity_at e) max_cols (N.to_nat (entity_depth e)) 0%N [ellipsis])
      else Panic.
  End Bounded.
End Display.

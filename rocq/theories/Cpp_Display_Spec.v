(** Vocabulary to state the display properties. *)
From Coq Require Import Ascii String.
From Verif Require Import Base Cpp_Lex_Model Cpp_Ast_Model.
Local Open Scope nat_scope.
Local Open Scope bool_scope.
Local Open Scope list_scope.

(** ** Balanced recursion: counting what a rendering does *)

Fixpoint enters (es : list event) : nat :=
  match es with [] => 0 | EEnter :: r => S (enters r) | _ :: r => enters r end.
Fixpoint leaves (es : list event) : nat :=
  match es with [] => 0 | ELeave :: r => S (leaves r) | _ :: r => leaves r end.
(** At every moment, no more levels were left than entered, and at most [d] are open; at the
    end none is. *)
Definition well_nested (d : N) (es : list event) : Prop :=
  enters es = leaves es /\
  forall past future, es = past ++ future ->
    leaves past <= enters past /\ (N.of_nat (enters past) <= N.of_nat (leaves past) + d)%N.

(** ** Widths *)

(** `UnicodeWidthStr::width` is the sum of the widths of the characters *)
Definition width_of (cw : chr -> N) (s : str) : N := fold_right (fun c w => cw c + w)%N 0%N s.
(** What is needed of the table of widths *)
Definition terminal_widths (cw : chr -> N) : Prop :=
  cw ellipsis = 1%N /\ forall c, (32 <= c < 127)%N -> cw c = 1%N.

(** ** Properties of all the parts of an entity *)

Section Everywhere.
  (** To be true of every identifier, declarator operator, scoped name and signature *)
  Variable id_ok : str -> bool.
  Variable decl_ok : decl_operator -> bool.
  Variable path_ok : nested_name -> bool.
  Variable sig_ok : fn_signature -> bool.

  Definition opt_all {A} (f : A -> bool) (o : option A) : bool :=
    match o with Some a => f a | None => true end.
  Definition op_all (ty : type_like -> bool) (op : operator type_like) : bool :=
    match op with OConversion t => ty t | OCustomLiteral i => id_ok i | _ => true end.

  Fixpoint type_all (t : type_like) : bool :=
    match t with
    | TypeLike a s d => forallb value_all a && spec_all s && forallb decl_all d
    end
  with spec_all (t : type_specifier) : bool :=
    match t with TypeSpec _ st => simple_all st end
  with simple_all (t : simple_type) : bool :=
    match t with STId i => idexpr_all i | _ => true end
  with decl_all (d : decl_operator) : bool :=
    decl_ok d &&
    match d with
    | DPointer path _ _ => nested_all path
    | DArray v => opt_all value_all v
    | DFunction f => sig_all f
    | DParen l => forallb decl_all l
    | DVector v => value_all v
    | _ => true
    end
  with value_all (v : value_like) : bool :=
    match v with Value h t => header_all h && forallb after_all t end
  with header_all (h : value_header) : bool :=
    match h with
    | VHParen v => value_all v
    | VHUnary op v => op_all type_all op && value_all v
    | VHNew n => new_all n
    | VHId i => idexpr_all i
    | VHSizeOf t => type_all t
    | VHDeclVal t => type_all t
    | VHLiteral _ => true
    | VHEllipsis => true
    end
  with new_all (n : new_expression) : bool :=
    match n with
    | NewExpr _ p t c =>
        opt_all (forallb value_all) p && type_all t && opt_all (forallb value_all) c
    end
  with after_all (a : after_value) : bool :=
    match a with
    | AVIndex v => value_all v
    | AVCall l => forallb value_all l
    | AVBinary op v => op_all type_all op && value_all v
    | AVTernary v1 v2 => value_all v1 && value_all v2
    | AVMember u => unqualified_all u
    | AVPostfix op => op_all type_all op
    | AVEllipsis => true
    end
  with idexpr_all (i : id_expression) : bool :=
    match i with IdExpr path u => nested_all path && unqualified_all u end
  with nested_all (n : nested_name) : bool :=
    path_ok n && match n with Nested _ scopes => forallb scope_all scopes end
  with scope_all (s : scope) : bool :=
    match s with Scope u f => unqualified_all u && opt_all sig_all f end
  with unqualified_all (u : unqualified_id) : bool :=
    match u with
    | UNamed _ i tp => id_ok i && opt_all template_all tp
    | UOperator op tp => op_all type_all op && opt_all template_all tp
    | UDecltype v => value_all v
    | UAnonymous a => anonymous_all a
    end
  with template_all (t : template_parameters) : bool :=
    match t with TPInvalid => true | TPList l => forallb param_all l end
  with param_all (p : template_parameter) : bool :=
    match p with TPType t => type_all t | TPValue v => value_all v end
  with sig_all (f : fn_signature) : bool :=
    sig_ok f &&
    match f with
    | FnSig _ params _ _ _ noexcept trailing =>
        forallb type_all params && opt_all (opt_all value_all) noexcept && opt_all type_all trailing
    end
  with anonymous_all (a : anonymous) : bool :=
    match a with ALibLambda f _ => sig_all f | _ => true end.
  Definition entity_all (e : entity) : bool := opt_all type_all e.
End Everywhere.

Definition any {A} (_ : A) : bool := true.

(** No name is rooted without scope (`::x`) and no function takes nothing but an ellipsis
    (`f(...)`): the two constructs whose recursion depth is understated. *)
Definition path_is_counted (n : nested_name) : bool :=
  match n with Nested true [] => false | _ => true end.
Definition sig_is_counted (f : fn_signature) : bool :=
  match f with FnSig _ [] true _ _ _ _ => false | _ => true end.
Definition well_counted (e : entity) : bool :=
  entity_all any any path_is_counted sig_is_counted e.

(** Identifiers are identifiers, and no declarator operator is invisible: true of every parsed
    entity, see C65. *)
Definition is_identifier (i : str) : bool :=
  match i with c :: r => is_id_start c && forallb is_id_continue r | [] => false end.
Definition is_visible (d : decl_operator) : bool := match d with DRef RNone => false | _ => true end.
Definition well_formed (e : entity) : bool :=
  entity_all is_identifier is_visible any any e.

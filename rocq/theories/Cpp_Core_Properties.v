(** C76: the names that clang writes, from the AST of [Cpp_Core_Spec.v], are read as what they
    mean, whatever their spacing, and displayed in one way, which is read as the same. *)
From Coq Require Import Ascii String.
From Verif Require Import Base Cpp_Lex_Model Cpp_Ast_Model Cpp_Parse_Model Cpp_Core_Spec Cpp_Parse_Proofs Cpp_Core_Proofs7.
Local Open Scope nat_scope.
Local Open Scope bool_scope.
Local Open Scope list_scope.
Local Notation "' s" := (of_string s) (at level 0, s at level 0).

(** Parsing the text of a core entity yields this entity, with nothing lost: the way clang
    writes it, and the way crofiler displays it. *)
Theorem C76_core_text_is_read : forall t,
  core_ok t = true ->
  parse_entity (written_text t) = EOk (Some (tmean t)) /\ parse_entity (displayed_text t) = EOk (Some (tmean t)).
Proof. intros t H. split; now apply core_is_read. Qed.
Print Assumptions C76_core_text_is_read.

(** Displaying it yields the expected text, at every recursion depth larger than the entity's own. *)
Theorem C76_core_entity_is_displayed : forall verbatim t d,
  (forall c, (32 <= c < 127)%N -> verbatim c = true) ->
  core_ok t = true -> (entity_depth (Some (tmean t)) < d)%N ->
  entity_at verbatim (Some (tmean t)) d = displayed_text t.
Proof.
  intros vb t d H. apply core_is_displayed. intros c Hc. apply H. unfold printable in Hc.
  apply andb_true_iff in Hc as [H1 H2]. apply N.leb_le in H1. apply N.ltb_lt in H2. now split.
Qed.
Print Assumptions C76_core_entity_is_displayed.

(** So what clang wrote is displayed in full with crofiler's own spacing, and nothing else
    changes. *)
Theorem C76_written_is_displayed : forall verbatim t e,
  (forall c, (32 <= c < 127)%N -> verbatim c = true) ->
  core_ok t = true -> (entity_depth (Some (tmean t)) < full_depth)%N ->
  parse_entity (written_text t) = EOk e -> entity_full verbatim e = displayed_text t.
Proof.
  intros vb t e H Ht Hd He. destruct (C76_core_text_is_read t Ht) as [E _]. rewrite E in He.
  injection He as <-. now apply C76_core_entity_is_displayed.
Qed.
Print Assumptions C76_written_is_displayed.

(** And what is displayed in full can be parsed again, and gives the same entity. *)
Theorem C76_displayed_core_is_read_back : forall verbatim t,
  (forall c, (32 <= c < 127)%N -> verbatim c = true) ->
  core_ok t = true -> (entity_depth (Some (tmean t)) < full_depth)%N ->
  parse_entity (entity_full verbatim (Some (tmean t))) = EOk (Some (tmean t)).
Proof.
  intros vb t H Ht Hd. unfold entity_full. rewrite C76_core_entity_is_displayed by assumption.
  now apply (C76_core_text_is_read t Ht).
Qed.
Print Assumptions C76_displayed_core_is_read_back.

(** Two entities that differ are displayed differently. *)
Theorem C76_same_text_same_entity : forall verbatim t u,
  (forall c, (32 <= c < 127)%N -> verbatim c = true) ->
  core_ok t = true -> core_ok u = true ->
  (entity_depth (Some (tmean t)) < full_depth)%N -> (entity_depth (Some (tmean u)) < full_depth)%N ->
  entity_full verbatim (Some (tmean t)) = entity_full verbatim (Some (tmean u)) ->
  tmean t = tmean u.
Proof.
  intros vb t u H Ht Hu Hdt Hdu E.
  pose proof (C76_displayed_core_is_read_back vb t H Ht Hdt) as Rt.
  pose proof (C76_displayed_core_is_read_back vb u H Hu Hdu) as Ru.
  rewrite E, Ru in Rt. now injection Rt.
Qed.
Print Assumptions C76_same_text_same_entity.

(** Clang's placeholder for what it cannot name is an entity of its own, shown as it is at
    every depth. *)
Theorem C76_unknown_entity : forall verbatim s d,
  (parse_entity s = EOk None <-> s = '"<unknown>") /\ entity_at verbatim None d = '"<unknown>".
Proof.
  intros vb s d. split; [split|].
  - unfold parse_entity, parse_entity_n. generalize (S (List.length s)) as n. intros n.
    unfold terminated, por, pvalue, pmap, pand. destruct (r_type (env_n n) s) as [r t| | |]; cbn [pbind].
    + destruct (eof r); cbn [pbind fst]; discriminate.
    + unfold parse_unknown_entity, tag. destruct (strip_tag ('"<unknown>") s) as [r|] eqn:E; cbn [pbind]; [|discriminate].
      destruct r as [|c r]; cbn [eof pbind]; [|discriminate]. intros _. apply strip_tag_spec in E. now rewrite app_nil_r in E.
    + discriminate.
    + discriminate.
  - intros ->. vm_compute. reflexivity.
  - reflexivity.
Qed.
Print Assumptions C76_unknown_entity.

(** It is not true of everything that the parser accepts: two references, two minus signs, a
    minus sign before a number and an ellipsis without parameter are displayed as something
    else. *)
Theorem C76_round_trip_refuted : forall s,
  In s ['"int& &"; '"a<- -b>"; '"a<- 1>"; '"f(...)"] ->
  exists e, parse_entity s = EOk e /\ parse_entity (entity_full printable e) <> EOk e.
Proof.
  intros s H. cbn [In] in H.
  repeat (destruct H as [<-|H]; [eexists; split; [vm_compute; reflexivity|vm_compute; discriminate]|]).
  destruct H.
Qed.
Print Assumptions C76_round_trip_refuted.

(** A case with all constructs of the core *)
Definition word (s : string) : cid := CWord false (of_string s) None.
Definition named (n : cname) : cbase := CNamed None n.
Definition plain (s : string) : ctype := CType cv_default (named (CName false [] (word s))) [].
Definition file : clocation := mk_cloc ['"usr"; '"a b.cpp"] 12 34.
Definition tight : layout := mk_layout false true false false false.   (* no space before Class:: *)
Definition clang : layout := mk_layout true true true true false.      (* T *const __restrict *)
Definition late : layout := mk_layout true false false true true.      (* T * __restrict const *)
Definition bare : layout := mk_layout false false false false false.
Definition big : ctype :=
  CType (mk_cv true false)
    (named (CName true
       [CScope (word "std") None;
        CScope (CWord false '"map"
          (Some [CPType (CType cv_default (CBuiltin UnsignedLongLong) [CPtr [] cv_const true clang; CRef true clang]);
                 CPType (CType cv_default (CBuiltin Float) [CPtr [] cv_const true late]);
                 CPType (CType cv_default (CNamed (Some KEnum) (CName false [] (word "Color"))) [CFun (CSig [] false cv_default RNone None None) clang]);
                 CPValue (CLiteral (mk_literal (LI64 (-5)) (Some '"_km")));
                 CPValue (CLiteral (mk_literal (LChar 39%N) None));
                 CPValue (CCast (plain "E") (CLiteral (mk_literal (LI64 3) None)));
                 CPValue (CUnary AndRef (CVar (CName false [CScope (word "N") None] (word "v"))));
                 CPValue (CGroup (CSizeof false (CType cv_default (CAuto 7) [])));
                 CPType (CType cv_default (named (CName false [] (CLambda file))) [])]))
          (Some (CSig [plain "T"; CType cv_default (CBuiltin SignedInt) [CArr None clang]] true cv_const RRValue
                   (Some (Some (CVar (CName false [] (word "true"))))) None));
        CScope (CDecltype (CVar (CName false [] (word "x")))) None;
        CScope (CAnonymous true (Some '"class") (Some file)) None;
        CScope (CAnonymous false None None) None]
       (COperator (CoSymbol AddPlus true false) None)))
    [CFun (CSig [] false cv_default RNone None
       (Some (CType cv_default (CBuiltin Double)
          [CParen [CPtr [CScope (word "Class") None] cv_volatile false tight; CArr (Some (CLiteral (mk_literal (LI64 4) None))) bare];
           CFun (CSig [plain "U"] false cv_default RNone None None) bare]))) bare].
Example C76_witness :
  tok big = true /\ entity_depth (Some (tmean big)) = 4%N /\
  written_text big =
    '"const ::std::map<unsigned long long *const __restrict &&, float * __restrict const, enum Color (), -5_km, '\'', (E)3, &N::v, (sizeof(auto:7)), (lambda at /usr/a b.cpp:12:34)>(T, int [], ...) const && noexcept(true)::decltype(x)::(unnamed class at /usr/a b.cpp:12:34)::(anonymous)::operator++() -> double (Class::* volatile[4])(U)" /\
  displayed_text big =
    '"const ::std::map<unsigned long long* const restrict&&, float* const restrict, Color(), -5_km, '\'', (E)3, &N::v, (sizeof(auto:7)), (lambda at /usr/a b.cpp:12:34)>(T, int[], ...) const && noexcept(true)::decltype(x)::(anonymous class at /usr/a b.cpp:12:34)::(anonymous)::operator++() -> double ( Class::* volatile[4])(U)" /\
  parse_entity (written_text big) = EOk (Some (tmean big)) /\
  entity_full printable (Some (tmean big)) = displayed_text big.
Proof. vm_compute. repeat split. Qed.

(** A case with expressions *)
Definition var (s : string) : cvalue := CVar (CName false [] (word s)).
Definition int_of (z : Z) : cvalue := CLiteral (mk_literal (LI64 z) None).
Definition op1 (s : sym) (v : cvalue) : cafter := CBinary (CbSymbol s false false) v.
Definition expressions : ctype :=
  CType cv_default
    (named (CName false
       [CScope (CDecltype (CExpr (CVar (CName false [] (CWord false '"declval" (Some [CPType (plain "T")]))))
          [CCall []; CMember (word "f"); CCall [var "x"; CExpr (var "args") [CDots]]; CIndex (int_of 1);
           op1 AddPlus (CExpr (CSizeof true (plain "U")) [CMember (word "g")])])) None]
       (CWord false '"X" (Some
         [CPValue (CGroup (CExpr (var "a") [op1 AddPlus (var "b")]));
          CPValue (CExpr (int_of 3) [CBinary CbSpaceship (CExpr (CGroup (CExpr (var "n") [op1 SubNeg (var "m")])) [op1 Mod (int_of 7)])]);
          CPValue (CExpr (int_of 1) [CBinary (CbSymbol Less true false) (int_of 4)]);
          CPValue (CUnary Not (CExpr (var "p") [CBinary (CbArrow true) (CExpr (var "q") [CBinary (CbSymbol Greater false true) (int_of 0)])]))]))))
    [].
Example C76_expression_witness :
  tok expressions = true /\ entity_depth (Some (tmean expressions)) = 4%N /\
  displayed_text expressions =
    '"decltype(declval<T>().f(x, args...)[1] + declval(U).g)::X<(a + b), 3 <=> (n - m) % 7, 1 << 4, !p->*q >= 0>" /\
  parse_entity (displayed_text expressions) = EOk (Some (tmean expressions)) /\
  entity_full printable (Some (tmean expressions)) = displayed_text expressions.
Proof. vm_compute. repeat split. Qed.

(** A case with signs, increments and the names that libiberty gives *)
Definition signs : ctype :=
  CType cv_default
    (named (CName false
       [CScope (word "f") (Some (CSig [plain "T"] false cv_const RNone None None));
        CScope (CLibLambda (CSig [CType cv_default (CBuiltin SignedInt) [CPtr [] cv_default false bare]; plain "auto"] false cv_const RNone (Some None) None) 2) None;
        CScope (CLibUnnamed 17) None]
       (CWord false '"X" (Some
         [CPValue (CUnary SubNeg (var "n"));
          CPValue (CStep true (CExpr (CVar (CName false [] (CLibUnnamed 3))) [CIndex (CStep false (CUnary MulDeref (var "p")))]));
          CPValue (CUnary Not (CExpr (var "q") [CMember (word "r"); CPost true]));
          CPValue (CExpr (int_of 1) [op1 SubNeg (CUnary AddPlus (CExpr (var "i") [CPost false]))])]))))
    [].
Example C76_sign_witness :
  tok signs = true /\
  displayed_text signs = '"f(T) const::{lambda(int*, auto) const noexcept#2}::{unnamed type#17}::X<-n, --{unnamed type#3}[++*p], !q.r--, 1 - +i++>" /\
  parse_entity (displayed_text signs) = EOk (Some (tmean signs)) /\
  entity_full printable (Some (tmean signs)) = displayed_text signs.
Proof. vm_compute. repeat split. Qed.

(** A case with the ternary operator *)
Definition ternaries : ctype :=
  CType cv_default
    (named (CName false
       [CScope (CDecltype (CExpr (var "b") [CTernary (CGroup (CExpr (var "x") [op1 AddPlus (int_of 1)])) (CUnary SubNeg (var "y"))])) None]
       (CWord false '"X" (Some
         [CPValue (CExpr (int_of 1) [CBinary (CbSymbol Less false true) (CExpr (int_of 2) [CTernary (var "n") (CExpr (int_of 3) [CTernary (CSizeof false (plain "T")) (int_of 4)])])]);
          CPValue (CGroup (CExpr (var "f") [CMember (word "a"); CTernary (int_of 5) (CExpr (var "c") [CMember (word "d")])]))]))))
    [].
Example C76_ternary_witness :
  tok ternaries = true /\
  displayed_text ternaries = '"decltype(b ? (x + 1) : -y)::X<1 <= 2 ? n : 3 ? sizeof(T) : 4, (f.a ? 5 : c.d)>" /\
  parse_entity (displayed_text ternaries) = EOk (Some (tmean ternaries)) /\
  entity_full printable (Some (tmean ternaries)) = displayed_text ternaries.
Proof. vm_compute. repeat split. Qed.

(** Operators with template parameters, those that start with [<], and at the end of a name *)
Definition char_param : option (list cparam) := Some [CPType (CType cv_default (CBuiltin Char) [])].
Definition scopes_of_operators : list cscope :=
  let call := Some (CSig [plain "T"] false cv_default RNone None None) in
  [CScope (word "std") None;
   CScope (COperator (CoSymbol Less true false) char_param) call;
   CScope (COperator (CoSymbol Less true true) None) call;
   CScope (COperator (CoSymbol Less false false) char_param) call;
   CScope (COperator CoSpaceship char_param) call;
   CScope (COperator (CoArrow false) char_param) call;
   CScope (COperator (CoNew true) char_param) call].
Definition ends_with_operator (op : coperator) (tp : option (list cparam)) : ctype :=
  CType cv_default (named (CName false scopes_of_operators (COperator op tp))) [].
Example C76_operator_witness :
  let t := ends_with_operator (CoSymbol Less true false) char_param in
  let u := ends_with_operator (CoSymbol Less true false) None in
  core_ok t = true /\ core_ok u = true /\
  written_text t =
    '"std::operator<<<char>(T)::operator<<=(T)::operator<<char>(T)::operator<=><char>(T)::operator-><char>(T)::operator new[]<char>(T)::operator<<<char>" /\
  parse_entity (written_text t) = EOk (Some (tmean t)) /\ parse_entity (written_text u) = EOk (Some (tmean u)) /\
  entity_full printable (Some (tmean t)) = written_text t /\ entity_full printable (Some (tmean u)) = written_text u.
Proof. vm_compute. repeat split. Qed.

(** Round trip of the core entities, part 4: what cannot start a type or a value, and what
    cannot continue one. *)
From Coq Require Import Ascii String Permutation.
From Verif Require Import Base Cpp_Lex_Model Cpp_Ast_Model Cpp_Parse_Model Cpp_Lex_Spec
  Cpp_Display_Spec Cpp_Parse_Spec Cpp_Parse_Proofs Cpp_Parse_Proofs2 Cpp_Lex_Proofs Cpp_Lex_Proofs2
  Cpp_Lex_Proofs3 Cpp_Lex_Proofs4 Cpp_Lex_Proofs5 Cpp_Lex_Proofs6 Cpp_Core_Spec Cpp_Core_Proofs Cpp_Core_Proofs2
  Cpp_Core_Proofs3.
Local Open Scope nat_scope.
Local Open Scope bool_scope.
Local Open Scope list_scope.
Local Notation "' s" := (of_string s) (at level 0, s at level 0).

(** ** Nesting depth *)
Definition lmax {A} (f : A -> nat) (l : list A) : nat := fold_right (fun a m => Nat.max (f a) m) 0 l.
Definition omax {A} (f : A -> nat) (o : option A) : nat := match o with Some a => f a | None => 0 end.
Fixpoint tdep (t : ctype) : nat :=
  match t with CType c b ops => S (Nat.max (bdep b) (lmax opdep ops)) end
with bdep (b : cbase) : nat :=
  match b with CNamed _ n => ndep n | _ => 0 end
with ndep (n : cname) : nat :=
  match n with CName _ ss i => Nat.max (lmax sdep ss) (idep i) end
with sdep (s : cscope) : nat :=
  match s with CScope i f => Nat.max (idep i) (omax sigdep f) end
with idep (i : cid) : nat :=
  match i with
  | CWord _ _ tp | COperator _ tp => omax (lmax pdep) tp
  | CDecltype v => vdep v
  | CLibLambda f _ => sigdep f
  | _ => 0
  end
with pdep (p : cparam) : nat :=
  match p with CPType t => tdep t | CPValue v => vdep v end
with vdep (v : cvalue) : nat :=
  match v with
  | CLiteral _ => 1
  | CVar n => S (ndep n)
  | CUnary _ v => S (vdep v)
  | CStep _ v => S (vdep v)
  | CCast t v => S (Nat.max (tdep t) (vdep v))
  | CGroup v => S (vdep v)
  | CSizeof _ t => S (tdep t)
  | CExpr v ts => Nat.max (vdep v) (S (lmax adep ts))
  end
with adep (a : cafter) : nat :=
  match a with
  | CIndex v => vdep v
  | CCall args => lmax vdep args
  | CMember i => idep i
  | CDots => 0
  | CPost _ => 1
  | CBinary _ v => vdep v
  | CTernary v w => Nat.max (vdep v) (vdep w)
  end
with opdep (o : cop) : nat :=
  match o with
  | CPtr path _ _ _ => lmax sdep path
  | CArr v _ => omax vdep v
  | CFun f _ => sigdep f
  | CParen ops => S (lmax opdep ops)
  | _ => 0
  end
with sigdep (f : csig) : nat :=
  match f with
  | CSig params _ _ _ noexcept ret =>
      Nat.max (lmax tdep params) (Nat.max (omax (omax vdep) noexcept) (omax tdep ret))
  end.
Lemma lmax_in {A} (f : A -> nat) l k : lmax f l <= k -> forall a, In a l -> f a <= k.
Proof.
  unfold lmax. induction l as [|b l IH]; cbn [fold_right]; intros H a; [intros []|].
  intros [<-|Hi]; [lia|apply IH; [lia|exact Hi]].
Qed.

(** ** What cannot start a type *)
Definition bad_char (c : chr) : Prop := is_id_start c = false /\ is_space c = false /\ ~ In c '"({~:".
Definition bad_type (s : str) : Prop :=
  match s with
  | [] => True
  | c :: r => bad_char c \/ (c = 40%N /\ ~ In (head r) paren_words)
  end.
Lemma stops_bad s : stops s -> bad_type s.
Proof.
  intros [->|(c & r & -> & H)]; [exact I|]. left. cbn in H.
  repeat (destruct H as [<-|H]; [split; [reflexivity|split; [reflexivity|cbn; intuition discriminate]]|]). destruct H.
Qed.
Lemma starts_iff c s : starts c s = true <-> exists r, s = N_of_ascii c :: r.
Proof.
  destruct s as [|x s]; cbn [starts]; [split; [discriminate|intros [r H]; discriminate]|].
  rewrite N.eqb_eq. split; [intros <-; eauto|intros [r [= -> _]]; reflexivity].
Qed.
Lemma starts_not c s : not_first (N_of_ascii c) s -> starts c s = false.
Proof.
  intros H. destruct (starts c s) eqn:E; [|reflexivity]. apply starts_iff in E as [r E]. now elim (H r).
Qed.
Lemma identifier_err s : (forall c r, s = c :: r -> is_id_start c = false) -> identifier s = PErr.
Proof. intros H. destruct s as [|c s]; [reflexivity|]. cbn [identifier]. now rewrite (H c s eq_refl). Qed.

Lemma id_bad E s : bad_type s -> parse_unqualified_id E s = PErr.
Proof.
  intros H. destruct s as [|c s].
  - unfold parse_unqualified_id. cbn [starts orb]. reflexivity.
  - unfold parse_unqualified_id. destruct H as [(H1 & H2 & H3)|[-> H]].
    + rewrite !starts_not; [cbn [orb]; unfold parse_named; apply pmap_err, pand_err1, identifier_err; now intros ? ? [= <- _]|..];
        intros r [= -> _]; first [discriminate H1|apply H3; cbn; tauto].
    + change (starts "{" (40%N :: s)) with false. change (starts "(" (40%N :: s)) with true. cbn [orb].
      apply pmap_err. now apply no_anonymous.
Qed.
Lemma proto_bad E s : bad_type s -> parse_proto_id_expression E s = POk s (Nested false [], None).
Proof.
  intros H. unfold parse_proto_id_expression.
  assert (Es : strip_tag '"::" s = None).
  { destruct (strip_tag '"::" s) as [r|] eqn:Es; [|reflexivity]. apply strip_tag_spec in Es. subst s.
    destruct H as [(_ & _ & H)|[H _]]; [elim H; cbn; tauto|discriminate H]. }
  rewrite Es. cbn [proto_loop]. unfold parse_scope_or_unqualified_id. rewrite id_bad by exact H. reflexivity.
Qed.
Lemma id_expression_bad E s : bad_type s -> parse_id_expression E s = PErr.
Proof. intros H. unfold parse_id_expression. eapply map_opt_none; [now apply proto_bad|reflexivity]. Qed.

Lemma bad_head s : bad_type s -> head s = [].
Proof.
  destruct s as [|c s]; [reflexivity|]. intros [(H & _)|[-> _]]; now apply head_char.
Qed.
Lemma bad_strip s : bad_type s -> strip s = s.
Proof.
  destruct s as [|c s]; [reflexivity|]. intros [(_ & H & _)|[-> _]]; now apply strip_char.
Qed.

Definition simple_header : parser (option (unit * unit)) :=
  opt (pand (keywords_parser [("typename"%string, tt); ("class"%string, tt);
                              ("struct"%string, tt); ("enum"%string, tt);
                              ("union"%string, tt)]) multispace1).
Lemma header_none s : ~ In (head s) keyw -> simple_header s = POk s None.
Proof. intros H. unfold simple_header. apply opt_err_eq, pand_err1, keywords_head; [reflexivity|exact H]. Qed.
Lemma auto_err s : (forall r, s = '"auto:" ++ r -> exists r', r = 58%N :: r') ->
  preceded (tag "auto:") parse_u32 s = PErr.
Proof.
  intros H. destruct (tag "auto:" s) as [r u| | |] eqn:Et.
  - eapply preceded_err2; [exact Et|]. destruct u. apply tag_cases in Et. apply H in Et as [r' ->]. reflexivity.
  - now apply preceded_err1.
  - unfold tag in Et. destruct (strip_tag _ s); discriminate.
  - unfold tag in Et. destruct (strip_tag _ s); discriminate.
Qed.
Lemma simple_id E s : ~ In (head s) legw -> (forall r, s = '"auto:" ++ r -> exists r', r = 58%N :: r') ->
  ~ In (head s) keyw ->
  parse_simple_type E s = pmap STId (parse_id_expression E) s.
Proof.
  intros H1 H2 H3. unfold parse_simple_type. rewrite por_next by (apply pmap_err; now apply legacy_none).
  rewrite por_next by (apply pmap_err; now apply auto_err). fold simple_header.
  unfold preceded, pmap at 1, pand. rewrite header_none by exact H3. cbn [pbind].
  destruct (pmap STId (parse_id_expression E) s); reflexivity.
Qed.
Lemma simple_bad E s : bad_type s -> parse_simple_type E s = PErr.
Proof.
  intros H. rewrite simple_id.
  - apply pmap_err. now apply id_expression_bad.
  - rewrite bad_head by exact H. intros Hi. apply mem_iff in Hi. discriminate.
  - intros r ->. destruct H as [(H & _)|[H _]]; discriminate H.
  - rewrite bad_head by exact H. intros Hi. apply mem_iff in Hi. discriminate.
Qed.

Definition attributes (E : env) : parser (list value_like) :=
  pmap (fun o => match o with Some l => l | None => [] end)
        (opt (delimited (tag "__attribute__(") (parse_function_call E) (pchar ")"))).
Lemma attributes_none E s : head s <> '"__attribute__" -> attributes E s = POk s [].
Proof.
  intros H. unfold attributes. apply (pmap_to _ _ _ _ None); [|reflexivity]. apply opt_err_eq, delimited_err1.
  apply (head_no_tag '"__attribute__" 40%N); [now apply is_word_iff|reflexivity|reflexivity|exact H].
Qed.
(** a type, once its attributes are known to be absent *)
Lemma type_like_eq E s : head s <> '"__attribute__" -> not_white s ->
  parse_type_like E s =
  pmap (fun x => TypeLike [] (fst x) (snd x))
    (pand (terminated (parse_type_specifier E) multispace0) (parse_declarator E)) s.
Proof.
  intros H Hw. unfold parse_type_like. fold (attributes E). unfold pmap at 1, pand at 1, terminated at 1, pmap at 1, pand at 1.
  rewrite attributes_none by exact H. cbn [pbind]. rewrite ms0. cbn [pbind fst]. rewrite strip_id by exact Hw.
  unfold pmap at 1. destruct (pand (terminated (parse_type_specifier E) multispace0) (parse_declarator E) s) as [r [sp d]| | |]; reflexivity.
Qed.
Lemma type_simple_err E s : head s <> '"__attribute__" -> not_white s ->
  (exists s' c, parse_cv s = POk s' c /\ parse_simple_type E (strip s') = PErr) -> parse_type_like E s = PErr.
Proof.
  intros H Hw (s' & c & H1 & H2). rewrite type_like_eq by assumption. apply pmap_err, pand_err1, terminated_err1.
  unfold parse_type_specifier. apply pmap_err. eapply pand_err2; [|exact H2].
  eapply terminated_ok; [exact H1|apply ms0].
Qed.
Lemma type_bad E s : bad_type s -> parse_type_like E s = PErr.
Proof.
  intros H. apply type_simple_err.
  - rewrite bad_head by exact H. discriminate.
  - rewrite <- (bad_strip s H). apply strip_not_white.
  - exists s, cv_default. split; [apply cv_none; rewrite bad_head by exact H; cbn; intuition discriminate|].
    rewrite bad_strip by exact H. now apply simple_bad.
Qed.

(** ** What cannot start a value *)
Lemma tag_first c t s : not_first (N_of_ascii c) s -> tag (String c t) s = PErr.
Proof. intros H. apply tag_err. intros r E. now apply (H ('t ++ r)). Qed.
Lemma pchar_first c s : not_first (N_of_ascii c) s -> pchar c s = PErr.
Proof. intros H. destruct s as [|x s]; [reflexivity|]. apply pchar_not. intros ->. now apply (H s). Qed.

Definition lead (s : str) : Prop :=
  forall c r, s = c :: r -> is_digit c = false /\ ~ In c '"+-'".
Lemma literal_err s : lead s -> (forall w r, In w ['"u"; '"U"; '"L"; '"u8"] -> s <> w ++ 39%N :: r) ->
  parse_literal s = PErr.
Proof.
  intros H Hq. unfold parse_literal. apply pmap_err, pand_err1. unfold parse_literal_value. rewrite por_next.
  - apply pmap_err. unfold character. apply delimited_err1.
    assert (G : forall (r : str) o, opt (por (pvalue 56%N (tag "u8")) (por (pchar "u") (por (pchar "U") (pchar "L")))) s = POk r o ->
       pchar "'" r = PErr).
    { intros r o Ho. apply pchar_first. intros r' ->. unfold opt in Ho.
      destruct (por (pvalue 56%N (tag "u8")) (por (pchar "u") (por (pchar "U") (pchar "L"))) s) as [r0 a| | |] eqn:Ep; try discriminate Ho.
      - injection Ho as -> _. apply por_cases in Ep as [Ep|[_ Ep]].
        + unfold pvalue in Ep. apply pmap_cases in Ep as ([] & Ep & _). apply tag_cases in Ep. apply (Hq '"u8" r'); [cbn; tauto|exact Ep].
        + repeat (apply por_cases in Ep as [Ep|[_ Ep]]); apply pchar_cases in Ep as [Es _].
          * apply (Hq '"u" r'); [cbn; tauto|exact Es].
          * apply (Hq '"U" r'); [cbn; tauto|exact Es].
          * apply (Hq '"L" r'); [cbn; tauto|exact Es].
      - injection Ho as Ho _. destruct (H 39%N r' Ho) as [_ Hn]. apply Hn. cbn. tauto. }
    destruct (opt (por (pvalue 56%N (tag "u8")) (por (pchar "u") (por (pchar "U") (pchar "L")))) s) as [r o| | |] eqn:Eo.
    + eapply pand_err2; [exact Eo|]. now apply (G r o).
    + now apply pand_err1.
    + exfalso. unfold opt in Eo. destruct s as [|c s]; [discriminate|]. revert Eo. clear.
      unfold por, pvalue, pmap, tag, pchar, satisfy. destruct (strip_tag _ _); [discriminate|]. cbn [pbind].
      repeat (destruct (N.eqb _ c); [discriminate|]). discriminate.
    + exfalso. unfold opt in Eo. destruct s as [|c s]; [discriminate|]. revert Eo. clear.
      unfold por, pvalue, pmap, tag, pchar, satisfy. destruct (strip_tag _ _); [discriminate|]. cbn [pbind].
      repeat (destruct (N.eqb _ c); [discriminate|]). discriminate.
  - unfold integer. apply terminated_err1. destruct s as [|c s]; [reflexivity|].
    destruct (H c s eq_refl) as [Hd Hs].
    assert (N1 : N_of_ascii "-" <> c) by (intros <-; apply Hs; cbn; tauto).
    assert (N2 : N_of_ascii "+" <> c) by (intros <-; apply Hs; cbn; tauto).
    rewrite por_next; apply pmap_err.
    + unfold parse_u64. cbn [digits_loop]. now rewrite Hd.
    + unfold parse_i64, parse_sign, pmap, opt, por, pvalue, pmap. rewrite !pchar_not by congruence. cbn [pbind digits_loop].
      now rewrite Hd.
Qed.
Lemma literal_err_char c s : is_digit c = false -> is_id_start c = false -> ~ In c '"+-'" -> parse_literal (c :: s) = PErr.
Proof.
  intros H1 H2 H3. apply literal_err.
  - intros c' r [= <- _]. auto.
  - intros w r Hw E. cbn in Hw. repeat (destruct Hw as [<-|Hw]; [injection E as -> _; discriminate H2|]). destruct Hw.
Qed.
Lemma new_err E s : (forall r, s <> '"new" ++ r) -> (forall r, s <> '"::new" ++ r) -> parse_new_expression E s = PErr.
Proof.
  intros H1 H2. unfold parse_new_expression. apply pmap_err. unfold separated_pair.
  destruct (strip_tag '"::" s) as [r|] eqn:Es.
  - assert (Et : tag "::" s = POk r tt) by (unfold tag; now rewrite Es). apply strip_tag_spec in Es.
    eapply pand_err2; [apply (pmap_to _ _ s r (Some tt) true); [apply opt_ok_eq; exact Et|reflexivity]|].
    apply preceded_err1, pand_err1, tag_err. intros r' ->. now apply (H2 r').
  - assert (Et : tag "::" s = PErr) by (unfold tag; now rewrite Es).
    eapply pand_err2; [apply (pmap_to _ _ s s None false); [apply opt_err_eq; exact Et|reflexivity]|].
    apply preceded_err1, pand_err1, tag_err. exact H1.
Qed.
Lemma symbol_err c s : sym_of_chr c = None -> symbol (c :: s) = PErr.
Proof. intros H. unfold symbol, map_opt, anychar, satisfy. cbn [pbind]. now destruct (N.ltb c 128); rewrite ?H. Qed.

Definition unary_symbol : parser (operator type_like) :=
  pmap (fun s => OBasic s false false)
        (verify symbol (fun s => match s with
                                 | AddPlus | SubNeg | MulDeref | AndRef | BitNot | Not => true
                                 | _ => false
                                 end)).
Definition cast (E : env) : parser (operator type_like) :=
  pmap OConversion (delimited (then_ws "(") (r_type E) (ws_then ")")).
Lemma prefix_err E s : head s = [] -> not_first 43%N s -> not_first 45%N s -> cast E s = PErr -> unary_symbol s = PErr ->
  parse_unary_expr_prefix E s = PErr.
Proof.
  intros H1 H2 H3 H4 H5. unfold parse_unary_expr_prefix. fold unary_symbol. fold (cast E). rewrite por_next.
  - apply terminated_err1. rewrite por_next.
    + unfold co_await_op. apply pvalue_err, keyword_head; [now apply is_word_iff|rewrite H1; discriminate].
    + unfold delete_op. apply pmap_err, preceded_err1, keyword_head; [now apply is_word_iff|rewrite H1; discriminate].
  - apply terminated_err1. rewrite por_next; [exact H5|]. rewrite por_next by exact H4.
    unfold parse_increment_decrement. rewrite por_next; apply pvalue_err, tag_first; assumption.
Qed.

(** What cannot start a value *)
Definition no_value (s : str) : Prop := s = [] \/ exists c r, s = c :: r /\ In c '",>)]<=".
Lemma stops_no_value s : stops s -> no_value s.
Proof. intros [->|(c & r & -> & H)]; [now left|right]. exists c, r. split; [reflexivity|]. cbn in *. tauto. Qed.
Lemma no_value_bad s : no_value s -> bad_type s.
Proof.
  intros [->|(c & r & -> & H)]; [exact I|left]. cbn in H.
  repeat (destruct H as [<-|H]; [split; [reflexivity|split; [reflexivity|cbn; intuition discriminate]]|]). destruct H.
Qed.
Lemma header_bad E ac ag s : no_value s -> parse_value_header E ac ag s = PErr.
Proof.
  intros H. assert (Hb : bad_type s) by now apply no_value_bad.
  assert (K : forall c, ~ In c '",>)]<=" -> not_first c s).
  { intros c Hc r ->. destruct H as [H|(c' & r' & [= <- _] & H)]; [discriminate|tauto]. }
  unfold parse_value_header.
  rewrite por_next.
  2:{ apply pmap_err. destruct H as [->|(c & r & -> & H)]; [reflexivity|]. cbn in H.
      repeat (destruct H as [<-|H]; [apply literal_err_char; [reflexivity|reflexivity|cbn; intuition discriminate]|]). destruct H. }
  rewrite por_next.
  2:{ apply pmap_err, new_err; intros r ->; [apply (K 110%N) with (r := '"ew" ++ r)|apply (K 58%N) with (r := '":new" ++ r)]; (reflexivity || cbn; intuition discriminate). }
  rewrite por_next by (apply pmap_err, delimited_err1, tag_first, K; cbn; intuition discriminate).
  rewrite por_next by (apply pmap_err, delimited_err1, tag_first, K; cbn; intuition discriminate).
  rewrite por_next by (apply pmap_err; now apply id_expression_bad).
  rewrite por_next.
  2:{ apply pmap_err. unfold separated_pair. apply pand_err1, prefix_err.
      - now apply bad_head.
      - apply K. cbn. intuition discriminate.
      - apply K. cbn. intuition discriminate.
      - unfold cast. apply pmap_err, delimited_err1. unfold then_ws. apply pvalue_err, pand_err1, pchar_first, K. cbn. intuition discriminate.
      - unfold unary_symbol. apply pmap_err. destruct H as [->|(c & r & -> & H)]; [reflexivity|]. cbn in H.
        repeat (destruct H as [<-|H]; [reflexivity|]). destruct H. }
  rewrite por_next.
  2:{ apply pmap_err, delimited_err1. unfold then_ws. apply pvalue_err, pand_err1, pchar_first, K. cbn. intuition discriminate. }
  apply pvalue_err, tag_first, K. cbn. intuition discriminate.
Qed.
Lemma value_bad E ac ag s : no_value s -> parse_value_like E ac ag s = PErr.
Proof. intros H. unfold parse_value_like. apply pmap_err, pand_err1. now apply header_bad. Qed.

(** a lone sign is no value *)
Definition no_digit (s : str) : Prop := forall c r, s = c :: r -> is_digit c = false.
Lemma literal_err_sign c s : In c '"+-" -> no_digit s -> parse_literal (c :: s) = PErr.
Proof.
  intros Hc Hs. assert (D : is_digit c = false /\ is_id_start c = false /\ N_of_ascii "'" <> c).
  { cbn in Hc. destruct Hc as [<-|[<-|[]]]; repeat split; discriminate. }
  destruct D as (D1 & D2 & D3). unfold parse_literal. apply pmap_err, pand_err1. unfold parse_literal_value. rewrite por_next.
  - apply pmap_err. unfold character. apply delimited_err1.
    apply (pand_err2 _ _ _ (c :: s) None); [|apply pchar_not; congruence].
    apply opt_err_eq. rewrite por_next; [|apply pvalue_err, tag_first; intros r [= -> _]; discriminate D2].
    cbn in Hc. destruct Hc as [<-|[<-|[]]]; reflexivity.
  - unfold integer. apply terminated_err1.
    rewrite por_next; apply pmap_err.
    + unfold parse_u64. cbn [digits_loop]. now rewrite D1.
    + cbn in Hc. destruct Hc as [<-|[<-|[]]]; unfold parse_i64, parse_sign, pmap, opt, por, pvalue, pmap;
        (destruct s as [|d s]; [reflexivity|]; specialize (Hs d s eq_refl)).
      * rewrite pchar_not by discriminate. change (pchar "+" (43%N :: d :: s)) with (POk (d :: s) 43%N). cbn [pbind digits_loop]. now rewrite Hs.
      * change (pchar "-" (45%N :: d :: s)) with (POk (d :: s) 45%N). cbn [pbind digits_loop]. now rewrite Hs.
Qed.
Lemma sign_bad_char c : In c '"+-" -> bad_char c.
Proof. intros Hc. cbn in Hc. destruct Hc as [<-|[<-|[]]]; (split; [reflexivity|split; [reflexivity|cbn; intuition discriminate]]). Qed.
(** the parsers of a value header before unary operators *)
Lemma header_sign E ac ag c s : In c '"+-" -> no_digit s ->
  parse_value_header E ac ag (c :: s) =
  por (pmap (fun x => VHUnary (fst x) (snd x))
        (separated_pair (parse_unary_expr_prefix E) multispace0 (r_value E ac ag)))
    (por (pmap VHParen (delimited (then_ws "(") (r_value E true true) (ws_then ")"))) (pvalue VHEllipsis (tag "..."))) (c :: s).
Proof.
  intros Hc Hs. assert (Hn : forall x r, c :: s = x :: r -> In x '"+-") by (intros x r [= <- _]; exact Hc).
  unfold parse_value_header. rewrite por_next by (now apply pmap_err, literal_err_sign).
  rewrite por_next by (apply pmap_err, new_err; intros r H; apply Hn in H; cbn in H; intuition discriminate).
  rewrite por_next by (apply pmap_err, delimited_err1, tag_first; intros r H; apply Hn in H; cbn in H; intuition discriminate).
  rewrite por_next by (apply pmap_err, delimited_err1, tag_first; intros r H; apply Hn in H; cbn in H; intuition discriminate).
  rewrite por_next by (apply pmap_err, id_expression_bad; left; now apply sign_bad_char).
  reflexivity.
Qed.
Lemma cast_sign E c s : In c '"+-" -> cast E (c :: s) = PErr.
Proof.
  intros Hc. unfold cast. apply pmap_err, delimited_err1. unfold then_ws. apply pvalue_err, pand_err1, pchar_first.
  intros r [= -> _]. cbn in Hc. intuition discriminate.
Qed.
(** one sign, not two *)
Lemma prefix_sign E c s : In c '"+-" -> not_first c s ->
  parse_unary_expr_prefix E (c :: s) = POk (strip s) (OBasic (if N.eqb c 45 then SubNeg else AddPlus) false false).
Proof.
  intros Hc Hs. unfold parse_unary_expr_prefix. cbv zeta. fold unary_symbol. fold (cast E). apply por_ok.
  eapply terminated_ok; [|rewrite ms0; reflexivity]. rewrite por_next.
  - cbn in Hc. destruct Hc as [<-|[<-|[]]]; reflexivity.
  - rewrite por_next by (now apply cast_sign). unfold parse_increment_decrement.
    rewrite por_next; apply pvalue_err, tag_err; intros r [= -> ->]; now apply (Hs r).
Qed.
(** two of them *)
Lemma prefix_step E (up : bool) s :
  parse_unary_expr_prefix E (step_text up ++ s) = POk (strip s) (stepmean up).
Proof.
  unfold parse_unary_expr_prefix. cbv zeta. fold unary_symbol. fold (cast E). apply por_ok.
  eapply terminated_ok; [|rewrite ms0; reflexivity]. apply por_ok. rewrite por_next.
  - destruct up; reflexivity.
  - destruct up; cbn [step_text of_string app]; apply cast_sign; cbn; tauto.
Qed.
Lemma stops_no_digit s : stops s -> no_digit s.
Proof.
  intros [->|(c & r & -> & H)]; [discriminate|]. intros x y [= <- _]. cbn in H. repeat (destruct H as [<-|H]; [reflexivity|]). destruct H.
Qed.
Lemma value_sign_bad E ac ag c s : (forall ac ag s, no_value s -> r_value E ac ag s = PErr) -> In c '"+-" -> stops s ->
  parse_value_like E ac ag (c :: s) = PErr.
Proof.
  intros HW Hc Hs. unfold parse_value_like. apply pmap_err, pand_err1. rewrite header_sign by (assumption || now apply stops_no_digit).
  assert (K : not_first c s) by (apply stops_not_first; [exact Hs|cbn in *; intuition (subst; discriminate)]).
  rewrite por_next.
  - rewrite por_next.
    + apply pvalue_err, tag_first. intros r [= -> _]. cbn in Hc. intuition discriminate.
    + apply pmap_err, delimited_err1. unfold then_ws. apply pvalue_err, pand_err1, pchar_first. intros r [= -> _]. cbn in Hc. intuition discriminate.
  - apply pmap_err. unfold separated_pair. eapply pand_err2; [now apply prefix_sign|].
    eapply preceded_err2; [apply ms0|]. rewrite !stops_strip by (try rewrite stops_strip; exact Hs). now apply HW, stops_no_value.
Qed.

(** ** What cannot continue a value *)
Definition vstop (ac ag : bool) (s : str) : Prop :=
  (exists r, s = 41%N :: r) \/ (exists r, s = 93%N :: r) \/ (ac = false /\ exists r, s = 44%N :: 32%N :: r) \/
  (ag = false /\ no_ge s /\ exists r, s = 62%N :: r).
Lemma vstop_stops ac ag s : vstop ac ag s -> stops s.
Proof.
  intros [[r ->]|[[r ->]|[(_ & r & ->)|(_ & _ & r & ->)]]]; right; eexists _, _; (split; [reflexivity|cbn; tauto]).
Qed.
Lemma symbol_char c r : (c < 128)%N -> symbol (c :: r) = match sym_of_chr c with Some x => POk r x | None => PErr end.
Proof. intros H. unfold symbol, map_opt, anychar, satisfy. cbn [pbind]. apply N.ltb_lt in H. now rewrite H. Qed.
Lemma symbol_none_pand {B} (q : parser B) s : symbol s = PErr -> pand symbol q s = PErr.
Proof. apply pand_err1. Qed.
Lemma middle_err ac ag s : vstop ac ag s -> parse_binary_expr_middle (T := type_like) ac ag s = PErr.
Proof.
  intros [[r ->]|[[r ->]|[(-> & r & ->)|(-> & Hg & r & ->)]]]; [reflexivity|reflexivity|reflexivity|].
  unfold parse_binary_expr_middle.
  assert (S1 : forall y, symbol (62%N :: y) = POk y Greater) by reflexivity.
  rewrite por_next; [rewrite por_next|].
  - reflexivity.
  - unfold binary2, verify_panicking, arithmetic_or_comparison2, map_opt, pand. rewrite S1. cbn [pbind].
    destruct (symbol_total r) as [(r' & x & Ex)|Ex]; rewrite Ex; [|reflexivity]. cbn [pbind].
    destruct x; try reflexivity. exfalso. apply symbol_iff in Ex. apply (Hg 1 r'). rewrite Ex. reflexivity.
  - unfold arithmetic_or_comparison3, map_opt, pand. rewrite S1. cbn [pbind].
    destruct (symbol_total r) as [(r' & x & Ex)|Ex]; rewrite Ex; [|reflexivity]. cbn [pbind].
    destruct (symbol_total r') as [(r'' & y & Ey)|Ey]; rewrite Ey; [|reflexivity]. cbn [pbind].
    destruct x, y; try reflexivity. exfalso. apply symbol_iff in Ex. apply symbol_iff in Ey. apply (Hg 2 r''). rewrite Ex, Ey. reflexivity.
Qed.
Lemma after_err E ac ag s : vstop ac ag s -> parse_after_value E ac ag s = PErr.
Proof.
  intros H. pose proof (vstop_stops _ _ _ H) as Hs.
  assert (K : forall c, ~ In c '",>)]" -> not_first c s) by (intros c Hc; now apply stops_not_first).
  unfold parse_after_value. rewrite !starts_not; try (apply K; cbn; intuition discriminate).
  rewrite por_next.
  - unfold parse_increment_decrement. apply pmap_err. rewrite por_next; apply pvalue_err, tag_first, K; cbn; intuition discriminate.
  - apply pmap_err. unfold separated_pair. apply pand_err1. now apply middle_err.
Qed.
(** a value is its header *)
Lemma value_of_header E ac ag s rest h : vstop ac ag rest -> parse_value_header E ac ag s = POk rest h ->
  parse_value_like E ac ag s = POk rest (Value h []).
Proof.
  intros Hs H. unfold parse_value_like. apply (pmap_to _ _ _ _ (h, [])); [|reflexivity].
  eapply pand_ok; [exact H|]. unfold intern_seq. rewrite many0_nil; [reflexivity|].
  eapply preceded_err2; [apply ms0|]. rewrite stops_strip by (now apply (vstop_stops ac ag)). now apply after_err.
Qed.

(** ** Literals *)
Lemma literal_core l rest : literal_ok l = true -> word_ends rest ->
  parse_literal (show_literal printable l ++ rest) = POk rest l.
Proof.
  intros H Hr. unfold literal_ok in H. apply andb_true_iff in H as [Hv Hs]. destruct l as [v o]. cbn [lit_value lit_suffix] in *.
  destruct v as [z|z|c].
  - apply integer_round_trip; [|cbn; discriminate|exact Hr]. split; cbn [lit_value lit_suffix].
    + apply andb_true_iff in Hv as [H1 H2]. apply Z.leb_le in H1. apply Z.ltb_lt in H2. now split.
    + destruct o as [w|]; [|exact I]. apply andb_true_iff in Hs as [H1 H2]. split; [now apply is_word_iff|].
      intros c r ->. apply negb_true_iff in H2. intros Hc. apply Bool.not_true_iff_false in H2. apply H2.
      apply existsb_exists. exists c. split; [exact Hc|apply N.eqb_refl].
  - apply integer_round_trip; [|cbn; discriminate|exact Hr]. split; cbn [lit_value lit_suffix].
    + apply andb_true_iff in Hv as [H1 H2]. apply Z.leb_le in H1. apply Z.ltb_lt in H2. now split.
    + destruct o as [w|]; [|exact I]. apply andb_true_iff in Hs as [H1 H2]. split; [now apply is_word_iff|].
      intros c r ->. apply negb_true_iff in H2. intros Hc. apply Bool.not_true_iff_false in H2. apply H2.
      apply existsb_exists. exists c. split; [exact Hc|apply N.eqb_refl].
  - apply char_round_trip; [|exact Hr|].
    + intros w ->. apply andb_true_iff in Hs as [H1 _]. now apply is_word_iff.
    + apply orb_true_iff in Hv as [Hv|Hv]; [now right|left]. apply existsb_exists in Hv as (x & Hx & E). apply N.eqb_eq in E. subst x.
      unfold escaped_alike. cbn in Hx |- *. intuition.
Qed.

(** The grammar satisfies [ok], given that its recursive calls do on shorter inputs. *)
From Coq Require Import Ascii String.
From Verif Require Asylum_Model.
From Verif Require Import Base Cpp_Lex_Model Cpp_Ast_Model Cpp_Parse_Model Cpp_Display_Spec
  Cpp_Display_Proofs2 Cpp_Parse_Spec Cpp_Parse_Proofs Cpp_Parse_Proofs2 Cpp_Parse_Proofs3.
Local Open Scope nat_scope.
Local Open Scope bool_scope.
Local Open Scope list_scope.

Lemma ok_ext {A} n l (P : A -> Prop) p p' q q' :
  (forall s, p s = q s) -> (forall s, p' s = q' s) -> ok n l P q q' -> ok n l P p p'.
Proof. intros E E' H s Hs. rewrite E, E'. apply H, Hs. Qed.

Lemma delimited_eq {A B C} (p : parser A) (q : parser B) (t : parser C) s :
  delimited p q t s = terminated (preceded p q) t s.
Proof.
  unfold delimited, preceded, terminated, pmap, pand.
  destruct (p s) as [r a| | |]; cbn [pbind]; auto.
  destruct (q r) as [r1 b| | |]; cbn [pbind]; auto.
  destruct (t r1) as [r2 c| | |]; cbn [pbind]; auto.
Qed.

Lemma ok_and' {A B} n l0 l l' (P : A -> Prop) (Q : B -> Prop) (R : A * B -> Prop) p p' q q' :
  ok n l P p p' -> ok n l' Q q q' -> (forall a b, P a -> Q b -> R (a, b)) -> l0 <= Nat.max l l' ->
  ok n l0 R (pand p q) (pand p' q').
Proof.
  intros Hp Hq HR Hl. eapply ok_weaken; [eapply ok_and; eauto|apply le_n|exact Hl|].
  intros [a b] [H1 H2]. now apply HR.
Qed.

Lemma ok_clang_lambda n : ok n 2 (wf anonymous_all) parse_clang_lambda parse_clang_lambda.
Proof.
  unfold parse_clang_lambda. eapply ok_map with (P := T); [|reflexivity].
  eapply ok_ext; [apply delimited_eq|apply delimited_eq|].
  wk ltac:(eapply ok_terminated; [apply ok_located; now exists (of_string "(lambda ")|apply ok_char]).
Qed.

Lemma ok_clang_anonymous n : ok n 2 (wf anonymous_all) parse_clang_anonymous parse_clang_anonymous.
Proof.
  unfold parse_clang_anonymous. eapply ok_map with (P := T); [|reflexivity].
  wk ltac:(eapply ok_delimited with (l := 2) (l' := 0) (l'' := 0) (P := T) (Q := T) (R := T)).
  - wk ltac:(eapply ok_and with (l' := 0) (Q := T); [apply ok_char|]).
    apply ok_or; wk ltac:(apply ok_tag).
  - wk ltac:(eapply ok_and).
    + eapply ok_opt, ok_preceded; [apply ok_char|apply ok_identifier].
    + eapply ok_opt, ok_located. now exists (of_string " ").
  - wk ltac:(apply ok_char).
Qed.

Lemma ok_lib_unnamed n : ok n 2 (wf anonymous_all) parse_libiberty_unnamed parse_libiberty_unnamed.
Proof.
  unfold parse_libiberty_unnamed. eapply ok_map with (P := T); [|reflexivity].
  wk ltac:(eapply ok_delimited; [apply ok_tag|apply ok_u32|apply ok_char]).
Qed.

Section Grammar.
  Variables (n : nat) (E E' : env).
  Hypothesis HT : ok n 1 (wf type_all) (r_type E) (r_type E').
  Hypothesis HV : forall c g, ok n 1 (wf value_all) (r_value E c g) (r_value E' c g).
  Hypothesis HD : ok n 0 (Forall (wf decl_all)) (r_decl E) (r_decl E').

  Lemma ok_function_call :
    ok (S n) 2 (Forall (wf value_all)) (parse_function_call E) (parse_function_call E').
  Proof.
    unfold parse_function_call. eapply ok_level.
    - eapply (ok_preceded_s n 1 0); [apply (ok_then_ws (S n) "(")|].
      apply ok_or.
      + eapply ok_level; [eapply ok_intern_separated|].
        * lia.
        * apply HV.
        * apply ok_comma_sep.
        * apply ok_ws_then.
        * lia.
      + eapply ok_level; [eapply ok_value; [apply ok_char|constructor]|lia].
    - lia.
  Qed.

  Lemma ok_template_parameter :
    ok n 1 (wf param_all) (parse_template_parameter E) (parse_template_parameter E').
  Proof.
    unfold parse_template_parameter.
    assert (L : ok n 0 T (pand multispace0 (peek (por (pchar ",") (pchar ">"))))
                         (pand multispace0 (peek (por (pchar ",") (pchar ">"))))).
    { wk ltac:(eapply ok_and; [apply ok_multispace0|]).
      eapply ok_peek with (l := 0) (P := T), ok_or; wk ltac:(apply ok_char). }
    apply ok_or.
    - eapply ok_level; [eapply ok_terminated; [|exact L]|].
      + eapply ok_map; [exact HT|]. intros t Ht. now rewrite param_all_eq.
      + lia.
    - eapply ok_level; [eapply ok_terminated; [|exact L]|].
      + eapply ok_map; [apply HV|]. intros t Ht. now rewrite param_all_eq.
      + lia.
  Qed.

  Lemma ok_template_parameters :
    ok (S n) 2 (wf template_all) (parse_template_parameters E) (parse_template_parameters E').
  Proof.
    unfold parse_template_parameters. eapply ok_level.
    - eapply (ok_preceded_s n 1 0); [apply (ok_then_ws (S n) "<")|].
      apply ok_or.
      + eapply ok_map with (P := Forall (wf param_all)).
        * apply ok_or.
          -- eapply ok_level; [eapply ok_intern_separated|].
             ++ lia.
             ++ apply ok_template_parameter.
             ++ apply ok_comma_sep.
             ++ apply ok_ws_then.
             ++ lia.
          -- eapply ok_level; [eapply ok_value; [apply ok_char|constructor]|lia].
        * intros l Hl. rewrite template_all_eq. now apply Forall_all.
      + eapply ok_level; [eapply ok_value; [apply ok_tag|reflexivity]|lia].
    - lia.
  Qed.

  Lemma parameter_fold items acc v b entry v' :
    Forall (opt_post (wf type_all)) items -> Forall (wf type_all) acc ->
    fold_left parameter_step items (acc, v, b) = (entry, v', false) ->
    Forall (wf type_all) entry /\ List.length entry <= List.length acc + List.length items.
  Proof.
    revert acc v b. induction items as [|i items IH]; intros acc v b Hi Ha H; cbn [fold_left] in H.
    - injection H as <- _ _. split; [exact Ha|cbn; lia].
    - inversion Hi as [|? ? Hx Hr]; subst. unfold parameter_step in H at 2.
      destruct (v || b).
      + destruct (IH _ _ _ Hr Ha H) as [H1 H2]. split; [exact H1|cbn; lia].
      + destruct i as [t|].
        * destruct (IH (acc ++ [t]) v false Hr) as [H1 H2].
          -- apply Forall_app. split; [exact Ha|]. constructor; [exact Hx|constructor].
          -- exact H.
          -- split; [exact H1|]. rewrite app_length in H2. cbn in *. lia.
        * destruct (IH _ _ _ Hr Ha H) as [H1 H2]. split; [exact H1|cbn; lia].
  Qed.

  Lemma ok_parameter_set :
    ok (S n) 2 (fun pv => Forall (wf type_all) (fst pv))
       (parse_function_parameter_set E) (parse_function_parameter_set E').
  Proof.
    unfold parse_function_parameter_set. eapply ok_level.
    - eapply (ok_preceded_s n 1 0); [apply (ok_then_ws (S n) "(")|].
      apply ok_or.
      + eapply okr_bind with (P := fun s r pv =>
          Forall (wf type_all) (fst pv) /\ List.length (fst pv) <= S (pc s)).
        * unfold map_opt. eapply okr_bind.
          -- eapply okr_separated with (P := opt_post (wf type_all)) (l := 0).
             ++ apply ok_or.
                ** eapply ok_level; [eapply ok_map; [exact HT|]|lia]. intros t Ht; exact Ht.
                ** eapply ok_level; [eapply ok_value; [apply ok_tag|exact I]|lia].
             ++ apply ok_comma_sep.
             ++ apply (ok_ws_then n ")").
          -- intros u r items _ (Hf & Hc & _). split; [reflexivity|].
             destruct (fold_left parameter_step items ([], false, false)) as [[entry v] b] eqn:Ef.
             destruct b; [exact I|]. apply parameter_fold in Ef; [|exact Hf|constructor].
             destruct Ef as [H1 H2]. split; [now exists []|]. split; [exact H1|]. cbn in H2. cbn. lia.
        * intros u r pv _ [H1 H2]. split; [reflexivity|].
          match goal with |- context [N.ltb ?a ?b] => destruct (N.ltb_spec a b) as [Hl|Hl] end.
          -- split; [now exists []|]. split; [exact I|exact H1].
          -- cbn [may_panic]. unfold is_crowded. change (2 ^ 8)%N with 256%N in Hl. lia.
      + eapply ok_level; [eapply ok_value; [apply ok_char|constructor]|lia].
    - lia.
  Qed.

  Lemma ok_noexcept :
    ok (S n) 1 (opt_post (wf value_all)) (parse_noexcept E) (parse_noexcept E').
  Proof.
    unfold parse_noexcept. eapply ok_level.
    - eapply ok_preceded; [apply ok_keyword|]. eapply ok_opt.
      eapply (ok_delimited_s n 1); [apply (ok_then_ws (S n) "(")|apply HV|apply ok_ws_then].
    - cbn; lia.
  Qed.

  Lemma ok_function_signature :
    ok (S n) 2 (wf sig_all) (parse_function_signature E) (parse_function_signature E').
  Proof.
    unfold parse_function_signature. eapply ok_map with (P := fun x =>
        True /\ Forall (wf type_all) (fst (fst (snd x))) /\ True /\ True /\
        opt_post (opt_post (wf value_all)) (fst (snd (snd (snd (snd x))))) /\
        opt_post (wf type_all) (snd (snd (snd (snd (snd x)))))).
    - eapply ok_and' with (l := 0) (l' := 2) (P := T) (Q := fun x =>
        Forall (wf type_all) (fst (fst x)) /\ True /\ True /\
        opt_post (opt_post (wf value_all)) (fst (snd (snd (snd x)))) /\
        opt_post (wf type_all) (snd (snd (snd (snd x))))); [| |cbn [fst snd]; auto|cbn; lia].
      + eapply ok_weaken; [eapply ok_opt|apply le_n|apply le_n|auto].
        eapply ok_delimited; [apply ok_tag|apply ok_identifier|apply ok_char].
      + eapply ok_and' with (l := 2) (l' := 0) (P := fun x => Forall (wf type_all) (fst x))
            (Q := fun x => True /\ True /\ opt_post (opt_post (wf value_all)) (fst (snd (snd x))) /\
                    opt_post (wf type_all) (snd (snd (snd x)))); [| |cbn [fst snd]; auto|cbn; lia].
        * eapply ok_level; [eapply ok_terminated; [apply ok_parameter_set|apply ok_multispace0]|cbn; lia].
        * eapply ok_and' with (l := 0) (l' := 0) (P := T)
             (Q := fun x => True /\ opt_post (opt_post (wf value_all)) (fst (snd x)) /\
                    opt_post (wf type_all) (snd (snd x))); [| |cbn [fst snd]; auto|cbn; lia].
          -- wk ltac:(eapply ok_terminated; [apply ok_cv|apply ok_multispace0]).
          -- eapply ok_and' with (l := 0) (l' := 0) (P := T)
               (Q := fun x => opt_post (opt_post (wf value_all)) (fst x) /\
                    opt_post (wf type_all) (snd x)); [| |cbn [fst snd]; auto|cbn; lia].
             ++ wk ltac:(eapply ok_terminated; [apply ok_reference|apply ok_multispace0]).
             ++ eapply ok_level; [eapply ok_and|apply Nat.le_0_l].
                ** eapply ok_opt, ok_terminated; [apply ok_noexcept|apply ok_multispace0].
                ** eapply ok_opt, (ok_preceded_s n 1).
                   --- eapply ok_level; [eapply ok_and; [apply ok_tag|apply ok_multispace0]|cbn; lia].
                   --- exact HT.
    - intros [a [[params v] [c [r [ne tr]]]]] [_ [Hp [_ [_ [Hn Ht]]]]]. cbn [fst snd] in *.
      rewrite sig_all_eq. cbn [any]. apply andb_true_iff. split; [reflexivity|].
      rewrite !andb_true_iff. split; [split|].
      + now apply Forall_all.
      + destruct ne as [[v0|]|]; auto.
      + destruct tr; auto.
  Qed.

  Lemma ok_anonymous : ok (S n) 2 (wf anonymous_all) (parse_anonymous E) (parse_anonymous E').
  Proof.
    unfold parse_anonymous. apply ok_starts.
    - apply ok_or; [apply ok_clang_lambda|apply ok_clang_anonymous].
    - apply ok_or; [|apply ok_lib_unnamed].
      unfold parse_libiberty_lambda. eapply ok_map.
      + eapply ok_level; [eapply ok_and|].
        * eapply ok_preceded; [apply ok_tag|apply ok_function_signature].
        * eapply ok_delimited; [apply ok_char|apply ok_u32|apply ok_char].
        * cbn; lia.
      + intros [f i] [Hf _]. rewrite anonymous_all_eq. exact Hf.
  Qed.

  Definition wfot (x : operator type_like * option template_parameters) : Prop :=
    wfop (fst x) /\ wfopt (W template_all) (snd x).

  Lemma ok_arith_templates p :
    ok (S n) 2 wfop p p -> ok (S n) 2 wfot (arith_and_templates E p) (arith_and_templates E' p).
  Proof.
    intros Hp. unfold arith_and_templates. eapply ok_map_opt.
    - eapply ok_level; [eapply ok_and; [exact Hp|eapply ok_and]|].
      + eapply ok_preceded; [apply ok_multispace0|eapply ok_opt, ok_template_parameters].
      + eapply ok_peek, ok_opt, ok_symbol.
      + lia.
    - intros [op [tp [s|]]] b [H1 [H2 _]] H; [discriminate|]. injection H as <-.
      split; [exact H1|now apply opt_post_all].
  Qed.

  Lemma ok_custom_literal : ok (S n) 2 wfop parse_custom_literal parse_custom_literal.
  Proof.
    unfold parse_custom_literal. eapply ok_map.
    - eapply ok_level.
      + eapply ok_preceded; [|apply ok_identifier].
        eapply ok_and; [|apply ok_multispace0].
        eapply ok_and; apply (ok_satisfy (S n) 2); try lia;
          intros c Hc _; apply N.eqb_eq in Hc; now subst.
      + cbn; lia.
    - intros i Hi. exact Hi.
  Qed.

  Lemma ok_operator_overload :
    ok (S n) 1 wfot (parse_operator_overload E) (parse_operator_overload E').
  Proof.
    unfold parse_operator_overload. eapply ok_level.
    - eapply (ok_preceded_s n 0 0).
      + eapply ok_level; [apply ok_keyword|cbn; lia].
      + apply ok_or; [repeat apply ok_or|].
        * apply (ok_weaken (S n) n 2 0 wfot wfot); [|lia|lia|auto].
          apply ok_arith_templates. now apply ok_arith1.
        * apply (ok_weaken (S n) n 2 0 wfot wfot); [|lia|lia|auto].
          apply ok_arith_templates. now apply ok_arith2.
        * apply (ok_weaken (S n) n 2 0 wfot wfot); [|lia|lia|auto].
          apply ok_arith_templates. now apply ok_arith3.
        * eapply ok_and' with (l := 0) (l' := 0) (P := wfop) (Q := opt_post (wf template_all));
            [| | |lia].
          -- apply ok_or; [apply ok_or|].
             ++ eapply ok_level; [now apply ok_call_index|lia].
             ++ eapply ok_level; [eapply ok_preceded; [apply ok_multispace0|]|].
                ** eapply ok_fuel; [apply ok_custom_literal|lia].
                ** lia.
             ++ eapply ok_level; [eapply ok_preceded with (l' := 1); [apply ok_multispace1|]|lia].
                apply ok_or; [now apply ok_new|]. apply ok_or; [now apply ok_delete|].
                apply ok_or; [now apply ok_co_await|].
                eapply ok_map; [exact HT|]. intros t Ht; exact Ht.
          -- eapply ok_fuel with (n := S n); [|lia].
             eapply ok_level; [|apply Nat.le_0_l].
             eapply ok_preceded; [apply ok_multispace0|eapply ok_opt, ok_template_parameters].
          -- intros op tp H1 H2. split; [exact H1|now apply opt_post_all].
    - lia.
  Qed.

  Lemma ok_named b : ok (S n) 1 (wf unqualified_all) (parse_named E b) (parse_named E' b).
  Proof.
    unfold parse_named. eapply ok_map.
    - eapply ok_level; [eapply ok_and; [apply ok_identifier|]|].
      + eapply ok_opt, ok_preceded; [|apply ok_template_parameters].
        eapply ok_opt, ok_and; [apply ok_multispace0|apply ok_cv].
      + lia.
    - intros [i tp] [Hi Ht]. rewrite unqualified_all_eq. cbn [fst snd] in *. rewrite Hi.
      now apply opt_post_all.
  Qed.

  Lemma ok_decltype : ok (S n) 2 (wf unqualified_all) (parse_decltype E) (parse_decltype E').
  Proof.
    unfold parse_decltype. eapply ok_map.
    - eapply ok_level; [eapply (ok_delimited_s n 1)|].
      + eapply ok_level; [eapply ok_and; [apply ok_tag|apply ok_multispace0]|cbn; lia].
      + apply HV.
      + apply ok_ws_then.
      + lia.
    - intros v Hv. rewrite unqualified_all_eq. exact Hv.
  Qed.

  Lemma ok_unqualified_id :
    ok (S n) 1 (wf unqualified_all) (parse_unqualified_id E) (parse_unqualified_id E').
  Proof.
    intros s Hs. unfold parse_unqualified_id.
    assert (HA : ok (S n) 1 (wf unqualified_all) (pmap UAnonymous (parse_anonymous E))
                                              (pmap UAnonymous (parse_anonymous E'))).
    { eapply ok_map; [eapply ok_level; [apply ok_anonymous|lia]|].
      intros a Ha. rewrite unqualified_all_eq. exact Ha. }
    assert (HDe : ok (S n) 1 (wf unqualified_all) (por (parse_decltype E) (parse_named E false))
                                              (por (parse_decltype E') (parse_named E' false))).
    { apply ok_or; [eapply ok_level; [apply ok_decltype|lia]|apply ok_named]. }
    assert (HO : ok (S n) 1 (wf unqualified_all)
        (por (pmap (fun x => UOperator (fst x) (snd x)) (parse_operator_overload E)) (parse_named E false))
        (por (pmap (fun x => UOperator (fst x) (snd x)) (parse_operator_overload E')) (parse_named E' false))).
    { apply ok_or; [|apply ok_named]. eapply ok_map; [apply ok_operator_overload|].
      intros [op tp] [H1 H2]. rewrite unqualified_all_eq. cbn [fst snd] in *.
      unfold wfop in H1. rewrite H1. exact H2. }
    destruct (starts "{" s || starts "(" s); [now apply HA|].
    destruct (starts "d" s); [now apply HDe|].
    destruct (starts "o" s); [now apply HO|].
    destruct (starts "~" s) eqn:Et; [|now apply ok_named].
    destruct s as [|c s]; [discriminate|]. cbn [tl].
    destruct (ok_named true s) as [Eq H]; [cbn in Hs; lia|]. split; [exact Eq|].
    destruct (parse_named E true s) as [r a| |w|]; auto.
    - destruct H as [[u ->] [L H]]. split; [now exists (c :: u)|]. split; [|exact H].
      cbn in *. lia.
    - now apply (may_panic_suffix w [c]).
  Qed.

  Lemma ok_ignored_qualifiers : ok (S n) 2 T ignored_qualifiers ignored_qualifiers.
  Proof.
    unfold ignored_qualifiers. eapply ok_valueT, ok_level; [eapply ok_and|].
    - eapply ok_many0, ok_and; [apply ok_multispace0|].
      apply ok_or; eapply ok_valueT.
      + apply ok_cv_nonempty.
      + eapply ok_level; [apply ok_reference_nonempty|lia].
    - apply ok_tag.
    - cbn; lia.
  Qed.

  Definition scope_post (s r : str) (x : scope + unqualified_id) : Prop :=
    match x with
    | inl sc => lev 2 s r /\ W scope_all sc = true
    | inr u => lev 1 s r /\ W unqualified_all u = true
    end.

  Lemma okr_scope_or_id :
    okr (S n) scope_post (parse_scope_or_unqualified_id E) (parse_scope_or_unqualified_id E').
  Proof.
    unfold parse_scope_or_unqualified_id. eapply okr_bind; [apply ok_unqualified_id|].
    intros u r id Hn [L Hid].
    assert (Ht : ok (S n) 2 (opt_post (wf sig_all))
       (terminated (opt (parse_function_signature E)) ignored_qualifiers)
       (terminated (opt (parse_function_signature E')) ignored_qualifiers)).
    { eapply ok_level; [eapply ok_terminated; [eapply ok_opt, ok_function_signature|apply ok_ignored_qualifiers]|].
      lia. }
    assert (Hr : len r < S n) by (rewrite app_length in Hn; lia).
    destruct (Ht r Hr) as [Eq H]. rewrite <- Eq. split; [reflexivity|].
    destruct (terminated (opt (parse_function_signature E)) ignored_qualifiers r) as [r' f| |w|]; auto.
    - destruct H as [[v ->] [L' Hf]]. split; [eauto|]. cbn [scope_post]. split.
      + apply (lev_and 1 2); auto.
      + rewrite scope_all_eq, Hid. now apply opt_post_all.
    - split; [now exists []|]. split; [exact L|exact Hid].
    - now apply may_panic_suffix.
  Qed.

  (** what remains to be known of a path and the identifier after it *)
  Definition proto_post (s r : str) (x : nested_name * option (str * unqualified_id)) : Prop :=
    W nested_all (fst x) = true /\
    match snd x with
    | Some (bt, u) => (exists v, s = v ++ bt) /\ (exists v, bt = v ++ r) /\
                      len r < len bt /\ W unqualified_all u = true
    | None => True
    end.

  Lemma proto_loop_ok : forall k rooted scopes s,
    len s < S n -> len s < k -> Forall (wf scope_all) scopes ->
    proto_loop E k rooted scopes s = proto_loop E' k rooted scopes s /\
    match proto_loop E k rooted scopes s with
    | POk r x => (exists u, s = u ++ r) /\ proto_post s r x
    | PErr => True
    | PPanic w => may_panic w s \/ (w = PRSequence /\ 256 <= List.length scopes + pc s)
    | PFuel => False
    end.
  Proof.
    induction k as [|k IH]; intros rooted scopes s Hn Hk Hsc; [lia|].
    cbn [proto_loop]. destruct (okr_scope_or_id s Hn) as [Eq H]. rewrite <- Eq.
    assert (Hnest : W nested_all (Nested rooted scopes) = true).
    { rewrite nested_all_eq. cbn [any andb]. now apply Forall_all. }
    destruct (parse_scope_or_unqualified_id E s) as [r [sc|id]| |w|]; auto.
    - destruct H as [[u ->] [[L1 L2] Hs']].
      destruct (IH rooted (scopes ++ [sc]) r) as [Eq' H'].
      + rewrite app_length in Hn. lia.
      + rewrite app_length in *. lia.
      + apply Forall_app. split; [exact Hsc|]. constructor; [exact Hs'|constructor].
      + split; [exact Eq'|].
        destruct (proto_loop E k rooted (scopes ++ [sc]) r) as [r' x| |w|]; auto.
        * destruct H' as [[v ->] [P1 P2]]. split; [exists (u ++ v); now rewrite app_assoc|].
          split; [exact P1|]. destruct (snd x) as [[bt un]|]; auto.
          destruct P2 as ([v1 E1] & P2). split; [|exact P2].
          exists (u ++ v1). now rewrite E1, app_assoc.
        * destruct H' as [H'|[-> H']]; [left; now apply may_panic_suffix|right].
          split; [reflexivity|]. rewrite app_length in H'. cbn [List.length] in H'. lia.
    - destruct H as [[u ->] [L Hid]]. unfold make_output.
      match goal with |- context [N.ltb ?a ?b] => destruct (N.ltb_spec a b) as [Hl|Hl] end.
      + split; [reflexivity|]. split; [eauto|]. split; [exact Hnest|]. cbn [snd].
        split; [now exists []|]. split; [eauto|]. split; [exact L|exact Hid].
      + split; [reflexivity|]. right. split; [reflexivity|]. change (2 ^ 8)%N with 256%N in Hl. lia.
    - unfold make_output.
      match goal with |- context [N.ltb ?a ?b] => destruct (N.ltb_spec a b) as [Hl|Hl] end.
      + split; [reflexivity|]. split; [now exists []|]. split; [exact Hnest|exact I].
      + split; [reflexivity|]. right. split; [reflexivity|]. change (2 ^ 8)%N with 256%N in Hl. lia.
  Qed.

  Lemma okr_proto :
    okr (S n) proto_post (parse_proto_id_expression E) (parse_proto_id_expression E').
  Proof.
    intros s Hn. unfold parse_proto_id_expression.
    destruct (strip_tag (of_string "::") s) as [r0|] eqn:Es.
    - apply strip_tag_spec in Es.
      assert (Hr : len r0 < S n) by (subst s; rewrite app_length in Hn; lia).
      destruct (proto_loop_ok (S (len r0)) true [] r0 Hr) as [Eq H]; [lia|constructor|].
      split; [exact Eq|]. destruct (proto_loop E (S (len r0)) true [] r0) as [r x| |w|]; auto.
      + destruct H as [[u ->] [P1 P2]]. subst s.
        split; [exists (of_string "::" ++ u); now rewrite app_assoc|]. split; [exact P1|].
        destruct (snd x) as [[bt un]|]; auto. destruct P2 as ([v1 E1] & P2). split; [|exact P2].
        exists (of_string "::" ++ v1). now rewrite E1, app_assoc.
      + subst s. apply may_panic_suffix. destruct H as [H|[-> H]]; [exact H|].
        cbn [List.length] in H. cbn. unfold is_crowded. lia.
    - destruct (proto_loop_ok (S (len s)) false [] s Hn) as [Eq H]; [lia|constructor|].
      split; [exact Eq|]. destruct (proto_loop E (S (len s)) false [] s) as [r x| |w|]; auto.
      destruct H as [H|[-> H]]; [exact H|]. cbn [List.length] in H. cbn. unfold is_crowded. lia.
  Qed.

  Lemma ok_id_expression :
    ok (S n) 1 (wf idexpr_all) (parse_id_expression E) (parse_id_expression E').
  Proof.
    unfold parse_id_expression. eapply okr_bind; [apply okr_proto|].
    intros u r [path [[bt id]|]] _ [H1 H2]; split; auto; cbn [fst snd] in *.
    split; [now exists []|]. destruct H2 as ([v1 E1] & _ & L & Hid). split.
    - cbn. rewrite E1, app_length. lia.
    - now rewrite idexpr_all_eq, H1, Hid.
  Qed.

  Lemma ok_nested_name :
    ok (S n) 0 (wf nested_all) (parse_nested_name_specifier E) (parse_nested_name_specifier E').
  Proof.
    unfold parse_nested_name_specifier. intros s Hn.
    destruct (okr_proto s Hn) as [Eq H]. rewrite <- Eq.
    destruct (parse_proto_id_expression E s) as [r [path [[bt id]|]]| |w|]; cbn [pbind]; auto.
    - destruct H as [_ [H1 (Hs & _)]]. split; [reflexivity|]. split; [exact Hs|]. split; [exact I|exact H1].
    - destruct H as [Hs [H1 _]]. split; [reflexivity|]. split; [exact Hs|]. split; [exact I|exact H1].
  Qed.

  Lemma ok_simple_type :
    ok (S n) 1 (wf simple_all) (parse_simple_type E) (parse_simple_type E').
  Proof.
    unfold parse_simple_type. apply ok_or; [|apply ok_or].
    - eapply ok_map; [apply ok_legacy|]. reflexivity.
    - eapply ok_map with (P := T); [|reflexivity].
      eapply ok_level; [eapply ok_preceded; [apply ok_tag|apply ok_u32]|cbn; lia].
    - eapply ok_level; [eapply ok_preceded|].
      + eapply ok_opt, ok_and; [apply ok_keywords; reflexivity|apply ok_multispace1].
      + eapply ok_map; [apply ok_id_expression|]. intros i Hi. now rewrite simple_all_eq.
      + lia.
  Qed.

  Lemma ok_type_specifier :
    ok (S n) 1 (wf spec_all) (parse_type_specifier E) (parse_type_specifier E').
  Proof.
    unfold parse_type_specifier. eapply ok_map.
    - eapply ok_level; [eapply ok_and; [|apply ok_simple_type]|].
      + eapply ok_terminated; [apply ok_cv|apply ok_multispace0].
      + cbn; lia.
    - intros [c st] [_ H]. now rewrite spec_all_eq.
  Qed.

  Lemma ok_cv_restrict : ok (S n) 0 T cv_restrict cv_restrict.
  Proof.
    unfold cv_restrict. eapply ok_map with (P := T); [|auto].
    eapply ok_and' with (l := 0) (l' := 0) (P := T) (Q := T); [| |auto|lia].
    - wk ltac:(eapply ok_terminated; [apply ok_cv|apply ok_multispace0]).
    - eapply ok_and' with (l := 0) (l' := 0) (P := T) (Q := T); [|apply ok_cv|auto|lia].
      eapply ok_map with (P := T); [|auto].
      eapply ok_post; [eapply ok_opt, ok_terminated|auto].
      + apply ok_keywords. reflexivity.
      + apply ok_multispace0.
  Qed.

  (** consumes punctuation, or is a cv-qualifier that stops before the next one *)
  Definition decl_post (s r : str) (d : decl_operator) : Prop :=
    W decl_all d = true /\ len r < len s /\
    (pc r < pc s \/ (~ cv_stop s /\ cv_stop r /\ no_space r)).

  Lemma ok_decl_post (p p' : parser decl_operator) :
    ok (S n) 2 (wf decl_all) p p' -> okr (S n) decl_post p p'.
  Proof.
    intros H. eapply okr_weaken; [exact H|lia|]. intros u r a [[L1 L2] Ha]. split; [exact Ha|auto].
  Qed.

  Lemma okr_decl_operator :
    okr (S n) decl_post (parse_decl_operator E) (parse_decl_operator E').
  Proof.
    unfold parse_decl_operator.
    assert (HM : okr (S n) decl_post
       (pmap (fun x => DPointer (fst x) (fst (snd x)) (snd (snd x)))
           (separated_pair (terminated (parse_nested_name_specifier E) (pchar "*")) multispace0 cv_restrict))
       (pmap (fun x => DPointer (fst x) (fst (snd x)) (snd (snd x)))
           (separated_pair (terminated (parse_nested_name_specifier E') (pchar "*")) multispace0 cv_restrict))).
    { apply ok_decl_post. eapply ok_map.
      - eapply ok_level; [eapply ok_sep_pair|].
        + eapply ok_terminated; [apply ok_nested_name|apply ok_char].
        + apply ok_multispace0.
        + apply ok_cv_restrict.
        + cbn; lia.
      - intros [path x] [Hp _]. rewrite decl_all_eq. exact Hp. }
    assert (HP : okr (S n) decl_post
       (pmap (fun x => DPointer (Nested false []) (fst x) (snd x)) (preceded (then_ws "*") cv_restrict))
       (pmap (fun x => DPointer (Nested false []) (fst x) (snd x)) (preceded (then_ws "*") cv_restrict))).
    { apply ok_decl_post. eapply ok_map with (P := T); [|reflexivity].
      eapply ok_level; [eapply ok_preceded; [apply ok_then_ws|apply ok_cv_restrict]|cbn; lia]. }
    assert (HF : okr (S n) decl_post (pmap DFunction (parse_function_signature E))
                                     (pmap DFunction (parse_function_signature E'))).
    { apply ok_decl_post. eapply ok_map; [apply ok_function_signature|].
      intros f Hf. rewrite decl_all_eq. exact Hf. }
    assert (HPar : okr (S n) decl_post
      (pmap DParen (delimited (then_ws "(")
          (verify (r_decl E) (fun d => match d with [] => false | _ => true end)) (ws_then ")")))
      (pmap DParen (delimited (then_ws "(")
          (verify (r_decl E') (fun d => match d with [] => false | _ => true end)) (ws_then ")")))).
    { apply ok_decl_post. eapply ok_map.
      - eapply ok_level; [eapply (ok_delimited_s n 1)|].
        + apply (ok_then_ws (S n) "(").
        + eapply ok_verify, HD.
        + apply ok_ws_then.
        + lia.
      - intros d [Hd _]. rewrite decl_all_eq. cbn [is_visible andb]. now apply Forall_all. }
    assert (HA : okr (S n) decl_post
      (pmap DArray (delimited (then_ws "[") (opt (r_value E false true)) (ws_then "]")))
      (pmap DArray (delimited (then_ws "[") (opt (r_value E' false true)) (ws_then "]")))).
    { apply ok_decl_post. eapply ok_map.
      - eapply ok_level; [eapply (ok_delimited_s n 1)|].
        + apply (ok_then_ws (S n) "[").
        + eapply ok_opt, HV.
        + apply ok_ws_then.
        + lia.
      - intros d Hd. rewrite decl_all_eq. cbn [is_visible andb]. now apply opt_post_all. }
    assert (HVec : okr (S n) decl_post
      (pmap DVector (delimited (tag "__vector(") (r_value E false true) (pchar ")")))
      (pmap DVector (delimited (tag "__vector(") (r_value E' false true) (pchar ")")))).
    { apply ok_decl_post. eapply ok_map.
      - eapply ok_level; [eapply (ok_delimited_s n 1)|].
        + apply (ok_tag (S n) "__vector(").
        + apply HV.
        + apply ok_char.
        + lia.
      - intros d Hd. rewrite decl_all_eq. exact Hd. }
    assert (HC : okr (S n) decl_post
      (pmap DCv (verify parse_cv (fun c => negb (cv_is_default c))))
      (pmap DCv (verify parse_cv (fun c => negb (cv_is_default c))))).
    { unfold pmap, verify, map_opt. eapply okr_bind with
        (P := fun s r c => len r < len s /\ ~ cv_stop s /\ cv_stop r /\ no_space r).
      - eapply okr_bind; [apply okr_cv|]. intros u r c _ (H1 & H2 & H3 & H4). split; [reflexivity|].
        destruct (cv_is_default c) eqn:Ec; cbn [negb]; [exact I|]. split; [now exists []|].
        destruct (H4 eq_refl). repeat split; auto. intros Hst. rewrite (H2 Hst) in Ec. discriminate.
      - intros u r c _ (H1 & H2). split; [reflexivity|]. split; [now exists []|].
        split; [reflexivity|]. auto. }
    intros s Hs.
    destruct (starts "&" s) eqn:Ea.
    { destruct (okr_reference (S n) s Hs) as [_ H]. unfold pmap. split; [reflexivity|].
      destruct (parse_reference s) as [r a| |w|]; cbn [pbind]; auto.
      destruct H as [Hu [Hr1 Hr2]]. split; [exact Hu|].
      assert (Ha : a <> RNone).
      { intros ->. specialize (Hr1 eq_refl). destruct s as [|c s]; [discriminate|].
        unfold starts in Ea. apply N.eqb_eq in Ea. congruence. }
      destruct (Hr2 Ha). split; [|split; auto].
      rewrite decl_all_eq. destruct a; [congruence|reflexivity|reflexivity]. }
    destruct (starts "*" s); [now apply HP|].
    destruct (starts "(" s); [apply (okr_or (S n)); [exact HF|apply (okr_or (S n)); assumption|exact Hs]|].
    destruct (starts "[" s); [apply (okr_or (S n)); assumption|].
    destruct (starts "_" s); [apply (okr_or (S n)); assumption|].
    destruct (starts "c" s); [apply (okr_or (S n)); assumption|].
    destruct (starts "v" s); [apply (okr_or (S n)); assumption|].
    now apply HM.
  Qed.

  Lemma okr_multispace0 : okr (S n) (fun s r _ => no_space s -> r = s) multispace0 multispace0.
  Proof.
    intros s _. split; [reflexivity|]. unfold multispace0. split.
    - exists (fst (span is_space s)). apply span_spec.
    - intros H. destruct s as [|c s]; [reflexivity|]. unfold no_space in H. cbn [span].
      now rewrite H.
  Qed.

  Lemma ok_declarator :
    ok (S n) 0 (Forall (wf decl_all)) (parse_declarator E) (parse_declarator E').
  Proof.
    unfold parse_declarator. eapply okr_weaken.
    - eapply okr_intern with (P := fun s r l =>
        Forall (wf decl_all) l /\ List.length l + 2 * pc r <= 2 * pc s + 1 /\
        (cv_stop s -> List.length l + 2 * pc r <= 2 * pc s)).
      + eapply okr_many0 with (P := decl_post).
        * unfold terminated, pmap. eapply okr_bind with (P := fun s r x => decl_post s r (fst x)).
          -- eapply okr_and with (m := S n); [apply okr_decl_operator|apply okr_multispace0| |].
             ++ intros u r a H _. rewrite app_length in H. lia.
             ++ intros u v r a b (H1 & H2 & H3) Hv. cbn [fst]. split; [exact H1|].
                pose proof (app_length v r). pose proof (pc_app v r). split; [lia|].
                destruct H3 as [H3|(H3 & H4 & H5)]; [left; lia|]. right.
                specialize (Hv H5). rewrite <- Hv in *. auto.
          -- intros u r x _ H. split; [reflexivity|]. split; [now exists []|exact H].
        * intros s _. repeat split; try constructor; cbn; lia.
        * intros u v r a l _ _ (H1 & H2 & H3) (Q1 & Q2 & Q3). split; [now constructor|].
          cbn [List.length]. destruct H3 as [H3|(H3 & H4 & H5)].
          -- split; [lia|intros _; lia].
          -- specialize (Q3 H4). pose proof (suffix_len _ u (v ++ r) eq_refl).
             split; [lia|intros; contradiction].
      + intros u r l (_ & H & _) Hl. unfold is_crowded. change (2 ^ 8)%N with 256%N in Hl. lia.
    - lia.
    - intros u r l [H _]. split; [exact I|exact H].
  Qed.
End Grammar.

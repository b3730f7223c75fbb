(** Types and values satisfy [ok], and the recursion budget is never exhausted. *)
From Coq Require Import Ascii String.
From Verif Require Asylum_Model.
From Verif Require Import Base Cpp_Lex_Model Cpp_Ast_Model Cpp_Parse_Model Cpp_Display_Spec
  Cpp_Display_Proofs2 Cpp_Parse_Spec Cpp_Parse_Proofs Cpp_Parse_Proofs2 Cpp_Parse_Proofs3
  Cpp_Parse_Proofs4.
Local Open Scope nat_scope.
Local Open Scope bool_scope.
Local Open Scope list_scope.

Section Values.
  Variables (n : nat) (E E' : env).
  Hypothesis HT : ok n 1 (wf type_all) (r_type E) (r_type E').
  Hypothesis HV : forall c g, ok n 1 (wf value_all) (r_value E c g) (r_value E' c g).
  Hypothesis HD : ok n 0 (Forall (wf decl_all)) (r_decl E) (r_decl E').

  Lemma ok_type_like : ok (S n) 1 (wf type_all) (parse_type_like E) (parse_type_like E').
  Proof.
    unfold parse_type_like. eapply ok_map with (P := fun x =>
      Forall (wf value_all) (fst x) /\ W spec_all (fst (snd x)) = true /\
      Forall (wf decl_all) (snd (snd x))).
    - eapply ok_and' with (l := 0) (l' := 1) (P := Forall (wf value_all))
        (Q := fun x => W spec_all (fst x) = true /\ Forall (wf decl_all) (snd x));
        [| |cbn [fst snd]; auto|cbn; lia].
      + eapply ok_level; [eapply ok_terminated; [|apply ok_multispace0]|apply Nat.le_0_l].
        eapply ok_map.
        * eapply ok_opt, ok_delimited; [apply ok_tag|apply ok_function_call; exact HV|apply ok_char].
        * intros [l|] H; [exact H|constructor].
      + eapply ok_and' with (l := 1) (l' := 0) (P := wf spec_all) (Q := Forall (wf decl_all));
          [| |cbn [fst snd]; auto|cbn; lia].
        * eapply ok_level; [eapply ok_terminated; [|apply ok_multispace0]|].
          -- apply (ok_type_specifier n E E' HT HV).
          -- cbn; lia.
        * apply (ok_declarator n E E' HT HV HD).
    - intros [a [sp d]] (Ha & Hs & Hd). cbn [fst snd] in *. rewrite type_all_eq.
      apply Forall_all in Ha, Hd. now rewrite Ha, Hs, Hd.
  Qed.

  Lemma ok_unary_prefix :
    ok (S n) 1 wfop (parse_unary_expr_prefix E) (parse_unary_expr_prefix E').
  Proof.
    unfold parse_unary_expr_prefix. apply ok_or.
    - eapply ok_level; [eapply ok_terminated with (l := 2) (l' := 0); [|apply ok_multispace0]|cbn; lia].
      apply ok_or; [apply ok_or|].
      + eapply ok_map with (P := wf type_all).
        * eapply ok_level; [eapply (ok_delimited_s n 1); [apply (ok_then_ws (S n) "(")|exact HT|apply ok_ws_then]|lia].
        * intros t Ht. exact Ht.
      + now apply ok_incdec.
      + eapply ok_map; [eapply ok_verify, ok_symbol|]. intros a _. reflexivity.
    - eapply ok_level; [eapply ok_terminated with (l := 1); [|apply ok_multispace1]|cbn; lia].
      apply ok_or; [now apply ok_delete|now apply ok_co_await].
  Qed.

  Lemma ok_new_expression :
    ok (S n) 1 (wf new_all) (parse_new_expression E) (parse_new_expression E').
  Proof.
    unfold parse_new_expression. eapply ok_map with (P := fun x =>
      True /\ opt_post (Forall (wf value_all)) (fst (snd x)) /\ W type_all (fst (snd (snd x))) = true /\
      opt_post (Forall (wf value_all)) (snd (snd (snd x)))).
    - unfold separated_pair. eapply ok_and' with (l := 0) (l' := 1) (P := T) (Q := fun x =>
        opt_post (Forall (wf value_all)) (fst x) /\ W type_all (fst (snd x)) = true /\
        opt_post (Forall (wf value_all)) (snd (snd x))); [| |cbn [fst snd]; auto|cbn; lia].
      + eapply ok_map with (P := T); [|auto]. eapply ok_post; [eapply ok_opt, ok_tag|auto].
      + eapply ok_level with (l := 1); [|apply le_n].
        eapply (ok_preceded_s n 0 0).
        * eapply ok_level; [eapply ok_and; [apply ok_tag|apply ok_multispace0]|cbn; lia].
        * assert (HC : ok n 0 (opt_post (Forall (wf value_all))) (opt (parse_function_call E))
                                                                  (opt (parse_function_call E'))).
          { eapply ok_fuel with (n := S n); [|lia]. eapply ok_opt, ok_function_call; exact HV. }
          eapply ok_and' with (l := 0) (l' := 0) (P := opt_post (Forall (wf value_all)))
            (Q := fun x => W type_all (fst x) = true /\ opt_post (Forall (wf value_all)) (snd x));
            [| |cbn [fst snd]; auto|cbn; lia].
          -- eapply ok_level; [eapply ok_terminated; [exact HC|apply ok_multispace0]|apply Nat.le_0_l].
          -- eapply ok_and' with (l := 0) (l' := 0) (P := wf type_all) (Q := opt_post (Forall (wf value_all)));
               [|exact HC|cbn [fst snd]; auto|cbn; lia].
             eapply ok_level; [eapply ok_terminated; [exact HT|apply ok_multispace0]|apply Nat.le_0_l].
    - intros [b [p [t c]]] (_ & Hp & Ht & Hc). cbn [fst snd] in *. rewrite new_all_eq, Ht.
      destruct p, c; cbn [opt_all opt_post] in *; rewrite ?Forall_all in *; rewrite ?Hp, ?Hc; reflexivity.
  Qed.

  Lemma ok_value_header c g :
    ok (S n) 1 (wf header_all) (parse_value_header E c g) (parse_value_header E' c g).
  Proof.
    unfold parse_value_header. repeat (apply ok_or).
    - eapply ok_map; [apply ok_literal|reflexivity].
    - eapply ok_map; [apply ok_new_expression|]. intros x Hx. now rewrite header_all_eq.
    - eapply ok_map with (P := wf type_all).
      + eapply ok_level; [eapply (ok_delimited_s n 0); [|exact HT|apply ok_char]|lia].
        eapply ok_level; [apply ok_tag|cbn; lia].
      + intros t Ht. now rewrite header_all_eq.
    - eapply ok_map with (P := wf type_all).
      + eapply ok_level; [eapply (ok_delimited_s n 0); [|exact HT|apply ok_char]|lia].
        eapply ok_level; [apply ok_tag|cbn; lia].
      + intros t Ht. now rewrite header_all_eq.
    - eapply ok_map; [apply (ok_id_expression n E E' HT HV)|]. intros x Hx. now rewrite header_all_eq.
    - eapply ok_map with (P := fun x => wfop (fst x) /\ W value_all (snd x) = true).
      + eapply ok_level; [unfold separated_pair; eapply (ok_and_s n 0 1 wfop (wf value_all)); [apply ok_unary_prefix|]|].
        * eapply (ok_preceded n 0 1 T); [apply ok_multispace0|apply HV].
        * lia.
      + intros [op v] [Ho Hv]. rewrite header_all_eq. cbn [fst snd] in *. unfold wfop in Ho.
        now rewrite Ho, Hv.
    - eapply ok_map with (P := wf value_all).
      + eapply ok_level; [eapply (ok_delimited_s n 1); [apply (ok_then_ws (S n) "(")|apply HV|apply ok_ws_then]|lia].
      + intros t Ht. now rewrite header_all_eq.
    - eapply ok_level; [eapply ok_value; [apply ok_tag|reflexivity]|cbn; lia].
  Qed.

  Lemma ok_after_value c g :
    ok (S n) 2 (wf after_all) (parse_after_value E c g) (parse_after_value E' c g).
  Proof.
    unfold parse_after_value.
    apply ok_starts; [|apply ok_starts; [|apply ok_starts; [apply ok_or|apply ok_starts; [|apply ok_or]]]].
    - eapply ok_map; [apply ok_function_call; exact HV|]. intros l Hl. rewrite after_all_eq.
      now apply Forall_all.
    - eapply ok_map with (P := fun x => W value_all (fst x) = true /\ W value_all (snd x) = true).
      + eapply ok_level; [eapply (ok_preceded_s n 1 0); [apply (ok_then_ws (S n) "?")|]|lia].
        eapply ok_level; [|apply Nat.le_0_l].
        eapply ok_sep_pair with (Q := T) (l' := 2)
          (P := wf value_all) (R := wf value_all); [apply HV| |apply HV].
        wk ltac:(eapply ok_and; [eapply ok_and; [apply ok_multispace0|apply ok_char]|apply ok_multispace0]).
      + intros [v1 v2] [H1 H2]. rewrite after_all_eq. cbn [fst snd] in *. now rewrite H1, H2.
    - eapply ok_map with (P := wf unqualified_all).
      + eapply ok_level; [eapply ok_preceded; [apply ok_then_ws|apply (ok_unqualified_id n E E' HT HV)]|cbn; lia].
      + intros t Ht. now rewrite after_all_eq.
    - eapply ok_level; [eapply ok_value; [apply ok_tag|reflexivity]|cbn; lia].
    - eapply ok_map with (P := wf value_all).
      + eapply ok_level; [eapply (ok_delimited_s n 1); [apply (ok_then_ws (S n) "[")|apply HV|apply ok_ws_then]|lia].
      + intros t Ht. now rewrite after_all_eq.
    - eapply ok_map with (P := fun x => wfop (fst x) /\ W value_all (snd x) = true).
      + eapply ok_level; [unfold separated_pair; eapply (ok_and_s n 1 1 wfop (wf value_all)); [now apply ok_middle|]|].
        * eapply (ok_preceded n 0 1 T); [apply ok_multispace0|apply HV].
        * lia.
      + intros [op v] [Ho Hv]. rewrite after_all_eq. cbn [fst snd] in *. unfold wfop in Ho.
        now rewrite Ho, Hv.
    - eapply ok_map with (P := wfop); [now apply ok_incdec|]. intros op Ho. now rewrite after_all_eq.
  Qed.

  Lemma ok_value_like c g :
    ok (S n) 1 (wf value_all) (parse_value_like E c g) (parse_value_like E' c g).
  Proof.
    unfold parse_value_like. eapply ok_map.
    - eapply ok_level; [eapply ok_and; [apply ok_value_header|]|].
      + eapply ok_intern_many0; [lia|].
        eapply ok_level; [eapply ok_preceded; [apply ok_multispace0|apply ok_after_value]|lia].
      + lia.
    - intros [h l] [Hh Hl]. cbn [fst snd] in *. rewrite value_all_eq, Hh. now apply Forall_all.
  Qed.
End Values.

(** Budgets that exceed the length of the input are equivalent and never exhausted *)
Lemma env_ok n : forall a b, n <= a -> n <= b ->
  ok n 1 (wf type_all) (r_type (env_n a)) (r_type (env_n b)) /\
  (forall c g, ok n 1 (wf value_all) (r_value (env_n a) c g) (r_value (env_n b) c g)) /\
  ok n 0 (Forall (wf decl_all)) (r_decl (env_n a)) (r_decl (env_n b)).
Proof.
  induction n as [|n IH]; intros a b Ha Hb.
  - split; [intros s Hs; lia|split; [intros c g s Hs; lia|intros s Hs; lia]].
  - destruct a as [|a]; [lia|]. destruct b as [|b]; [lia|].
    destruct (IH a b ltac:(lia) ltac:(lia)) as (HT & HV & HD).
    cbn [env_n r_type r_value r_decl]. split; [|split].
    + exact (ok_type_like n _ _ HT HV HD).
    + intros c g. exact (ok_value_like n _ _ HT HV c g).
    + exact (ok_declarator n _ _ HT HV HD).
Qed.

Lemma entity_ok n a b : n <= a -> n <= b ->
  ok n 1 (fun e => well_formed e = true)
     (terminated (por (pmap Some (r_type (env_n a))) (pvalue None parse_unknown_entity)) eof)
     (terminated (por (pmap Some (r_type (env_n b))) (pvalue None parse_unknown_entity)) eof).
Proof.
  intros Ha Hb. destruct (env_ok n a b Ha Hb) as (HT & _).
  eapply ok_level; [eapply ok_terminated with (l := 1); [apply ok_or|apply ok_eof]|cbn; lia].
  - eapply ok_map; [exact HT|]. intros t Ht. exact Ht.
  - eapply ok_level; [eapply ok_value; [apply ok_tag|reflexivity]|cbn; lia].
Qed.

Lemma entity_result_ok s : match parse_entity s with
  | EOk e => well_formed e = true
  | EErr => True
  | EPanic w => may_panic w s
  | EFuel => False
  end.
Proof.
  unfold parse_entity, parse_entity_n.
  pose proof (entity_ok (S (List.length s)) (S (List.length s)) (S (List.length s)) (le_n _) (le_n _) s
                ltac:(lia)) as [_ H].
  destruct (terminated _ eof s) as [r e| |w|]; auto. now destruct H as [_ [_ H]].
Qed.

Lemma entity_budget s n m : List.length s < n -> List.length s < m ->
  parse_entity_n n s = parse_entity_n m s.
Proof.
  intros Hn Hm. unfold parse_entity_n.
  pose proof (entity_ok (S (List.length s)) n m Hn Hm s ltac:(lia)) as [H _]. now rewrite H.
Qed.

Lemma entity_panic s why : parse_entity s = EPanic why -> may_panic why s.
Proof. intros E. pose proof (entity_result_ok s) as H. now rewrite E in H. Qed.
Lemma entity_wf s e : parse_entity s = EOk e -> well_formed e = true.
Proof. intros E. pose proof (entity_result_ok s) as H. now rewrite E in H. Qed.
Lemma entity_terminates s n : List.length s < n ->
  parse_entity_n n s = parse_entity s /\ parse_entity s <> EFuel.
Proof.
  intros H. split; [now apply entity_budget; [|unfold lt]|].
  intros E. pose proof (entity_result_ok s) as H'. now rewrite E in H'.
Qed.

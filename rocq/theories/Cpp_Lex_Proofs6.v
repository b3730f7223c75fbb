(** Operators. *)
From Coq Require Import Ascii String Permutation.
From Verif Require Import Base Cpp_Lex_Model Cpp_Ast_Model Cpp_Parse_Model Cpp_Lex_Spec
  Cpp_Display_Spec Cpp_Parse_Spec Cpp_Parse_Proofs Cpp_Parse_Proofs2 Cpp_Lex_Proofs Cpp_Lex_Proofs2 Cpp_Lex_Proofs3
  Cpp_Lex_Proofs4 Cpp_Lex_Proofs5.
Local Open Scope nat_scope.
Local Open Scope bool_scope.
Local Open Scope list_scope.

Lemma show_sym_text x : show_sym x = symbol_text x.
Proof. now destruct x. Qed.
Lemma symbol_ok x r : symbol (symbol_text x ++ r) = POk r x.
Proof. now destruct x. Qed.
Lemma symbol_iff s r x : symbol s = POk r x <-> s = symbol_text x ++ r.
Proof.
  split; [|intros ->; apply symbol_ok]. intros H. pose proof (symbol_spec s) as S. rewrite H in S.
  now rewrite <- show_sym_text.
Qed.
Lemma symbol_length x : List.length (symbol_text x) = 1.
Proof. now destruct x. Qed.
Lemma symbol_text_inj x y r r' : symbol_text x ++ r = symbol_text y ++ r' -> x = y /\ r = r'.
Proof. intros H. assert (E : symbol (symbol_text x ++ r) = symbol (symbol_text y ++ r')) by now rewrite H.
  rewrite !symbol_ok in E. now injection E. Qed.

Lemma sym_eqb_eq x y : sym_eqb x y = true <-> x = y.
Proof. split; [|intros ->; now destruct y]. destruct x, y; cbn; congruence. Qed.

Section Ops.
  Context {X : Type}.

  Lemma arith1_iff s r (op : operator X) : arithmetic_or_comparison1 s = POk r op <->
    exists t, written op t /\ List.length t = 1 /\ s = t ++ r.
  Proof.
    unfold arithmetic_or_comparison1. split.
    - intros H. apply pmap_cases in H as (x & H & ->). apply symbol_iff in H. exists (symbol_text x).
      split; [split; [discriminate|cbn; now rewrite app_nil_r]|]. split; [apply symbol_length|exact H].
    - intros (t & [Hc Ht] & Hl & ->). unfold pmap.
      destruct op as [x tw eq|st| |ix|id|nd ar| |ty]; cbn [operator_text] in Ht; try discriminate.
      + injection Ht as <-. rewrite !app_length, symbol_length in Hl.
        destruct tw; [rewrite symbol_length in Hl; cbn in Hl; lia|].
        destruct eq; [cbn in Hl; lia|]. rewrite !app_nil_r, symbol_ok. reflexivity.
      + injection Ht as <-. destruct st; discriminate.
      + injection Ht as <-. discriminate.
  Qed.

  Lemma pair_iff s r x y : pand symbol symbol s = POk r (x, y) <-> s = symbol_text x ++ symbol_text y ++ r.
  Proof.
    split.
    - intros H. apply pand_cases in H as (r' & H1 & H2). apply symbol_iff in H1, H2. cbn [fst snd] in *. now subst.
    - intros ->. unfold pand. rewrite symbol_ok. cbn [pbind]. rewrite symbol_ok. reflexivity.
  Qed.
  Lemma triple_iff s r x y z : pand symbol (pand symbol symbol) s = POk r (x, (y, z)) <->
    s = symbol_text x ++ symbol_text y ++ symbol_text z ++ r.
  Proof.
    split.
    - intros H. apply pand_cases in H as (r' & H1 & H2). cbn [fst snd] in *. apply symbol_iff in H1.
      apply pair_iff in H2. now subst.
    - intros ->. unfold pand at 1. rewrite symbol_ok. cbn [pbind].
      assert (E := proj2 (pair_iff (symbol_text y ++ symbol_text z ++ r) r y z) eq_refl). rewrite E. reflexivity.
  Qed.

  Definition op2 (x y : sym) : option (operator X) :=
    match y with
    | AssignEq => Some (OBasic x false true)
    | _ => if sym_eqb y x then Some (OBasic x true false)
           else match x, y with SubNeg, Greater => Some (ODeref false) | _, _ => None end
    end.
  Definition op3 (x y z : sym) : option (operator X) :=
    if sym_eqb z AssignEq && sym_eqb y x then Some (OBasic x true true)
    else match x, y, z with
         | SubNeg, Greater, MulDeref => Some (ODeref true)
         | Less, AssignEq, Greater => Some OSpaceship
         | _, _, _ => None
         end.
  Lemma arith2_eq s : @arithmetic_or_comparison2 X s =
    map_opt (pand symbol symbol) (fun p => op2 (fst p) (snd p)) s.
  Proof.
    unfold arithmetic_or_comparison2, map_opt.
    destruct (pand symbol symbol s) as [r [x y]| | |]; cbn [pbind fst snd]; [|reflexivity..].
    destruct y; reflexivity.
  Qed.
  Lemma arith3_eq s : @arithmetic_or_comparison3 X s =
    map_opt (pand symbol (pand symbol symbol)) (fun p => op3 (fst p) (fst (snd p)) (snd (snd p))) s.
  Proof.
    unfold arithmetic_or_comparison3, map_opt.
    destruct (pand symbol (pand symbol symbol) s) as [r [x [y z]]| | |]; reflexivity.
  Qed.

  Lemma op2_text x y op : op2 x y = Some op -> written op (symbol_text x ++ symbol_text y).
  Proof.
    destruct x, y; cbn; intros H; try discriminate; injection H as <-; split; (discriminate || reflexivity).
  Qed.
  Lemma op3_text x y z op : op3 x y z = Some op -> written op (symbol_text x ++ symbol_text y ++ symbol_text z).
  Proof.
    destruct x, y, z; cbn; intros H; try discriminate; injection H as <-; split; (discriminate || reflexivity).
  Qed.
  Lemma text_op2 (op : operator X) t : written op t -> List.length t = 2 ->
    exists x y, op2 x y = Some op /\ t = symbol_text x ++ symbol_text y.
  Proof.
    intros [Hc Ht] Hl. destruct op as [x tw eq|st| |ix|id|nd ar| |ty]; cbn [operator_text] in Ht; try discriminate.
    - injection Ht as <-. destruct tw, eq; rewrite ?app_nil_r, ?app_length, ?symbol_length in Hl; cbn in Hl; try lia.
      + exists x, x. split; [|now rewrite app_nil_r]. destruct x; try reflexivity. now destruct Hc.
      + exists x, AssignEq. now split.
    - injection Ht as <-. destruct st; [discriminate|]. exists SubNeg, Greater. now split.
    - injection Ht as <-. discriminate.
  Qed.
  Lemma text_op3 (op : operator X) t : written op t -> List.length t = 3 ->
    exists x y z, op3 x y z = Some op /\ t = symbol_text x ++ symbol_text y ++ symbol_text z.
  Proof.
    intros [Hc Ht] Hl. destruct op as [x tw eq|st| |ix|id|nd ar| |ty]; cbn [operator_text] in Ht; try discriminate.
    - injection Ht as <-. destruct tw, eq; rewrite ?app_nil_r, ?app_length, ?symbol_length in Hl; cbn in Hl; try lia.
      exists x, x, AssignEq. split; [now destruct x|reflexivity].
    - injection Ht as <-. destruct st; [|discriminate]. exists SubNeg, Greater, MulDeref. now split.
    - injection Ht as <-. exists Less, AssignEq, Greater. now split.
  Qed.

  Lemma arith2_iff s r (op : operator X) : arithmetic_or_comparison2 s = POk r op <->
    exists t, written op t /\ List.length t = 2 /\ s = t ++ r.
  Proof.
    rewrite arith2_eq. split.
    - intros H. apply map_opt_cases in H as ([x y] & H & E). apply pair_iff in H. cbn [fst snd] in E.
      exists (symbol_text x ++ symbol_text y). split; [now apply op2_text|].
      split; [now rewrite app_length, !symbol_length|]. now rewrite <- app_assoc.
    - intros (t & Hw & Hl & ->). destruct (text_op2 op t Hw Hl) as (x & y & E & ->). unfold map_opt.
      rewrite <- app_assoc, (proj2 (pair_iff _ r x y) eq_refl). cbn [pbind fst snd]. now rewrite E.
  Qed.
  Lemma arith3_iff s r (op : operator X) : arithmetic_or_comparison3 s = POk r op <->
    exists t, written op t /\ List.length t = 3 /\ s = t ++ r.
  Proof.
    rewrite arith3_eq. split.
    - intros H. apply map_opt_cases in H as ([x [y z]] & H & E). apply triple_iff in H. cbn [fst snd] in E.
      exists (symbol_text x ++ symbol_text y ++ symbol_text z). split; [now apply op3_text|].
      split; [now rewrite !app_length, !symbol_length|]. now rewrite <- !app_assoc.
    - intros (t & Hw & Hl & ->). destruct (text_op3 op t Hw Hl) as (x & y & z & E & ->). unfold map_opt.
      rewrite <- !app_assoc, (proj2 (triple_iff _ r x y z) eq_refl). cbn [pbind fst snd]. now rewrite E.
  Qed.

  (** Texts of operators have one to three characters and determine the operator *)
  Lemma written_length (op : operator X) t : written op t ->
    List.length t = 1 \/ List.length t = 2 \/ List.length t = 3.
  Proof.
    intros [_ Ht]. destruct op as [x tw eq|st| |ix|id|nd ar| |ty]; cbn [operator_text] in Ht; try discriminate;
      injection Ht as <-.
    - rewrite !app_length, symbol_length. destruct tw, eq; rewrite ?symbol_length; cbn; lia.
    - destruct st; cbn; lia.
    - cbn. lia.
  Qed.
  Lemma written_inj (op op' : operator X) t : written op t -> written op' t -> op = op'.
  Proof.
    intros H H'.
    assert (G : forall p : parser (operator X), p t = POk [] op -> p t = POk [] op' -> op = op') by (intros p; congruence).
    destruct (written_length op t H) as [L|[L|L]].
    - apply (G arithmetic_or_comparison1); apply arith1_iff; exists t; rewrite app_nil_r; auto.
    - apply (G arithmetic_or_comparison2); apply arith2_iff; exists t; rewrite app_nil_r; auto.
    - apply (G arithmetic_or_comparison3); apply arith3_iff; exists t; rewrite app_nil_r; auto.
  Qed.

  Lemma symbol_total s : (exists r x, symbol s = POk r x) \/ symbol s = PErr.
  Proof. pose proof (symbol_spec s). destruct (symbol s); try easy; [left; eauto|now right]. Qed.
  Lemma pair_total s : (exists r x, pand symbol symbol s = POk r x) \/ pand symbol symbol s = PErr.
  Proof.
    unfold pand. destruct (symbol_total s) as [(r & x & ->)| ->]; cbn [pbind]; [|now right].
    destruct (symbol_total r) as [(r' & y & ->)| ->]; cbn [pbind]; [left; eauto|now right].
  Qed.
  Lemma arith1_total s : (exists r op, @arithmetic_or_comparison1 X s = POk r op) \/ @arithmetic_or_comparison1 X s = PErr.
  Proof.
    unfold arithmetic_or_comparison1, pmap.
    destruct (symbol_total s) as [(r & x & ->)| ->]; cbn [pbind]; [left; eauto|now right].
  Qed.
  Lemma arith2_total s : (exists r op, @arithmetic_or_comparison2 X s = POk r op) \/ @arithmetic_or_comparison2 X s = PErr.
  Proof.
    rewrite arith2_eq. unfold map_opt.
    destruct (pair_total s) as [(r & [x y] & ->)| ->]; cbn [pbind fst snd]; [|now right].
    destruct (op2 x y); [left; eauto|now right].
  Qed.
  Lemma arith3_total s : (exists r op, @arithmetic_or_comparison3 X s = POk r op) \/ @arithmetic_or_comparison3 X s = PErr.
  Proof.
    assert (H : (exists r x, pand symbol (pand symbol symbol) s = POk r x) \/
                pand symbol (pand symbol symbol) s = PErr).
    { unfold pand at 1 3.
      destruct (symbol_total s) as [(r & x & ->)| ->]; cbn [pbind]; [|now right].
      destruct (pair_total r) as [(r' & y & ->)| ->]; cbn [pbind]; [left; eauto|now right]. }
    rewrite arith3_eq. unfold map_opt.
    destruct H as [(r & [x [y z]] & ->)| ->]; cbn [pbind fst snd]; [|now right].
    destruct (op3 x y z); [left; eauto|now right].
  Qed.

  (** ** Binary operators *)

  Definition bad_double (x : sym) : bool :=
    match x with Xor | Mod | Div | MulDeref | BitNot | Not | Comma => true | _ => false end.

  Lemma bin1_iff c g s r (op : operator X) : binary1 c g s = POk r op <->
    exists t, written op t /\ List.length t = 1 /\ s = t ++ r /\ binary_operator c g op.
  Proof.
    unfold binary1, verify_panicking. split.
    - destruct (arithmetic_or_comparison1 s) as [r' op'| | |] eqn:E; cbn [pbind]; try discriminate.
      pose proof (proj1 (arith1_iff _ _ _) E) as (t & Hw & Hl & ->). intros H. exists t.
      assert (Eop : op' = op /\ r' = r).
      { destruct op' as [x [] []| | | | | | |]; try discriminate. destruct x, c, g; cbn in H; try discriminate; injection H as <- <-; auto. }
      destruct Eop as [-> ->]. repeat split; auto; try apply Hw.
      destruct op as [x [] []| | | | | | |]; try discriminate. destruct x, c, g; cbn in H; try discriminate; cbn; auto 15.
    - intros (t & Hw & Hl & -> & Hb). rewrite (proj2 (arith1_iff (t ++ r) r op)) by eauto. cbn [pbind].
      destruct Hw as [_ Ht]. destruct op as [x tw eq|st| |ix|id|nd ar| |ty]; cbn [operator_text] in Ht; try discriminate;
        injection Ht as <-; [|destruct st; discriminate|discriminate].
      rewrite !app_length, symbol_length in Hl.
      destruct tw; [rewrite symbol_length in Hl; lia|]. destruct eq; [cbn in Hl; lia|].
      cbn [binary_operator] in Hb. destruct x, c, g; cbn in *; try reflexivity; exfalso;
        repeat match goal with H : _ \/ _ |- _ => destruct H | H : _ /\ _ |- _ => destruct H end; congruence.
  Qed.

  Lemma bin2_spec g s :
    (exists r op t, binary2 g s = POk r op /\ written (op : operator X) t /\ List.length t = 2 /\ s = t ++ r /\
       forall c, binary_operator c g op) \/
    (exists x r, binary2 (T := X) g s = PPanic PROperator /\ bad_double x = true /\ s = symbol_text x ++ symbol_text x ++ r) \/
    (binary2 (T := X) g s = PErr /\
     forall t (op : operator X) r c, written op t -> List.length t = 2 -> s = t ++ r -> ~ binary_operator c g op).
  Proof.
    unfold binary2, verify_panicking. destruct (arith2_total s) as [(r & op & E)|E]; rewrite E; cbn [pbind].
    - pose proof (proj1 (arith2_iff _ _ _) E) as (t & Hw & Hl & Hs).
      assert (U : forall t' (op' : operator X) r', written op' t' -> List.length t' = 2 -> s = t' ++ r' -> op' = op).
      { intros t' op' r' H1 H2 H3. rewrite (proj2 (arith2_iff s r' op')) in E by eauto. congruence. }
      assert (OK : (forall c, binary_operator c g op) ->
         exists r0 op0 t0, POk r op = POk r0 op0 /\ written (op0 : operator X) t0 /\ List.length t0 = 2 /\ s = t0 ++ r0 /\
           forall c, binary_operator c g op0) by (intros Hb; exists r, op, t; auto 6).
      destruct op as [x tw eq|st| |ix|id|nd ar| |ty]; try (destruct Hw as [_ Hw]; discriminate).
      + destruct tw.
        * destruct eq; [left; apply OK; intros c; exact I|].
          assert (Hx : s = symbol_text x ++ symbol_text x ++ r).
          { destruct Hw as [_ Hw]. cbn [operator_text] in Hw. injection Hw as <-. rewrite Hs, app_nil_r. now rewrite <- app_assoc. }
          destruct x; cbn [accept_if];
            try (left; apply OK; intros c; cbn; auto; fail);
            try (right; left; eexists _, r; split; [reflexivity|]; split; [|exact Hx]; reflexivity);
            try (right; right; split; [reflexivity|]; intros t' op' r' c H1 H2 H3; rewrite (U t' op' r' H1 H2 H3);
                 cbn; intuition congruence).
          { left. apply OK. intros c. exfalso. apply (proj1 Hw). reflexivity. }
          destruct g; cbn [accept_if].
          -- left. apply OK. intros c. cbn. auto.
          -- right. right. split; [reflexivity|]. intros t' op' r' c H1 H2 H3. rewrite (U t' op' r' H1 H2 H3).
             cbn. intuition congruence.
        * destruct eq; [left; apply OK; intros c; exact I|].
          exfalso. destruct Hw as [_ Hw]. cbn [operator_text] in Hw. injection Hw as <-.
          rewrite !app_length, symbol_length in Hl. cbn in Hl. lia.
      + left. apply OK. intros c. exact I.
      + left. apply OK. intros c. exact I.
    - right. right. split; [reflexivity|]. intros t op r c H1 H2 H3 _.
      rewrite (proj2 (arith2_iff s r op)) in E by eauto. discriminate.
  Qed.

  Lemma arith3_double x r : bad_double x = true ->
    @arithmetic_or_comparison3 X (symbol_text x ++ symbol_text x ++ r) = PErr -> forall r', r <> 61%N :: r'.
  Proof.
    intros _ H r' ->.
    rewrite (proj2 (arith3_iff (symbol_text x ++ symbol_text x ++ 61%N :: r') r' (OBasic x true true))) in H; [discriminate|].
    exists (symbol_text x ++ symbol_text x ++ of_string "="). split; [split; [discriminate|reflexivity]|].
    split; [now rewrite !app_length, !symbol_length|]. now rewrite <- !app_assoc.
  Qed.

  Lemma bad_double_char x : bad_double x = true -> exists c, symbol_text x = [c] /\ In c (of_string "^%/*~!,").
  Proof.
    destruct x; try discriminate; intros _; eexists; (split; [reflexivity|]); cbn; intuition.
  Qed.

  (** C28: what the parser of binary operators does *)
  Lemma binary_result c g s :
    (exists r (op : operator X) t, parse_binary_expr_middle c g s = POk r op /\ s = t ++ r /\ written op t /\
       binary_operator c g op /\
       forall (op' : operator X) t' r', written op' t' -> binary_operator c g op' -> s = t' ++ r' ->
         List.length t' <= List.length t) \/
    (parse_binary_expr_middle (T := X) c g s = PErr /\
       forall (op : operator X) t r, written op t -> binary_operator c g op -> s <> t ++ r) \/
    (parse_binary_expr_middle (T := X) c g s = PPanic PROperator /\
       exists x r, In x (of_string "^%/*~!,") /\ s = x :: x :: r /\ forall r', r <> 61%N :: r').
  Proof.
    unfold parse_binary_expr_middle, por.
    destruct (arith3_total s) as [(r & op & E)|E]; rewrite E.
    - apply arith3_iff in E as (t & Hw & Hl & ->). left. exists r, op, t.
      repeat split; try apply Hw.
      + destruct Hw as [_ Ht]. destruct op as [x tw eq|st| |ix|id|nd ar| |ty]; cbn [operator_text] in Ht; try discriminate; try exact I.
        destruct eq; [destruct tw; exact I|]. exfalso. injection Ht as <-.
        rewrite !app_length, symbol_length in Hl. destruct tw; rewrite ?symbol_length in Hl; cbn in Hl; lia.
      + intros op' t' r' Hw' _ _. pose proof (written_length op' t' Hw'). lia.
    - assert (N3 : forall (op : operator X) t r, written op t -> s = t ++ r -> List.length t <> 3).
      { intros op t r Hw Hs Hl. rewrite (proj2 (arith3_iff s r op)) in E by eauto. discriminate. }
      destruct (bin2_spec g s) as [(r & op & t & E2 & Hw & Hl & Hs & Hb)|[(x & r & E2 & Hx & Hs)|(E2 & N2)]]; rewrite E2.
      + left. exists r, op, t. repeat split; auto; try apply Hw.
        intros op' t' r' Hw' _ Hs'. pose proof (written_length op' t' Hw'). specialize (N3 op' t' r' Hw' Hs'). lia.
      + right. right. split; [reflexivity|]. rewrite Hs in E. pose proof (arith3_double x r Hx E) as Hr.
        destruct (bad_double_char x Hx) as (ch & Ech & Hch). rewrite Ech in Hs. exists ch, r. auto.
      + destruct (binary1 c g s) as [r op| |w|] eqn:E1.
        * left. pose proof (proj1 (bin1_iff _ _ _ _ _) E1) as (t & Hw & Hl & Hs & Hb). exists r, op, t.
          repeat split; auto; try apply Hw. intros op' t' r' Hw' Hb' Hs'.
          pose proof (written_length op' t' Hw'). specialize (N3 op' t' r' Hw' Hs').
          destruct (Nat.eq_dec (List.length t') 2) as [H2|H2]; [|lia]. now destruct (N2 t' op' r' c Hw' H2 Hs').
        * right. left. split; [reflexivity|]. intros op t r Hw Hb Hs.
          destruct (written_length op t Hw) as [H|[H|H]].
          -- rewrite (proj2 (bin1_iff c g s r op)) in E1 by eauto 6. discriminate.
          -- now apply (N2 t op r c Hw H Hs).
          -- exact (N3 op t r Hw Hs H).
        * exfalso. unfold binary1, verify_panicking in E1.
          destruct (arith1_total s) as [(r & op & Ea)|Ea]; rewrite Ea in E1; cbn [pbind] in E1; [|discriminate].
          unfold arithmetic_or_comparison1 in Ea. apply pmap_cases in Ea as (x & _ & ->).
          destruct x, c, g; discriminate.
        * exfalso. unfold binary1, verify_panicking in E1.
          destruct (arith1_total s) as [(r & op & Ea)|Ea]; rewrite Ea in E1; cbn [pbind] in E1; [|discriminate].
          unfold arithmetic_or_comparison1 in Ea. apply pmap_cases in Ea as (x & _ & ->).
          destruct x, c, g; discriminate.
  Qed.

  (** ** Round trip *)

  Lemma no_symbol_iff s : no_symbol s <-> forall x r, s <> symbol_text x ++ r.
  Proof.
    unfold no_symbol. split.
    - intros H x r ->. destruct x; (eapply (H _ r); [reflexivity|cbn; tauto]).
    - intros H c r -> Hc. cbn in Hc.
      repeat (destruct Hc as [Hc|Hc]; [subst c|]); try destruct Hc.
      + now apply (H AddPlus r).
      + now apply (H SubNeg r).
      + now apply (H MulDeref r).
      + now apply (H Div r).
      + now apply (H Mod r).
      + now apply (H Xor r).
      + now apply (H AndRef r).
      + now apply (H Or r).
      + now apply (H BitNot r).
      + now apply (H Not r).
      + now apply (H AssignEq r).
      + now apply (H Less r).
      + now apply (H Greater r).
      + now apply (H Comma r).
  Qed.

  (** texts of operators are made of symbols *)
  Lemma written_symbols (op : operator X) t : written op t -> exists l, t = concat (map symbol_text l).
  Proof.
    intros Hw. destruct (written_length op t Hw) as [H|[H|H]].
    - assert (E : arithmetic_or_comparison1 (t ++ []) = POk [] op) by (apply arith1_iff; eauto).
      unfold arithmetic_or_comparison1 in E. apply pmap_cases in E as (x & E & _). apply symbol_iff in E.
      rewrite !app_nil_r in E. exists [x]. cbn. now rewrite app_nil_r.
    - destruct (text_op2 op t Hw H) as (x & y & _ & ->). exists [x; y]. cbn. now rewrite app_nil_r.
    - destruct (text_op3 op t Hw H) as (x & y & z & _ & ->). exists [x; y; z]. cbn. now rewrite app_nil_r.
  Qed.
  Lemma prefix_symbols (l l' : list sym) r r' :
    concat (map symbol_text l) ++ r = concat (map symbol_text l') ++ r' ->
    no_symbol r' -> List.length l <= List.length l'.
  Proof.
    intros H Hr. rewrite no_symbol_iff in Hr. revert l' H. induction l as [|x l IH]; intros l' H; [cbn; lia|].
    cbn [map concat] in H. destruct l' as [|y l']; cbn [map concat app] in H.
    - exfalso. rewrite <- app_assoc in H. now apply (Hr x (concat (map symbol_text l) ++ r)).
    - rewrite <- !app_assoc in H. apply symbol_text_inj in H as [_ H]. apply IH in H. cbn. lia.
  Qed.
  Lemma symbols_length l : List.length (concat (map symbol_text l)) = List.length l.
  Proof. induction l as [|x l IH]; [reflexivity|]. cbn [map concat]. rewrite app_length, symbol_length, IH. reflexivity. Qed.
  Lemma app_same_length {A} (a b c d : list A) : a ++ b = c ++ d -> List.length a = List.length c -> a = c /\ b = d.
  Proof.
    revert c. induction a as [|x a IH]; intros [|y c] H L; cbn in *; try lia; [now split|].
    injection H as -> H. destruct (IH c H ltac:(lia)) as [-> ->]. now split.
  Qed.

  Lemma binary_round_trip c g (op : operator X) t rest : written op t -> binary_operator c g op -> no_symbol rest ->
    parse_binary_expr_middle c g (t ++ rest) = POk rest op.
  Proof.
    intros Hw Hb Hr.
    destruct (binary_result c g (t ++ rest)) as [(r & op' & t' & E & Hs & Hw' & _ & Hmax)|[(E & Hno)|(E & x & r & Hx & Hs & Hne)]].
    - assert (L1 : List.length t <= List.length t') by (eapply Hmax; eauto).
      destruct (written_symbols op t Hw) as (l & El). destruct (written_symbols op' t' Hw') as (l' & El').
      assert (L2 : List.length t' <= List.length t).
      { rewrite El, El', !symbols_length. apply (prefix_symbols l' l r rest); [|exact Hr]. now rewrite <- El, <- El'. }
      destruct (app_same_length t rest t' r Hs ltac:(lia)) as [-> ->].
      rewrite E. f_equal. exact (written_inj op' op t' Hw' Hw).
    - exfalso. now apply (Hno op t rest Hw Hb).
    - (* a doubled symbol that is not an operator: [t] would be longer or shorter *)
      exfalso. destruct (written_symbols op t Hw) as (l & El).
      assert (Hy : exists y, symbol_text y = [x] /\ bad_double y = true).
      { cbn in Hx. repeat (destruct Hx as [<-|Hx]; [|]); try destruct Hx.
        - now exists Xor. - now exists Mod. - now exists Div. - now exists MulDeref.
        - now exists BitNot. - now exists Not. - now exists Comma. }
      destruct Hy as (y & Ey & Hy).
      assert (Hs' : t ++ rest = concat (map symbol_text [y; y]) ++ r) by (cbn; rewrite Ey; exact Hs).
      assert (L : 2 <= List.length t).
      { rewrite El, symbols_length. apply (prefix_symbols [y; y] l r rest); [|exact Hr]. now rewrite <- El. }
      destruct (written_length op t Hw) as [H|[H|H]]; [lia| |].
      + destruct (app_same_length t rest _ r Hs' ltac:(rewrite symbols_length; exact H)) as [Et _].
        assert (Hyy : written (OBasic y true false : operator X) t).
        { rewrite Et. split; [intros [= ->]; discriminate Hy|]. cbn. now rewrite !app_nil_r. }
        rewrite (written_inj op _ t Hw Hyy) in Hb. destruct y; try discriminate Hy; cbn in Hb; intuition congruence.
      + destruct (text_op3 op t Hw H) as (x1 & x2 & x3 & E3 & Et). rewrite Et in Hs'. cbn [map concat] in Hs'.
        rewrite app_nil_r, <- !app_assoc in Hs'. apply symbol_text_inj in Hs' as [-> Hs'].
        apply symbol_text_inj in Hs' as [-> Hs'].
        unfold op3 in E3. destruct x3; cbn in E3; try (destruct y; discriminate).
        apply (Hne rest). rewrite <- Hs'. reflexivity.
  Qed.
End Ops.

(** What is displayed: the same text, between spaces for an operator between values that is not
    a member access *)
Lemma op_shown ty (op : operator type_like) t ctx d : written op t -> ctx <> Declaration ->
  text (fst (op_render ty op ctx d)) =
  match ctx, op with
  | BinaryUsage, ODeref _ => t
  | BinaryUsage, _ => of_string " " ++ t ++ of_string " "
  | _, _ => t
  end.
Proof.
  intros [_ Ht] Hc. destruct op as [x tw eq|st| |ix|id|nd ar| |cv]; cbn [operator_text] in Ht; try discriminate;
    injection Ht as <-; destruct ctx; try congruence; unfold op_render, andthen, when, writes, write, nothing, is_decl, is_binary, is_prefix;
    try destruct tw; try destruct eq; try destruct st; cbn [fst snd text app]; rewrite ?show_sym_text, <- ?app_assoc, ?app_nil_r; reflexivity.
Qed.
Lemma op_declared ty (op : operator type_like) t d : written op t ->
  text (fst (op_render ty op Declaration d)) = of_string "operator" ++ t.
Proof.
  intros [_ Ht]. destruct op as [x tw eq|st| |ix|id|nd ar| |cv]; cbn [operator_text] in Ht; try discriminate;
    injection Ht as <-; unfold op_render, andthen, when, writes, write, nothing, is_decl, is_binary, is_prefix;
    try destruct tw; try destruct eq; try destruct st; cbn [fst snd text app]; rewrite ?show_sym_text, <- ?app_assoc, ?app_nil_r; reflexivity.
Qed.

(** ** Operator overloads *)

Lemma no_less_no_templates E c r : c <> 60%N -> ~ white c ->
  preceded multispace0 (opt (parse_template_parameters E)) (c :: r) = POk (c :: r) None.
Proof.
  intros Hc Hw. unfold preceded, pmap, pand, multispace0. cbn [span].
  destruct (is_space c) eqn:Es; [apply space_iff in Es; tauto|]. cbn [snd pbind].
  assert (Et : parse_template_parameters E (c :: r) = PErr).
  { unfold parse_template_parameters, preceded, pmap at 1, pand at 1, then_ws, pvalue, pmap at 1, pand at 1.
    rewrite pchar_not by exact Hc. reflexivity. }
  unfold opt. rewrite Et. reflexivity.
Qed.

Lemma templates_ok E (p : parser (operator type_like)) s c r op :
  p s = POk (c :: r) op -> c <> 60%N -> ~ white c -> no_symbol (c :: r) ->
  arith_and_templates E p s = POk (c :: r) (op, None).
Proof.
  intros H Hc Hw Hn. unfold arith_and_templates, map_opt, pand at 1. rewrite H. cbn [pbind].
  unfold pand. rewrite no_less_no_templates by assumption. cbn [pbind]. unfold peek, opt.
  assert (Es : symbol (c :: r) = PErr).
  { destruct (symbol_total (c :: r)) as [(r' & x & Es)|Es]; [|exact Es]. apply symbol_iff in Es.
    rewrite no_symbol_iff in Hn. destruct (Hn x r' Es). }
  match goal with |- context [symbol ?z] => replace (symbol z) with (@PErr sym) by (symmetry; exact Es) end.
  reflexivity.
Qed.
Lemma templates_reject E (p : parser (operator type_like)) s x r op :
  p s = POk (symbol_text x ++ r) op -> x <> Less -> arith_and_templates E p s = PErr.
Proof.
  intros H Hx.
  assert (G : exists c, symbol_text x ++ r = c :: r /\ c <> 60%N /\ ~ white c).
  { destruct x; try congruence; eexists; (split; [reflexivity|]); split; try discriminate; cbn; intuition discriminate. }
  destruct G as (c & Ec & Hc & Hw). pose proof (symbol_ok x r) as Hs. rewrite Ec in H, Hs.
  unfold arith_and_templates, map_opt, pand at 1. rewrite H. cbn [pbind].
  unfold pand. rewrite no_less_no_templates by assumption. cbn [pbind]. unfold peek, opt.
  match goal with |- context [symbol ?z] => replace (symbol z) with (POk r x) by (symmetry; exact Hs) end.
  reflexivity.
Qed.
Lemma templates_err E (p : parser (operator type_like)) s : p s = PErr -> arith_and_templates E p s = PErr.
Proof. intros H. unfold arith_and_templates, map_opt, pand at 1. now rewrite H. Qed.

Lemma overload_round_trip E (op : operator type_like) t c rest :
  written op t -> (forall x r, t <> x :: 60%N :: r) -> c <> 60%N -> ~ white c -> no_symbol (c :: rest) ->
  parse_operator_overload E (of_string "operator" ++ t ++ c :: rest) = POk (c :: rest) (op, None).
Proof.
  intros Hw Hless Hc Hwc Hn. unfold parse_operator_overload.
  assert (Hwe : word_ends (t ++ c :: rest)).
  { destruct (written_symbols op t Hw) as (l & El).
    destruct l as [|x l]; [cbn in El; subst t; destruct (written_length op [] Hw) as [H|[H|H]]; discriminate|].
    rewrite El. cbn [map concat]. intros y r Ey Hy. apply id_continue_iff in Hy.
    destruct x; injection Ey as <- _; discriminate. }
  rewrite (preceded_eq _ _ _ (t ++ c :: rest) tt) by now apply keyword_ok.
  assert (G : por (arith_and_templates E arithmetic_or_comparison1)
           (por (arith_and_templates E arithmetic_or_comparison2)
                (arith_and_templates E arithmetic_or_comparison3)) (t ++ c :: rest) = POk (c :: rest) (op, None)).
  { unfold por. destruct (written_length op t Hw) as [L|[L|L]].
    - rewrite (templates_ok E _ _ c rest op); auto. apply arith1_iff. eauto.
    - destruct (text_op2 op t Hw L) as (x & y & _ & Et).
      assert (Hy : y <> Less).
      { intros ->. destruct x; cbn in Et; eapply Hless; exact Et. }
      rewrite (templates_reject E _ _ y (c :: rest) (OBasic x false false)); [|apply arith1_iff|exact Hy].
      + rewrite (templates_ok E _ _ c rest op); auto. apply arith2_iff. eauto.
      + exists (symbol_text x). split; [split; [discriminate|cbn; now rewrite app_nil_r]|].
        split; [apply symbol_length|]. now rewrite Et, <- app_assoc.
    - destruct (text_op3 op t Hw L) as (x & y & z & E3 & Et).
      assert (Hy : y <> Less).
      { intros ->. destruct x; cbn in Et; eapply Hless; exact Et. }
      assert (Hz : z <> Less).
      { intros ->. destruct x, y; discriminate E3. }
      rewrite (templates_reject E _ _ y (symbol_text z ++ c :: rest) (OBasic x false false)); [|apply arith1_iff|exact Hy].
      + assert (E2 : arith_and_templates E arithmetic_or_comparison2 (t ++ c :: rest) = PErr).
        { destruct (arith2_total (X := type_like) (t ++ c :: rest)) as [(r & op' & E2)|E2]; [|now apply templates_err].
          apply (templates_reject E _ _ z (c :: rest) op'); [|exact Hz]. rewrite E2. f_equal.
          apply arith2_iff in E2 as (t2 & _ & L2 & E2). rewrite Et, <- !app_assoc in E2.
          rewrite app_assoc in E2. apply app_same_length in E2 as [_ E2]; [now rewrite E2|].
          now rewrite app_length, !symbol_length, L2. }
        rewrite E2. rewrite (templates_ok E _ _ c rest op); auto. apply arith3_iff. eauto.
      + exists (symbol_text x). split; [split; [discriminate|cbn; now rewrite app_nil_r]|].
        split; [apply symbol_length|]. now rewrite Et, <- !app_assoc. }
  unfold por at 1. now rewrite G.
Qed.

(** ** Literals, together *)

Lemma literal_canonical s r l : parse_literal s = POk r l -> canonical_literal l.
Proof.
  intros H. destruct l as [[z|z|c] o]; cbn [canonical_literal lit_value lit_suffix].
  1,2: destruct (number_accepted s r _ H) as (sn & ds & sfx & _ & _ & _ & Ho & Hv); [cbn; congruence|];
    cbn [lit_value lit_suffix] in *; split;
    [cbv zeta in Hv; destruct Hv as [[Ev Hv]|[Ev [Hv _]]];
     first [discriminate Ev|injection Ev as ->; exact Hv]|destruct o as [i|]; [exact (Ho i eq_refl)|exact I]].
  split; [exact I|]. unfold parse_literal in H. apply pmap_cases in H as ([v o'] & H & E).
  cbn [fst snd] in E. injection E as <- <-. apply pand_cases in H as (r' & _ & Hs). cbn [snd] in Hs.
  apply opt_identifier in Hs as (_ & Hs & _). destruct o as [i|]; [split; [now apply Hs|exact I]|exact I].
Qed.

(** ** Qualifiers and type names: every text, and any order *)

Lemma cv_words_total s : exists ws r, words_then cv_words ws s r.
Proof.
  apply (words_then_total cv_words) with (n := S (List.length s)); [|lia].
  cbn. intuition discriminate.
Qed.
Lemma legacy_words_total s : exists ws r, words_then legacy_words ws s r.
Proof.
  apply (words_then_total legacy_words) with (n := S (List.length s)); [|lia].
  cbn. intuition discriminate.
Qed.

Lemma legacy_order ws ws' s s' r r' :
  words_then legacy_words ws s r -> words_then legacy_words ws' s' r' -> Permutation ws ws' ->
  (exists n, parse_legacy_name s = POk r n /\ parse_legacy_name s' = POk r' n) \/
  (parse_legacy_name s = PErr /\ parse_legacy_name s' = PErr).
Proof.
  intros H H' Hp. pose proof (words_then_vocabulary _ _ _ _ H) as Hv.
  pose proof (legacy_run ws s r H) as R. pose proof (legacy_run ws' s' r' H') as R'.
  rewrite <- (fold_perm ws ws' Hp Hv) in R'.
  destruct ws as [|w ws].
  - apply Permutation_nil in Hp. subst ws'. auto.
  - destruct ws' as [|w' ws']; [apply Permutation_sym, Permutation_nil in Hp; discriminate|].
    destruct (fold_left legacy_step _ _) as [b|]; [|auto].
    destruct (legacy_build b) as [n| |]; [left; eauto|auto|].
    exfalso. destruct (legacy_meaning _ _ _ H) as [(row & n & _ & _ & E)|[_ E]]; congruence.
Qed.

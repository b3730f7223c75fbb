(** Round trip of the core entities, part 6: types, values and the whole text. *)
From Coq Require Import Ascii String Permutation.
From Verif Require Import Base Cpp_Lex_Model Cpp_Ast_Model Cpp_Parse_Model Cpp_Lex_Spec
  Cpp_Display_Spec Cpp_Parse_Spec Cpp_Parse_Proofs Cpp_Parse_Proofs2 Cpp_Lex_Proofs Cpp_Lex_Proofs2
  Cpp_Lex_Proofs3 Cpp_Lex_Proofs4 Cpp_Lex_Proofs5 Cpp_Lex_Proofs6 Cpp_Core_Spec Cpp_Core_Proofs Cpp_Core_Proofs2
  Cpp_Core_Proofs3 Cpp_Core_Proofs4 Cpp_Core_Proofs5.
Local Open Scope nat_scope.
Local Open Scope bool_scope.
Local Open Scope list_scope.
Local Notation "' s" := (of_string s) (at level 0, s at level 0).

Section Style.
Context {st : style}.

Record good (E : env) (k : nat) : Prop := {
  gT : forall t rest, tok t = true -> tdep t <= k -> stops rest -> no_ge rest ->
    r_type E (ttext t ++ rest) = POk rest (tmean t);
  gV : forall v ac ag rest, vok v = true -> vdep v <= k -> vstop ac ag rest ->
    r_value E ac ag (vtext v ++ rest) = POk rest (vmean v);
  gB : forall s, bad_type s -> r_type E s = PErr;
  gW : forall ac ag s, no_value s -> r_value E ac ag s = PErr;
  gD : forall ops rest, forallb opok ops = true -> all_apart ops = true -> fewer ops 8 = true ->
    S (lmax opdep ops) <= k -> stops rest -> no_ge rest -> r_decl E (strip (opsT ops ++ rest)) = POk rest (map opmean ops);
  gX : forall ops rest, forallb opok ops = true -> all_apart ops = true ->
    S (lmax opdep ops) <= k -> stops rest -> no_ge rest -> r_type E (strip (opsT ops ++ rest)) = PErr;
  gP : forall v rest, vok v = true -> type_then v = true -> vdep v <= k -> vstop false true rest ->
    exists c r u, r_type E (vtext v ++ rest) = POk (c :: r) u /\ is_space c = false /\ c <> 44%N /\ c <> 41%N;
  gS : forall ac ag c s, 1 <= k -> In c '"+-" -> stops s -> r_value E ac ag (c :: s) = PErr;
  gQ : forall v ac ag rest, vok v = true -> before_colon v = true -> vdep v <= k ->
    r_value E ac ag (vtext v ++ '" : " ++ rest) = POk ('" : " ++ rest) (vmean v) }.

Lemma allowed_not h w : allowed h -> mem w reserved = true -> w <> '"operator" -> w <> '"decltype" -> h <> w.
Proof. intros [->|[->|H]] Hw H1 H2 E; [congruence|congruence|]. subst h. apply H. now apply mem_iff. Qed.
Lemma type_head t rest : tok_body t = true -> stops rest -> head (ttext t ++ rest) <> '"__attribute__".
Proof.
  intros Ht Hs. destruct (type_starts_body t rest Ht Hs) as [[H|H] _].
  - now apply (allowed_not _ '"__attribute__").
  - intros E. rewrite E in H. apply mem_iff in H. discriminate.
Qed.
Lemma prefix_iff p : forall s, prefix p s = true <-> exists r, s = p ++ r.
Proof.
  induction p as [|a p IH]; intros s; [split; [now exists s|reflexivity]|]. destruct s as [|b s]; cbn [prefix].
  - split; [discriminate|intros [r H]; discriminate].
  - rewrite andb_true_iff, N.eqb_eq, IH. split; [intros [-> [r ->]]; now exists r|intros [r [= -> ->]]; eauto].
Qed.

Lemma simple_key E k s r a : not_white s -> parse_id_expression E s = POk r a ->
  parse_simple_type E (key_word k ++ '" " ++ s) = POk r (STId a).
Proof.
  intros Hs H. assert (He : word_ends ('" " ++ s)) by now apply ends_char.
  assert (Hh : head (key_word k ++ '" " ++ s) = key_word k) by (apply head_word; [apply key_is_word|exact He]).
  unfold parse_simple_type. cbv zeta. rewrite por_next.
  2:{ apply pmap_err, legacy_none. rewrite Hh. intros Hi. apply mem_iff in Hi. destruct k; discriminate. }
  rewrite por_next.
  2:{ apply pmap_err, auto_err. intros x Ex. exfalso. destruct k; discriminate Ex. }
  fold simple_header. apply (preceded_ok _ _ _ s (Some (tt, tt))).
  - unfold simple_header. apply opt_ok_eq. apply (pand_ok _ _ _ ('" " ++ s)).
    + assert (K : forall w, is_word '(w) = true -> key_word k <> '(w) -> keyword_parser w (key_word k ++ '" " ++ s) = PErr).
      { intros w Hw Hn. apply keyword_head; [now apply is_word_iff|now rewrite Hh]. }
      cbn [keywords_parser]. destruct k; cbn [key_word] in *.
      * apply por_ok. eapply pvalue_ok. now apply keyword_ok.
      * rewrite por_next by (now apply pvalue_err, K). apply por_ok. eapply pvalue_ok. now apply keyword_ok.
      * do 2 rewrite por_next by (now apply pvalue_err, K). apply por_ok. eapply pvalue_ok. now apply keyword_ok.
      * do 3 rewrite por_next by (now apply pvalue_err, K). apply por_ok. eapply pvalue_ok. now apply keyword_ok.
      * do 4 rewrite por_next by (now apply pvalue_err, K). try apply por_ok. eapply pvalue_ok. now apply keyword_ok.
    + unfold multispace1. change ('" " ++ s) with ([32%N] ++ s). rewrite span_app; [reflexivity|reflexivity|].
      apply not_white_iff in Hs. destruct s; [exact I|exact Hs].
  - apply pmap_ok. exact H.
Qed.

Section Step.
  Variable E : env.
  Variable k : nat.
  Hypothesis G : good E k.
  Let HT := gT E k G.
  Let HV := gV E k G.
  Let HB := gB E k G.
  Let HW := gW E k G.
  Let HD := gD E k G.
  Let HX := gX E k G.
  Let HP := gP E k G.
  Let HN := gS E k G.
  Let HQ := gQ E k G.

  Lemma simple_ok b ops rest : bok b = true -> forallb opok ops = true -> all_apart ops = true -> first_loose ops = true -> bdep b <= k -> lmax opdep ops <= k ->
    stops rest -> no_ge rest ->
    match b, ops with
      | CNamed _ (CName _ _ i), CFun _ l :: _ => (negb (is_operator i) || negb (l_before l)) && negb (bare_shift i)
      | CNamed _ (CName _ _ i), _ => negb (is_operator i)
      | _, _ => true
      end = true \/ opsT ops ++ rest = [] ->
    exists Y, parse_simple_type E (btext b ++ opsT ops ++ rest) = POk Y (bmean b) /\ strip Y = strip (opsT ops ++ rest).
  Proof.
    intros Hb Ho Ha Hl Hd Hd' Hs Hg Hop. pose proof (follow_next ops rest Ho Ha Hs) as Hn. pose proof (follow_ends ops rest Hl Hs) as He.
    destruct b as [n|u|c n]; cbn [btext bmean bok bdep] in *.
    - exists (strip (opsT ops ++ rest)). split; [|apply strip_strip]. unfold parse_simple_type. cbv zeta. apply por_ok, pmap_ok.
      apply legacy_ok; [exact He|]. destruct (next_head_cv rest ops _ Hs Ha Hn) as [H|H]; [now apply allowed_list|].
      intros Hi. cbn in H. repeat (destruct H as [H|H]; [rewrite <- H in Hi; apply mem_iff in Hi; discriminate|]). destruct H.
    - exists (opsT ops ++ rest). split; [|reflexivity]. unfold parse_simple_type. cbv zeta. rewrite por_next.
      + apply por_ok, pmap_ok. rewrite <- app_assoc. eapply preceded_ok; [apply tag_ok|]. apply parse_u32_ok; [exact Hb|].
        intros c t Ec. rewrite Ec in He. apply word_ends_iff in He. unfold is_id_continue in He. now apply orb_false_iff in He.
      + apply pmap_err, legacy_none. change ('"auto:") with ('"auto" ++ '":"). rewrite <- !app_assoc.
        rewrite head_word; [|now apply is_word_iff|now apply ends_char]. intros H. apply mem_iff in H. discriminate.
    - exists (opsT ops ++ rest). split; [|reflexivity].
      destruct (name_starts n (opsT ops ++ rest) Hb He) as (H1 & H2 & _).
      assert (Hid : parse_id_expression E (ntext n ++ opsT ops ++ rest) = POk (opsT ops ++ rest) (nmean n)).
      { apply (id_expression_ok E k HT HV HB HW); [exact Hb|exact Hd|now apply follow_after| |].
        - now apply (lone_ok E k HT HV HB).
        - destruct n as [rooted ss i]. intros Hi. destruct Hop as [Hop|Hop]; [right|now left]. rewrite Hi in Hop. destruct ops as [|o ops]; [discriminate|].
          destruct o as [| | | |f l|]; try discriminate. cbn [negb orb] in Hop.
          apply andb_true_iff in Hop as [Hop Hsh]. apply negb_true_iff in Hop. apply negb_true_iff in Hsh. split; [|exact Hsh].
          rewrite opsT_cons. cbn [optext]. rewrite Hop, mark_false. destruct (sig_first f) as [r ->]. cbn [space app]. eauto. }
      assert (Hpl : parse_simple_type E (ntext n ++ opsT ops ++ rest) = POk (opsT ops ++ rest) (STId (nmean n))).
      { rewrite simple_id; [now apply pmap_ok|now apply allowed_list| |now apply allowed_list].
        intros r; apply name_auto; [exact Hb|exact He|now apply follow_not_colon]. }
      destruct c as [c|]; cbn [opt_text]; [|exact Hpl]. destruct (mark true); [|exact Hpl].
      rewrite <- !app_assoc. now apply simple_key.
  Qed.
  Lemma btext_head b ops rest : bok b = true -> first_loose ops = true -> stops rest ->
    ~ In (head (btext b ++ opsT ops ++ rest)) cvw /\ not_white (btext b ++ opsT ops ++ rest).
  Proof.
    intros Hb Hl Hs. destruct (base_starts b _ Hb (follow_ends ops rest Hl Hs)) as [[H|H] H']; (split; [|exact H']).
    - now apply allowed_list.
    - intros Hi. cbn in Hi. repeat (destruct Hi as [Hi|Hi]; [rewrite <- Hi in H; apply mem_iff in H; discriminate|]). destruct Hi.
  Qed.
  Lemma type_ok_body t rest : tok_body t = true -> tok t = true \/ (exists c b, t = CType c b [] /\ rest = []) ->
    tdep t <= S k -> stops rest -> no_ge rest ->
    parse_type_like E (ttext t ++ rest) = POk rest (tmean t).
  Proof.
    intros Ht Htop Hd Hs Hg. destruct (type_starts_body t rest Ht Hs) as [_ Hw].
    rewrite type_like_eq; [|now apply type_head|exact Hw]. clear Hw.
    destruct t as [c b ops]. cbn [tok_body tdep ttext tmean] in *. rewrite !andb_true_iff in Ht. destruct Ht as [[[[Hb Ho] Ha] Hl] Hf].
    assert (Hop : match b, ops with
      | CNamed _ (CName _ _ i), CFun _ l :: _ => (negb (is_operator i) || negb (l_before l)) && negb (bare_shift i)
      | CNamed _ (CName _ _ i), _ => negb (is_operator i)
      | _, _ => true
      end = true \/ opsT ops ++ rest = []).
    { destruct Htop as [Htop|(c' & b' & Et & ->)]; [left|right; now injection Et as _ _ ->].
      cbn [tok] in Htop. now apply andb_true_iff in Htop as [_ Htop]. }
    clear Htop. rewrite <- !app_assoc. fold (opsT ops).
    assert (Hd1 : bdep b <= k) by lia. assert (Hd2 : lmax opdep ops <= k) by lia.
    destruct (simple_ok b ops rest Hb Ho Ha Hl Hd1 Hd2 Hs Hg Hop) as (Y & HY & EY). destruct (btext_head b ops rest Hb Hl Hs) as [N1 N2].
    apply (pmap_to _ _ _ _ (TypeSpec c (bmean b), map opmean ops)); [|reflexivity].
    eapply pand_ok.
    - eapply terminated_ok; [|apply ms0]. unfold parse_type_specifier. apply (pmap_to _ _ _ _ (c, bmean b)); [|reflexivity].
      eapply pand_ok; [|exact HY]. destruct (no_cv c) eqn:Ec.
      + apply no_cv_eq in Ec. subst c. eapply terminated_ok; [now apply cv_none|]. cbn [app]. rewrite ms0. now rewrite strip_id.
      + rewrite <- app_assoc. change ('" " ++ btext b ++ opsT ops ++ rest) with (32%N :: btext b ++ opsT ops ++ rest).
        eapply terminated_ok; [apply cv_ok; [exact Ec|now apply ends_char|]|].
        * rewrite strip_space, strip_id by exact N2. exact N1.
        * rewrite ms0, strip_space. now rewrite !(strip_id (btext b ++ opsT ops ++ rest)) by exact N2.
    - rewrite EY. apply (declarator_ok E k HT HV HB HW HD HX); assumption.
  Qed.
  Lemma type_ok t rest : tok t = true -> tdep t <= S k -> stops rest -> no_ge rest ->
    parse_type_like E (ttext t ++ rest) = POk rest (tmean t).
  Proof. intros H. apply type_ok_body; [now apply tok_has_body|now left]. Qed.

  (** a declarator does not start a type *)
  Lemma simple_ops_err ops rest : forallb opok ops = true -> all_apart ops = true -> lmax opdep ops <= k -> stops rest -> no_ge rest ->
    starts_cv ops = false -> parse_simple_type E (strip (opsT ops ++ rest)) = PErr.
  Proof.
    intros Ho Ha Hd Hs Hg Hc. destruct ops as [|o ops].
    - cbn [opsT map concat app]. rewrite stops_strip by exact Hs. now apply simple_bad, stops_bad.
    - cbn [forallb] in Ho. apply andb_true_iff in Ho as [Ho Hops]. rewrite ops_strip by (assumption || now apply (apart_loose o)).
      assert (B : forall c r, bad_char c -> parse_simple_type E (c :: r) = PErr) by (intros c r H; apply simple_bad; now left).
      destruct o as [c|p c r l|b l|v l|f l|o']; try discriminate Hc; cbn [obody] in *.
      + rewrite <- !app_assoc. destruct p as [|s p].
        * cbn [pathT map concat of_string app]. apply B. split; [reflexivity|split; [reflexivity|cbn; intuition discriminate]].
        * cbn [opok] in Ho. rewrite !andb_true_iff in Ho. destruct Ho as [[Ho Hf] _]. cbn [lmax fold_right opdep] in Hd.
          assert (Hp : s :: p <> []) by discriminate.
          destruct (path_starts (s :: p) ('"*" ++ quals_text c r l ++ opsT ops ++ rest) Ho Hp) as [(P1 & _) _].
          rewrite simple_id; [|now apply allowed_list|intros r'; now apply path_auto|now apply allowed_list].
          apply pmap_err. unfold parse_id_expression.
          apply (map_opt_none _ _ _ ('"*" ++ quals_text c r l ++ opsT ops ++ rest) (Nested false (map smean (s :: p)), None)); [|reflexivity].
          cbn [of_string app]. apply (proto_path E k HT HV HB HW); [exact Ho|exact Hf|cbn [lmax fold_right]; unfold lmax; lia|exact Hp].
      + destruct b; cbn [of_string app]; apply B; (split; [reflexivity|split; [reflexivity|cbn; intuition discriminate]]).
      + cbn [of_string app]. apply B. split; [reflexivity|split; [reflexivity|cbn; intuition discriminate]].
      + destruct f as [params variadic c r n ret]. cbn [sigtext]. rewrite <- !app_assoc. cbn [of_string app].
        apply simple_bad. right. split; [reflexivity|]. cbn [opok sigok] in Ho. rewrite !andb_true_iff in Ho. destruct Ho as [[[[Hp _] Hv] _] _].
        destruct params as [|p params]; cbn [map join app].
        * destruct variadic; [discriminate|]. cbn [app]. rewrite head_char by reflexivity. cbn. intuition discriminate.
        * cbn [forallb] in Hp. apply andb_true_iff in Hp as [Hp _]. destruct params as [|q params].
          -- cbn [map]. rewrite <- ?app_assoc. apply type_no_paren_word; [exact Hp|]. destruct variadic; apply stops_char; cbn; tauto.
          -- cbn [map]. rewrite <- !app_assoc. apply type_no_paren_word; [exact Hp|]. apply stops_char. cbn. tauto.
      + rewrite <- !app_assoc. cbn [of_string app]. apply simple_bad. right. split; [reflexivity|].
        change (~ In (head (opsT o' ++ 41%N :: opsT ops ++ rest)) paren_words).
        destruct o' as [|o o']; [cbn [opsT map concat app]; rewrite head_char by reflexivity; cbn; intuition discriminate|].
        rewrite opsT_cons. destruct (loose o) eqn:El.
        * destruct (op_first o (opsT o' ++ 41%N :: opsT ops ++ rest) El) as (x & y & -> & Hx).
          rewrite head_char; [cbn; intuition discriminate|]. cbn in Hx. repeat (destruct Hx as [<-|Hx]; [reflexivity|]). destruct Hx.
        * destruct o as [|[|s p] c r l| | | |]; try discriminate El. cbn [opok forallb] in Ho.
          rewrite !andb_true_iff in Ho. destruct Ho as [[[[[[Ho _] _] _] _] _] _].
          assert (Ho' : forallb sok (s :: p) = true) by (cbn [forallb]; apply andb_true_iff; exact Ho).
          cbn [optext]. rewrite <- !app_assoc. fold (pathT (s :: p)).
          destruct (negb (mark (l_tight l))); cbn [space of_string app];
            [rewrite head_char by reflexivity; cbn; intuition discriminate|].
          assert (Hp : s :: p <> []) by discriminate.
          destruct (path_starts (s :: p) ('"*" ++ quals_text c r l ++ opsT o' ++ 41%N :: opsT ops ++ rest) Ho' Hp) as [(P1 & _) _].
          apply allowed_list; [exact P1|reflexivity].
  Qed.
  Lemma type_ops_err ops rest : forallb opok ops = true -> all_apart ops = true -> lmax opdep ops <= k -> stops rest -> no_ge rest ->
    parse_type_like E (strip (opsT ops ++ rest)) = PErr.
  Proof.
    intros Ho Ha Hd Hs Hg. pose proof (follow_next ops rest Ho Ha Hs) as Hn. apply type_simple_err.
    - destruct (next_head_cv rest ops _ Hs Ha Hn) as [H|H]; [now apply (allowed_not _ '"__attribute__")|].
      intros E'. rewrite E' in H. apply mem_iff in H. discriminate.
    - apply strip_not_white.
    - destruct (starts_cv ops) eqn:Ec.
      + destruct ops as [|[c| | | | |] ops]; try discriminate Ec. apply next_cv_inv in Hn as [Hc Ez]. rewrite Ez.
        cbn [forallb] in Ho. apply andb_true_iff in Ho as [_ Ho]. pose proof (follow_next ops rest Ho (apart_tl _ _ Ha) Hs) as Hn'. pose proof (apart_loose _ _ Ha) as Hl.
        pose proof (apart_cv c ops Ha) as Hac. exists (strip (opsT ops ++ rest)), c. split.
        * apply cv_ok; [exact Hc|now apply follow_ends|]. apply allowed_list; [|reflexivity]. now apply (next_head rest ops).
        * rewrite strip_strip. apply simple_ops_err; try assumption. now apply (apart_tl (CCv c)).
      + exists (strip (opsT ops ++ rest)), cv_default. split.
        * apply cv_none. apply allowed_list; [|reflexivity]. now apply (next_head rest ops).
        * rewrite strip_strip. now apply simple_ops_err.
  Qed.

  (** ** Values *)
  Lemma lead_literal s : (exists c r, s = c :: r /\ (is_id_start c = true \/ In c '"(~:&*!{")) ->
    (forall w r, In w ['"u"; '"U"; '"L"; '"u8"] -> s <> w ++ 39%N :: r) -> parse_literal s = PErr.
  Proof.
    intros (c & r & -> & H) Hq. apply literal_err; [|exact Hq]. intros c' r' [= <- _].
    assert (N : In c '"(~:&*!{" -> is_digit c = false /\ ~ In c '"+-'").
    { intros Hi. cbn in Hi. repeat (destruct Hi as [<-|Hi]; [split; [reflexivity|cbn; intuition discriminate]|]). destruct Hi. }
    destruct H as [H|H]; [|now apply N]. split.
    - destruct (is_digit c) eqn:Ed; [|reflexivity]. apply digit_plain in Ed. destruct Ed as [Ed _]. congruence.
    - intros Hi. cbn in Hi. repeat (destruct Hi as [<-|Hi]; [discriminate H|]). destruct Hi.
  Qed.
  (** the text of a name is not a quoted character *)
  Lemma id_quote i x : idok i = true -> word_ends x -> not_first 39%N x ->
    forall w r, word w -> idtext i ++ x <> w ++ 39%N :: r.
  Proof.
    intros Hi Hx Hq w r Hw He.
    assert (Hh : head (idtext i ++ x) = w) by (rewrite He; apply head_word; [exact Hw|now apply ends_char]).
    pose proof (word_ne w Hw) as Hne.
    destruct i as [d w' tp|op tp|v|u w' l|l|m|f m]; cbn [idtext idok] in *.
    - apply andb_true_iff in Hi as [Hw' _]. apply name_ok_iff in Hw' as [Hw' _].
      destruct d; [cbn [of_string app] in Hh; rewrite head_char in Hh by reflexivity; congruence|]. cbn [app] in *. rewrite <- app_assoc in *.
      rewrite head_word in Hh; [|exact Hw'|destruct tp; cbn [opt_text of_string app]; [now apply ends_char|exact Hx]].
      subst w'. apply app_inv_head in He. destruct tp; [discriminate He|]. now apply (Hq r).
    - rewrite <- !app_assoc in *. rewrite head_word in Hh; [|now apply is_word_iff|apply oper_ends].
      subst w. apply app_inv_head in He. destruct op as [s [] []|[]| | | |[]|[]| |w']; try discriminate He; destruct s; discriminate He.
    - change ('"decltype(") with ('"decltype" ++ '"(") in *. rewrite <- !app_assoc in *.
      rewrite head_word in Hh; [|now apply is_word_iff|now apply ends_char]. subst w. apply app_inv_head in He. discriminate He.
    - destruct (mark u); cbn [of_string app] in Hh; rewrite head_char in Hh by reflexivity; congruence.
    - cbn [of_string app] in Hh. rewrite head_char in Hh by reflexivity. congruence.
    - cbn [of_string app] in Hh. rewrite head_char in Hh by reflexivity. congruence.
    - cbn [of_string app] in Hh. rewrite head_char in Hh by reflexivity. congruence.
  Qed.
  Lemma name_quote n X : nok n = true -> word_ends X -> not_first 39%N X ->
    forall w r, word w -> ntext n ++ X <> w ++ 39%N :: r.
  Proof.
    destruct n as [rooted ss i]. cbn [nok ntext]. rewrite !andb_true_iff. intros [[H1 _] H3] Hx Hq w r Hw He.
    destruct rooted.
    - cbn [of_string app] in He. destruct Hw as (c & y & -> & Hc & _). apply id_start_iff in Hc. injection He as <- _. discriminate Hc.
    - cbn [app] in He. rewrite <- app_assoc in He. destruct ss as [|[i' f] ss].
      + now apply (id_quote i X H3 Hx Hq w r Hw).
      + cbn [forallb sok] in H1. rewrite !andb_true_iff in H1. destruct H1 as [[[Hi' _] _] _].
        cbn [map concat stext] in He. rewrite <- !app_assoc in He.
        assert (Hf : not_first 39%N (opt_text sigtext f ++ '"::" ++ concat (map stext ss) ++ idtext i ++ X)).
        { destruct f as [f|]; cbn [opt_text]; [destruct (sig_first f) as [z ->]|]; discriminate. }
        now apply (id_quote i' _ Hi' (scope_tail_ends f _) Hf w r Hw).
  Qed.
  Lemma id_new i x r : idok i = true -> id_not_new i = true -> word_ends x -> idtext i ++ x <> '"new" ++ r.
  Proof.
    intros Hi Hn Hx He. destruct i as [d w tp|op tp|v|u w l|l|m|f m]; cbn [idtext idok id_not_new] in *; try discriminate He;
      [|destruct (mark u); discriminate He].
    destruct d; [discriminate He|]. cbn [app] in He. rewrite <- app_assoc in He.
    apply andb_true_iff in Hn as [Hn _]. apply negb_true_iff in Hn. apply Bool.not_true_iff_false in Hn. apply Hn.
    apply andb_true_iff in Hi as [Hw _]. apply name_ok_iff in Hw as [Hw _].
    assert (Hy : word_ends (opt_text (fun l => '"<" ++ join '", " (map ptext l) ++ '">") tp ++ x))
      by (destruct tp; cbn [opt_text of_string app]; [now apply ends_char|exact Hx]).
    set (y := opt_text (fun l => '"<" ++ join '", " (map ptext l) ++ '">") tp ++ x) in *. clearbody y.
    apply prefix_iff. destruct w as [|a [|b [|c w]]].
    - now elim (word_ne [] Hw).
    - cbn [of_string app] in He. injection He as -> He. rewrite He in Hy. apply word_ends_iff in Hy. discriminate Hy.
    - cbn [of_string app] in He. injection He as -> -> He. rewrite He in Hy. apply word_ends_iff in Hy. discriminate Hy.
    - cbn [of_string app] in He. injection He as -> -> -> He. now exists w.
  Qed.
  Lemma name_new n X : nok n = true -> not_new n = true -> word_ends X ->
    (forall r, ntext n ++ X <> '"new" ++ r) /\ (forall r, ntext n ++ X <> '"::new" ++ r).
  Proof.
    destruct n as [rooted ss i]. cbn [nok ntext]. rewrite !andb_true_iff. intros [[H1 _] H3] Hn Hx.
    assert (N : forall r, concat (map stext ss) ++ idtext i ++ X <> '"new" ++ r).
    { intros r. destruct ss as [|[i' f] ss]; cbn [not_new] in Hn; [now apply id_new|].
      cbn [forallb sok] in H1. rewrite !andb_true_iff in H1. destruct H1 as [[[Hi' _] _] _].
      cbn [map concat stext]. rewrite <- !app_assoc. apply id_new; [exact Hi'|exact Hn|apply scope_tail_ends]. }
    split; intros r He; destruct rooted; cbn [of_string app] in He; try discriminate He.
    - apply (N r). rewrite <- app_assoc in He. exact He.
    - injection He as He. apply (N r). rewrite <- app_assoc in He. exact He.
    - rewrite <- app_assoc in He.
      assert (H : not_first 58%N (concat (map stext ss) ++ idtext i ++ X)).
      { destruct ss as [|s ss]; [now apply id_starts|]. fold (pathT (s :: ss)). now apply path_starts. }
      now elim (H (58%N :: '"new" ++ r)).
  Qed.
  (** the text of a name is neither sizeof(...) nor declval(...) *)
  Lemma id_call i x : idok i = true -> id_not_new i = true -> word_ends x ->
    forall w r, In w ['"sizeof"; '"declval"] -> idtext i ++ x <> w ++ 40%N :: r.
  Proof.
    intros Hi Hn Hx w r Hin He.
    assert (Hw : word w) by (cbn in Hin; destruct Hin as [<-|[<-|[]]]; now apply is_word_iff).
    assert (Hh : head (idtext i ++ x) = w) by (rewrite He; apply head_word; [exact Hw|now apply ends_char]).
    pose proof (word_ne w Hw) as Hne.
    destruct i as [d w' tp|op tp|v|u w' l|l|m|f m]; cbn [idtext idok id_not_new] in *.
    - apply andb_true_iff in Hi as [Hw' _]. apply name_ok_iff in Hw' as [Hw' _].
      destruct d; [cbn [of_string app] in Hh; rewrite head_char in Hh by reflexivity; congruence|]. cbn [app] in *. rewrite <- app_assoc in *.
      rewrite head_word in Hh; [|exact Hw'|destruct tp; cbn [opt_text of_string app]; [now apply ends_char|exact Hx]].
      subst w'. apply app_inv_head in He. destruct tp; [discriminate He|]. apply andb_true_iff in Hn as [_ Hn].
      cbn [is_none negb] in Hn. rewrite orb_false_r in Hn. apply negb_true_iff in Hn. apply mem_iff in Hin. congruence.
    - rewrite <- !app_assoc in *. rewrite head_word in Hh; [|now apply is_word_iff|apply oper_ends].
      subst w. cbn in Hin. intuition discriminate.
    - change ('"decltype(") with ('"decltype" ++ '"(") in *. rewrite <- !app_assoc in *.
      rewrite head_word in Hh; [|now apply is_word_iff|now apply ends_char]. subst w. cbn in Hin. intuition discriminate.
    - destruct (mark u); cbn [of_string app] in Hh; rewrite head_char in Hh by reflexivity; congruence.
    - cbn [of_string app] in Hh. rewrite head_char in Hh by reflexivity. congruence.
    - cbn [of_string app] in Hh. rewrite head_char in Hh by reflexivity. congruence.
    - cbn [of_string app] in Hh. rewrite head_char in Hh by reflexivity. congruence.
  Qed.
  Lemma name_call n X : nok n = true -> not_new n = true -> word_ends X ->
    forall w r, In w ['"sizeof"; '"declval"] -> ntext n ++ X <> w ++ 40%N :: r.
  Proof.
    destruct n as [rooted ss i]. cbn [nok ntext]. rewrite !andb_true_iff. intros [[H1 _] H3] Hn Hx w r Hin.
    destruct rooted.
    - intros He. cbn in Hin. destruct Hin as [<-|[<-|[]]]; discriminate He.
    - cbn [app]. rewrite <- app_assoc. destruct ss as [|[i' f] ss]; cbn [not_new] in Hn; [now apply id_call|].
      cbn [forallb sok] in H1. rewrite !andb_true_iff in H1. destruct H1 as [[[Hi' _] _] _].
      cbn [map concat stext]. rewrite <- !app_assoc. now apply id_call; [| |apply scope_tail_ends|].
  Qed.
  Lemma symbol_prefix s v y : (s = AndRef \/ s = MulDeref \/ s = Not) ->
    unary_symbol (show_sym s ++ v ++ y) = POk (v ++ y) (OBasic s false false).
  Proof. intros [->|[->| ->]]; reflexivity. Qed.

  (** neither a digit nor a sign *)
  Definition plain_first (s : str) : Prop := no_digit s /\ forall c, In c '"+-" -> not_first c s.
  Lemma plain_char c r : is_id_start c = true \/ In c '"'(~:{&*!" -> plain_first (c :: r).
  Proof.
    intros H. assert (N : is_digit c = false /\ ~ In c '"+-").
    { destruct H as [H|H].
      - split; [destruct (is_digit c) eqn:Ed; [|reflexivity]; apply digit_plain in Ed; destruct Ed as [Ed _]; congruence|].
        intros Hi. cbn in Hi. destruct Hi as [<-|[<-|[]]]; discriminate H.
      - cbn in H. repeat (destruct H as [<-|H]; [split; [reflexivity|cbn; intuition discriminate]|]). destruct H. }
    destruct N as [N1 N2]. split; [intros x y [= <- _]; exact N1|]. intros x Hx y [= -> _]. contradiction.
  Qed.
  Lemma no_sign_header v x : vok v = true -> is_expr v = false -> no_sign v = true -> plain_first (vtext v ++ x).
  Proof.
    intros Hv He Hn. destruct v as [l|n|s v|up v|t v|v|b t|v ts]; try discriminate He; try discriminate Hn; cbn [vtext vok] in *.
    - destruct l as [[z|z|c] o]; try discriminate Hn. apply plain_char. right. cbn. tauto.
    - rewrite !andb_true_iff in Hv. destruct Hv as [[Hv _] _]. destruct (name_first n x Hv) as (c & r & -> & H).
      apply plain_char. destruct H as [H|H]; [now left|right]. cbn in *. tauto.
    - apply andb_true_iff in Hv as [_ Hs]. destruct s; try discriminate Hs; try discriminate Hn; apply plain_char; right; cbn; tauto.
    - apply plain_char. right. cbn. tauto.
    - apply plain_char. right. cbn. tauto.
    - destruct b; apply plain_char; now left.
  Qed.
  Lemma no_sign_first v x : vok v = true -> no_sign v = true -> plain_first (vtext v ++ x).
  Proof.
    intros Hv Hn. destruct (is_expr v) eqn:Ev; [|now apply no_sign_header].
    destruct v as [l|n|s v|up v|t v|v|b t|v ts]; try discriminate Ev. destruct (expr_header v ts Hv) as [Hh He].
    cbn [vtext]. rewrite <- app_assoc. now apply no_sign_header.
  Qed.

  Lemma vstop_no_ge ac ag s : vstop ac ag s -> no_ge s.
  Proof. intros [[x ->]|[[x ->]|[(_ & x & ->)|(_ & Hg & _)]]]; try exact Hg; now apply no_ge_char. Qed.
  (** values that start like a type *)
  Lemma then_ok v rest : vok v = true -> type_then v = true -> vdep v <= S k -> vstop false true rest ->
    exists c r u, parse_type_like E (vtext v ++ rest) = POk (c :: r) u /\ is_space c = false /\ c <> 44%N /\ c <> 41%N.
  Proof.
    intros Hv Ht Hd Hs. pose proof (vstop_stops _ _ _ Hs) as Hst. pose proof (vstop_no_ge _ _ _ Hs) as Hg.
    destruct v as [l|n|s v|up v|t v|v|b t|v ts]; try discriminate Ht. destruct v as [l|n|s v|up v|t v|v|b t|v ts']; try discriminate Ht.
    destruct ts as [|t ts]; [discriminate Ht|]. cbn [vok vdep vtext] in *. fold (afterT (t :: ts)).
    rewrite !andb_true_iff in Hv. destruct Hv as [[[[[[[[Hn Hnew] Hop] Ha] Hf] Hll] Hm] _] Han].
    assert (Hts : forallb aok (t :: ts) = true) by exact Ha.
    cbn [forallb] in Ha. apply andb_true_iff in Ha as [Hat Hats].
    assert (Htl : template_like t = false).
    { cbn [type_then] in Ht. destruct t as [v|args|i| |up|op v|v w]; try reflexivity. cbn [after_name] in Han.
      destruct op as [s tw e|b|]; cbn [template_like] in *; try reflexivity; [|discriminate Han]. destruct s; try reflexivity; try discriminate Han. }
    rewrite <- app_assoc. set (F := afterT (t :: ts) ++ rest).
    assert (HF : after_id F) by (subst F; rewrite afterT_cons; now apply after_after_id).
    assert (Hl : lone E F).
    { subst F. apply (lone_after E k HT HV HB HP); try assumption; [discriminate|lia]. }
    destruct HF as (HF1 & HF2 & HF3).
    assert (H58 : not_first 58%N F) by (subst F; rewrite afterT_cons; apply after_not_first; cbn; intuition discriminate).
    destruct (name_starts n F Hn HF1) as (N1 & N2 & _).
    rewrite type_like_eq; [|now apply (allowed_not _ '"__attribute__")|exact N2].
    assert (Hid : parse_id_expression E (ntext n ++ F) = POk F (nmean n)).
    { apply (id_expression_ok E k HT HV HB HW); [exact Hn|lia|now repeat split|exact Hl|].
      destruct n as [rooted ss i]. intros Hi. rewrite Hi in Hop. discriminate. }
    assert (Hpl : parse_simple_type E (ntext n ++ F) = POk F (STId (nmean n))).
    { rewrite simple_id; [now apply pmap_ok|now apply allowed_list| |now apply allowed_list].
      intros r; apply name_auto; [exact Hn|exact HF1|exact H58]. }
    assert (HS : exists c r, strip F = c :: r /\ In c after_chars /\ ~ In c '"&*([").
    { subst F. rewrite afterT_cons. destruct (after_strip t (afterT ts ++ rest) Hat) as (c & r & Es & Hc & H38 & H42 & H40 & H91 & _).
      exists c, r. split; [exact Es|]. split; [exact Hc|]. intros Hi. cbn in Hi. destruct Hi as [<-|[<-|[<-|[<-|[]]]]].
      - destruct (H38 eq_refl) as (? & ? & ? & ->). discriminate Ht.
      - destruct (H42 eq_refl) as (? & ? & ? & ->). discriminate Ht.
      - destruct (H40 eq_refl) as (? & ->). discriminate Ht.
      - destruct (H91 eq_refl) as (? & ->). discriminate Ht. }
    destruct HS as (c & r & Es & Hc & Hni). destruct (after_char_plain c Hc) as (P1 & P2 & P3).
    exists c, r. eexists. split.
    - eapply pmap_ok. eapply pand_ok.
      + eapply terminated_ok; [|apply ms0]. unfold parse_type_specifier. eapply pmap_ok.
        eapply pand_ok; [|exact Hpl]. eapply terminated_ok; [apply cv_none; now apply allowed_list|]. rewrite ms0. now rewrite strip_id.
      + rewrite Es. unfold parse_declarator. apply (intern_ok _ _ _ _ (@nil decl_operator)); [|reflexivity]. apply many0_nil, terminated_err1.
        assert (K : forall x, In x '"&*([" -> not_first x (c :: r)) by (intros x Hx y [= -> _]; contradiction).
        apply decl_bad; try (apply K; cbn; tauto). left. split; [exact P1|]. split; [exact P2|].
        intros Hi. cbn in Hi. destruct Hi as [<-|[<-|[<-|[<-|[]]]]]; [apply Hni|apply P3|apply P3|apply P3]; cbn; tauto.
    - split; [exact P2|]. split; intros ->; apply P3; cbn; tauto.
  Qed.

  (** what may follow the first part of a value *)
  Definition follows (ac ag : bool) (v : cvalue) (F : str) : Prop :=
    match v with
    | CLiteral _ => word_ends F
    | CVar _ => after_id F /\ lone E F /\ not_first 39%N F
    | CGroup w => as_type w <> None -> stops F
    | CSizeof _ _ => True
    | CUnary _ _ | CStep _ _ | CCast _ _ => vstop ac ag F
    | CExpr _ _ => False
    end.
  Lemma header_ok v ac ag rest : vok v = true -> vdep v <= S k -> follows ac ag v rest ->
    exists h, parse_value_header E ac ag (vtext v ++ rest) = POk rest h /\ vmean v = Value h [].
  Proof.
    intros Hv Hd Hs. unfold parse_value_header. cbv zeta.
    destruct v as [l|n|s v|up v|t v|v|b t|v ts]; [..|destruct Hs]; cbn [vtext vmean vok vdep follows] in *; (eexists; split; [|reflexivity]).
    - apply por_ok, pmap_ok. now apply literal_core.
    - rewrite !andb_true_iff in Hv. destruct Hv as [[Hn Hnew] Hop]. destruct Hs as (Haft & Hlone & Hq). pose proof (proj1 Haft) as He.
      destruct (name_first n rest Hn) as (c & r & Ec & Hc). destruct (name_new n rest Hn Hnew He) as [N1 N2].
      pose proof (name_call n rest Hn Hnew He) as Hh.
      rewrite por_next.
      2:{ apply pmap_err, lead_literal.
          - exists c, r. split; [exact Ec|]. destruct Hc as [Hc|Hc]; [now left|right]. cbn in *. intuition.
          - intros w x Hw. apply name_quote; [exact Hn|exact He|exact Hq|].
            cbn in Hw. repeat (destruct Hw as [<-|Hw]; [now apply is_word_iff|]). destruct Hw. }
      rewrite por_next by (now apply pmap_err, new_err).
      rewrite por_next.
      2:{ apply pmap_err, delimited_err1, tag_err. intros x. apply (Hh '"sizeof"). now left. }
      rewrite por_next.
      2:{ apply pmap_err, delimited_err1, tag_err. intros x. apply (Hh '"declval"). right. now left. }
      apply por_ok, pmap_ok.
      apply (id_expression_ok E k HT HV HB HW); [exact Hn|lia|exact Haft|exact Hlone|].
      destruct n as [? ? i]. intros H. rewrite H in Hop. discriminate.
    - apply andb_true_iff in Hv as [Hv Hsym]. pose proof (stops_ends _ (vstop_stops _ _ _ Hs)) as He.
      assert (Hw : not_white (vtext v ++ rest)) by now apply value_starts.
      assert (HVv : r_value E ac ag (vtext v ++ rest) = POk rest (vmean v)) by (apply HV; [exact Hv|lia|exact Hs]).
      assert (Sg : In s [AddPlus; SubNeg] -> parse_value_header E ac ag ((show_sym s ++ vtext v) ++ rest) = POk rest (VHUnary (OBasic s false false) (vmean v))).
      { intros Hin. assert (Hns : no_sign v = true) by (cbn in Hin; destruct Hin as [<-|[<-|[]]]; exact Hsym).
        destruct (no_sign_first v rest Hv Hns) as [N1 N2].
        assert (F : exists c, show_sym s = [c] /\ In c '"+-" /\ (if N.eqb c 45 then SubNeg else AddPlus) = s)
          by (cbn in Hin; destruct Hin as [<-|[<-|[]]]; (eexists; split; [reflexivity|]; split; [cbn; tauto|reflexivity])).
        destruct F as (c & Ec & Hc & Es). rewrite Ec, <- app_assoc. cbn [app]. rewrite header_sign by assumption.
        apply por_ok. apply (pmap_to _ _ _ _ (OBasic s false false, vmean v)); [|reflexivity].
        eapply separated_pair_ok; [rewrite <- Es; apply prefix_sign; [exact Hc|now apply N2]|rewrite ms0; reflexivity|].
        rewrite !strip_id by (try rewrite strip_id; exact Hw). exact HVv. }
      assert (Hcase : In s [AddPlus; SubNeg] \/ (s = AndRef \/ s = MulDeref \/ s = Not)) by (destruct s; try discriminate; cbn; tauto).
      destruct Hcase as [Hcase|Hcase]; [exact (Sg Hcase)|]. clear Sg.
      assert (Hs3 : s = AndRef \/ s = MulDeref \/ s = Not) by (exact Hcase).
      rewrite <- app_assoc.
      assert (F : exists c, show_sym s = [c] /\ In c '"&*!") by (destruct Hs3 as [->|[->| ->]]; eexists; (split; [reflexivity|cbn; tauto])).
      destruct F as (c & Ec & Hc).
      assert (Hb : bad_type (show_sym s ++ vtext v ++ rest)).
      { rewrite Ec. left. cbn in Hc. repeat (destruct Hc as [<-|Hc]; [split; [reflexivity|split; [reflexivity|cbn; intuition discriminate]]|]). destruct Hc. }
      assert (Hnot : forall x, ~ In x '"&*!" -> not_first x (show_sym s ++ vtext v ++ rest)).
      { intros x Hx r H. rewrite Ec in H. injection H as -> _. contradiction. }
      rewrite por_next.
      2:{ apply pmap_err. rewrite Ec. cbn [app]. cbn in Hc.
          repeat (destruct Hc as [<-|Hc]; [apply literal_err_char; [reflexivity|reflexivity|cbn; intuition discriminate]|]). destruct Hc. }
      rewrite por_next.
      2:{ apply pmap_err, new_err; intros r H; rewrite Ec in H; injection H as H _; rewrite H in Hc; cbn in Hc; intuition discriminate. }
      rewrite por_next by (apply pmap_err, delimited_err1, tag_first, Hnot; cbn; intuition discriminate).
      rewrite por_next by (apply pmap_err, delimited_err1, tag_first, Hnot; cbn; intuition discriminate).
      rewrite por_next by (apply pmap_err; now apply id_expression_bad).
      apply por_ok. apply (pmap_to _ _ _ _ (OBasic s false false, vmean v)); [|reflexivity].
      eapply separated_pair_ok.
      + unfold parse_unary_expr_prefix. cbv zeta. fold unary_symbol. fold (cast E). apply por_ok.
        eapply terminated_ok; [|rewrite ms0; reflexivity]. rewrite por_next; [now apply symbol_prefix|].
        rewrite por_next.
        * unfold parse_increment_decrement. rewrite por_next; apply pvalue_err, tag_first, Hnot; cbn; intuition discriminate.
        * unfold cast. apply pmap_err, delimited_err1, then_ws_err, Hnot. cbn. intuition discriminate.
      + rewrite strip_id by exact Hw. rewrite ms0. rewrite strip_id by exact Hw. reflexivity.
      + apply HV; [exact Hv|lia|exact Hs].
    - pose proof (stops_ends _ (vstop_stops _ _ _ Hs)) as He.
      assert (Hw : not_white (vtext v ++ rest)) by now apply value_starts.
      assert (HVv : r_value E ac ag (vtext v ++ rest) = POk rest (vmean v)) by (apply HV; [exact Hv|lia|exact Hs]).
      assert (Hh : parse_value_header E ac ag (step_text up ++ vtext v ++ rest) = POk rest (VHUnary (stepmean up) (vmean v))).
      { assert (Hp : parse_unary_expr_prefix E (step_text up ++ vtext v ++ rest) = POk (vtext v ++ rest) (stepmean up))
          by (rewrite prefix_step; now rewrite strip_id).
        assert (F : exists c, step_text up ++ vtext v ++ rest = c :: c :: vtext v ++ rest /\ In c '"+-")
          by (destruct up; (eexists; split; [reflexivity|cbn; tauto])).
        destruct F as (c & Ec & Hc). rewrite Ec in *.
        rewrite header_sign; [|exact Hc|intros x y [= <- _]; cbn in Hc; destruct Hc as [<-|[<-|[]]]; reflexivity].
        apply por_ok. apply (pmap_to _ _ _ _ (stepmean up, vmean v)); [|reflexivity].
        eapply separated_pair_ok; [exact Hp|rewrite ms0; reflexivity|]. now rewrite strip_id. }
      rewrite <- app_assoc. exact Hh.
    - apply andb_true_iff in Hv as [Ht Hv]. rewrite <- !app_assoc. pose proof (stops_ends _ (vstop_stops _ _ _ Hs)) as He.
      assert (Hb : bad_type ('"(" ++ ttext t ++ '")" ++ vtext v ++ rest)).
      { right. split; [reflexivity|]. apply type_no_paren_word; [exact Ht|apply stops_char; cbn; tauto]. }
      rewrite por_next by (apply pmap_err, literal_err_char; [reflexivity|reflexivity|cbn; intuition discriminate]).
      rewrite por_next by (apply pmap_err, new_err; discriminate).
      rewrite por_next by (apply pmap_err, delimited_err1, tag_first; discriminate).
      rewrite por_next by (apply pmap_err, delimited_err1, tag_first; discriminate).
      rewrite por_next by (apply pmap_err; now apply id_expression_bad).
      apply por_ok. apply (pmap_to _ _ _ _ (OConversion (tmean t), vmean v)); [|reflexivity].
      assert (Hw : not_white (vtext v ++ rest)) by now apply value_starts.
      assert (Hst' : stops ('")" ++ vtext v ++ rest)) by (apply stops_char; cbn; tauto).
      eapply separated_pair_ok.
      + unfold parse_unary_expr_prefix. cbv zeta. apply por_ok. eapply terminated_ok; [|rewrite ms0; reflexivity].
        apply por_ok, por_ok, pmap_ok. eapply delimited_ok.
        * cbn [of_string app]. rewrite (then_ws_ok "("). rewrite strip_id by (now apply type_starts). reflexivity.
        * apply HT; [exact Ht|lia|exact Hst'|now apply no_ge_char].
        * apply (ws_then_ok ")"). reflexivity.
      + rewrite strip_id by exact Hw. rewrite ms0. rewrite strip_id by exact Hw. reflexivity.
      + apply HV; [exact Hv|lia|exact Hs].
    - apply andb_true_iff in Hv as [Hv Hu]. rewrite <- !app_assoc. assert (Hw' : word_ends ('")" ++ rest)) by now apply ends_char.
      assert (Hst' : stops ('")" ++ rest)) by (apply stops_char; cbn; tauto).
      assert (Hw : not_white (vtext v ++ '")" ++ rest)) by now apply value_starts.
      assert (Hb : bad_type ('"(" ++ vtext v ++ '")" ++ rest)).
      { right. split; [reflexivity|]. now apply value_no_paren_word. }
      rewrite por_next by (apply pmap_err, literal_err_char; [reflexivity|reflexivity|cbn; intuition discriminate]).
      rewrite por_next by (apply pmap_err, new_err; discriminate).
      rewrite por_next by (apply pmap_err, delimited_err1, tag_first; discriminate).
      rewrite por_next by (apply pmap_err, delimited_err1, tag_first; discriminate).
      rewrite por_next by (apply pmap_err; now apply id_expression_bad).
      rewrite por_next.
      + apply por_ok, pmap_ok. eapply delimited_ok.
        * cbn [of_string app]. rewrite (then_ws_ok "("). rewrite strip_id by exact Hw. reflexivity.
        * apply HV; [exact Hv|lia|]. left. cbn. eauto.
        * apply (ws_then_ok ")"). reflexivity.
      + apply pmap_err. unfold separated_pair.
        assert (C : (r_type E (vtext v ++ '")" ++ rest) = PErr \/ exists c r u, r_type E (vtext v ++ '")" ++ rest) = POk (c :: r) u /\ is_space c = false /\ c <> 41%N) \/
                    exists u, r_type E (vtext v ++ '")" ++ rest) = POk ('")" ++ rest) u /\ stops rest).
        { unfold unmistakable in Hu. destruct (as_type v) as [t|] eqn:Et.
          - right. destruct (as_type_ok (vdep v) v t (le_n _) Hv Et) as (T1 & T2 & T3). exists (tmean t). split; [|apply Hs; discriminate].
            rewrite <- T1. apply HT; [exact T2|lia|exact Hst'|now apply no_ge_char].
          - left. cbn [is_none negb] in Hu. rewrite orb_false_r in Hu. apply orb_true_iff in Hu as [Hu|Hu]; [left; apply HB; now apply value_bad_type|right].
            destruct (HP v ('")" ++ rest) Hv Hu) as (c & r & u & Hr & H1 & H2 & H3); [lia|left; cbn; eauto|]. exists c, r, u. auto. }
        assert (P : forall c, In c '"+-)" -> not_first c ('"(" ++ vtext v ++ '")" ++ rest)).
        { intros c Hc r [= <- _]. cbn in Hc. intuition discriminate. }
        destruct C as [C|(u & C & Hst)].
        * apply pand_err1, prefix_err.
          -- cbn [of_string app]. now apply head_char.
          -- apply P. cbn. tauto.
          -- apply P. cbn. tauto.
          -- unfold cast. apply pmap_err. destruct C as [C|(c & r & u & C & C1 & C2)].
             ++ eapply delimited_err2; [apply (then_ws_ok "(")|]. cbn [app]. rewrite strip_id by exact Hw. exact C.
             ++ eapply delimited_err3; [apply (then_ws_ok "(")| |].
                ** cbn [app]. rewrite strip_id by exact Hw. exact C.
                ** unfold ws_then. apply pvalue_err. eapply pand_err2; [apply ms0|]. rewrite strip_char by exact C1. apply pchar_first.
                   intros x [= E' _]. contradiction.
          -- unfold unary_symbol. apply pmap_err. reflexivity.
        * eapply pand_err2.
          -- unfold parse_unary_expr_prefix. cbv zeta. apply por_ok. eapply terminated_ok; [|rewrite ms0; reflexivity].
             apply por_ok, por_ok, pmap_ok. eapply delimited_ok.
             ++ cbn [of_string app]. rewrite (then_ws_ok "("). rewrite strip_id by exact Hw. reflexivity.
             ++ exact C.
             ++ apply (ws_then_ok ")"). reflexivity.
          -- eapply preceded_err2; [apply ms0|]. rewrite strip_strip, stops_strip by exact Hst. now apply HW, stops_no_value.
    - rewrite <- !app_assoc. assert (Hst' : stops ('")" ++ rest)) by (apply stops_char; cbn; tauto).
      destruct b; cbn [of_string app]; (rewrite por_next;
      [|apply pmap_err, lead_literal; [eexists _, _; split; [reflexivity|now left]|];
          intros w r Hw H; cbn in Hw; repeat (destruct Hw as [<-|Hw]; [discriminate H|]); destruct Hw]);
      rewrite por_next by (apply pmap_err, new_err; discriminate).
      + rewrite por_next by (apply pmap_err, delimited_err1, tag_first; discriminate).
        apply por_ok, pmap_ok. eapply delimited_ok; [exact (tag_ok "declval(" (ttext t ++ '")" ++ rest))| |apply (pchar_eq ")")].
        apply HT; [exact Hv|lia|exact Hst'|now apply no_ge_char].
      + apply por_ok, pmap_ok. eapply delimited_ok; [exact (tag_ok "sizeof(" (ttext t ++ '")" ++ rest))| |apply (pchar_eq ")")].
        apply HT; [exact Hv|lia|exact Hst'|now apply no_ge_char].
  Qed.

  (** ** What comes after *)
  Lemma middle_ok ac ag op Z : binary_ok op = true -> not_white Z ->
    (match op with CbArrow _ => exists c r, Z = c :: r /\ (is_id_start c = true \/ In c '"(~:{") | _ => True end) ->
    exists Y, parse_binary_expr_middle (T := type_like) ac ag (strip (binary_text op ++ Z)) = POk Y (binarymean op) /\ strip Y = Z.
  Proof.
    intros Hb Hw Ha. destruct op as [s tw e|star|].
    - exists (32%N :: Z). split; [|rewrite strip_space; now apply strip_id].
      destruct s, tw, e; try discriminate Hb; cbn [binary_text show_sym of_string app]; reflexivity.
    - exists Z. split; [|now apply strip_id]. destruct Ha as (c & r & -> & Hc). destruct star; [reflexivity|].
      assert (S1 : forall y, symbol (45%N :: y) = POk y SubNeg) by reflexivity.
      assert (S2 : forall y, symbol (62%N :: y) = POk y Greater) by reflexivity.
      assert (S3 : symbol (c :: r) = PErr \/ symbol (c :: r) = POk r BitNot).
      { destruct (symbol_total (c :: r)) as [(r' & x & Ex)|Ex]; [|now left].
        right. rewrite Ex. apply symbol_iff in Ex. destruct Hc as [Hc|Hc].
        - destruct x; injection Ex as -> _; discriminate Hc.
        - cbn in Hc. destruct Hc as [<-|[<-|[<-|[<-|[]]]]]; destruct x; try discriminate Ex. injection Ex as <-. reflexivity. }
      cbn [binary_text of_string app]. rewrite strip_char by reflexivity. unfold parse_binary_expr_middle. rewrite por_next.
      + apply por_ok. unfold binary2, verify_panicking, arithmetic_or_comparison2, map_opt, pand.
        change (N_of_ascii "-") with 45%N. change (N_of_ascii ">") with 62%N. rewrite S1. cbn [pbind]. rewrite S2. reflexivity.
      + unfold arithmetic_or_comparison3, map_opt, pand.
        change (N_of_ascii "-") with 45%N. change (N_of_ascii ">") with 62%N. rewrite S1. cbn [pbind]. rewrite S2. cbn [pbind].
        destruct S3 as [->| ->]; reflexivity.
    - exists (32%N :: Z). split; [reflexivity|]. rewrite strip_space. now apply strip_id.
  Qed.
  (** a single sign is read first *)
  Lemma step_middle ac ag up F : stops F ->
    parse_binary_expr_middle (T := type_like) ac ag (step_text up ++ F)
    = POk (tl (step_text up ++ F)) (OBasic (if up then SubNeg else AddPlus) false false).
  Proof.
    intros Hs.
    assert (S3 : forall r x, symbol F = POk r x -> x = Comma \/ x = Greater).
    { intros r x Hx. apply symbol_iff in Hx. destruct Hs as [->|(c & y & -> & H)]; [destruct x; discriminate Hx|].
      cbn in H. destruct H as [<-|[<-|[<-|[<-|[]]]]]; destruct x; try discriminate Hx; tauto. }
    assert (S1 : forall y, symbol (show_sym (if up then SubNeg else AddPlus) ++ y) = POk y (if up then SubNeg else AddPlus)) by (destruct up; reflexivity).
    assert (E0 : step_text up ++ F = show_sym (if up then SubNeg else AddPlus) ++ show_sym (if up then SubNeg else AddPlus) ++ F) by (destruct up; reflexivity).
    rewrite E0. unfold parse_binary_expr_middle. rewrite por_next; [rewrite por_next|].
    - destruct up; reflexivity.
    - unfold binary2, verify_panicking, arithmetic_or_comparison2, map_opt, pand. rewrite S1. cbn [pbind]. rewrite S1. destruct up; reflexivity.
    - unfold arithmetic_or_comparison3, map_opt, pand. rewrite S1. cbn [pbind]. rewrite S1. cbn [pbind].
      destruct (symbol_total F) as [(r' & x & Ex)|Ex]; rewrite Ex; [|reflexivity]. destruct (S3 _ _ Ex) as [->| ->]; destruct up; reflexivity.
  Qed.
  Lemma call_ok args F : forallb vok args = true -> fewer args 6 = true -> lmax vdep args <= k ->
    parse_function_call E ('"(" ++ join '", " (map vtext args) ++ '")" ++ F) = POk F (map vmean args).
  Proof.
    intros Ha Hf Hd. unfold parse_function_call. rewrite forallb_forall in Ha. pose proof (lmax_in vdep _ k Hd) as Hl.
    eapply preceded_ok; [apply (then_ws_ok "(")|]. destruct args as [|x args].
    - cbn [map join app of_string]. rewrite strip_char by reflexivity. rewrite por_next; [eapply pvalue_ok; apply (pchar_eq ")")|].
      apply intern_err, sep_err, HW, stops_no_value, stops_char. cbn. tauto.
    - assert (V : forall f, f = 41%N :: F \/ (exists r, f = '", " ++ r) -> vstop false true f /\ word_ends f).
      { intros f [->|[r ->]]; (split; [|now apply ends_char]); [left; eauto|right; right; left; cbn; eauto]. }
      assert (W : not_white (join '", " (map vtext (x :: args)) ++ '")" ++ F)).
      { assert (Vx : vok x = true) by (apply Ha; now left). destruct args as [|y args]; cbn [map join].
        - apply value_starts; [exact Vx|now apply ends_char].
        - rewrite <- !app_assoc. apply value_starts; [exact Vx|now apply ends_char]. }
      rewrite strip_id by exact W. apply por_ok. apply intern_ok; [|now rewrite fewer_map].
      apply (separated_ok vtext vmean (r_value E false true) ")"); [discriminate|reflexivity|discriminate| |].
      + intros y Hy f Hf'. apply HV; [now apply Ha|now apply Hl|now apply V].
      + intros y Hy f Hf'. apply value_starts; [now apply Ha|now apply V].
  Qed.
  Lemma trailer_ok ac ag t F : aok t = true -> adep t <= k -> (is_last t = true -> vstop ac ag F) -> word_ends F ->
    match t with CMember _ => after_id F | _ => True end ->
    parse_after_value E ac ag (strip (atext t ++ F)) = POk F (amean t).
  Proof.
    intros Ha Hd Hl He Hm. destruct t as [v|args|i| |up|op v|v w]; cbn [atext aok adep amean is_last] in *.
    - rewrite <- !app_assoc. cbn [of_string app]. rewrite strip_char by reflexivity. unfold parse_after_value.
      match goal with |- context [starts "(" ?s] => change (starts "(" s) with false; change (starts "?" s) with false;
        change (starts "." s) with false; change (starts "[" s) with true end. cbn iota. apply pmap_ok.
      eapply delimited_ok; [apply (then_ws_ok "[")| |].
      + rewrite strip_id by (apply value_starts; [exact Ha|now apply ends_char]). apply HV; [exact Ha|exact Hd|]. right. left. eauto.
      + apply (ws_then_ok "]"). reflexivity.
    - apply andb_true_iff in Ha as [Ha Hf]. rewrite <- !app_assoc.
      assert (Es : forall y, strip ('"(" ++ y) = '"(" ++ y) by reflexivity. rewrite Es. unfold parse_after_value.
      match goal with |- context [starts "(" ?s] => change (starts "(" s) with true end. cbn iota. apply pmap_ok.
      now apply call_ok.
    - apply andb_true_iff in Ha as [Ha Ho]. rewrite <- !app_assoc. cbn [of_string app]. rewrite strip_char by reflexivity. unfold parse_after_value.
      match goal with |- context [starts "(" ?s] => change (starts "(" s) with false; change (starts "?" s) with false;
        change (starts "." s) with true end. cbn iota. apply por_ok, pmap_ok. eapply preceded_ok; [apply (then_ws_ok ".")|].
      rewrite strip_id by (now apply id_starts). apply (unqualified_ok E k HT HV HB HW); [exact Ha|exact Hd|exact Hm|].
      intros H. rewrite H in Ho. discriminate.
    - cbn [of_string app]. rewrite strip_char by reflexivity. unfold parse_after_value.
      match goal with |- context [starts "(" ?s] => change (starts "(" s) with false; change (starts "?" s) with false;
        change (starts "." s) with true end. cbn iota. rewrite por_next; [reflexivity|]. apply pmap_err.
      eapply preceded_err2; [apply (then_ws_ok ".")|]. rewrite strip_char by reflexivity. apply id_bad. left.
      split; [reflexivity|split; [reflexivity|cbn; intuition discriminate]].
    - specialize (Hl eq_refl). pose proof (vstop_stops _ _ _ Hl) as Hst.
      assert (F0 : exists c, step_text up ++ F = c :: c :: F /\ In c '"+-")
        by (destruct up; (eexists; split; [reflexivity|cbn; tauto])).
      destruct F0 as (c & Ec & Hc).
      assert (Es : strip (step_text up ++ F) = step_text up ++ F) by (destruct up; reflexivity).
      rewrite Es. unfold parse_after_value.
      assert (K : forall x, In x ["("%char; "?"%char; "."%char; "["%char] -> starts x (step_text up ++ F) = false).
      { intros x Hx. cbn in Hx. destruct up; destruct Hx as [<-|[<-|[<-|[<-|[]]]]]; reflexivity. }
      rewrite !K by (cbn; tauto). rewrite por_next.
      + apply pmap_ok. unfold parse_increment_decrement. destruct up; [|apply por_ok; apply (pvalue_ok _ _ _ _ tt); exact (tag_ok "++" F)].
        rewrite por_next; [apply (pvalue_ok _ _ _ _ tt); exact (tag_ok "--" F)|]. apply pvalue_err, tag_err. discriminate.
      + apply pmap_err. unfold separated_pair. eapply pand_err2; [now apply step_middle|].
        eapply preceded_err2; [apply ms0|]. rewrite Ec. cbn [tl].
        assert (Ew : strip (c :: F) = c :: F) by (cbn in Hc; destruct Hc as [<-|[<-|[]]]; reflexivity).
        rewrite Ew. now apply HN.
    - rewrite !andb_true_iff in Ha. destruct Ha as [[Hv Hb] Har]. rewrite <- app_assoc.
      assert (Hw : not_white (vtext v ++ F)) by now apply value_starts.
      destruct (middle_ok ac ag op (vtext v ++ F) Hb Hw) as (Y & HY & EY).
      { destruct op; try exact I. assert (N : exists n y, nok n = true /\ vtext v ++ F = ntext n ++ y).
        { destruct v as [l|n|s v|up v|t v|v|b t|v ts]; try discriminate Har.
          - cbn [vok] in Hv. rewrite !andb_true_iff in Hv. exists n, F. now split.
          - destruct v as [l|n|s v|up v|t v|v|b t|v ts']; try discriminate Har. cbn [vok] in Hv. rewrite !andb_true_iff in Hv.
            exists n, (afterT ts ++ F). split; [apply Hv|]. cbn [vtext]. now rewrite <- app_assoc. }
        destruct N as (n & y & Hn & ->). now apply name_first. }
      unfold parse_after_value.
      assert (K : forall c, In c ["("%char; "?"%char; "."%char; "["%char] -> starts c (strip (binary_text op ++ vtext v ++ F)) = false).
      { intros c Hc. cbn in Hc. destruct op as [s tw e|[]|]; cbn [binary_text show_sym of_string app];
          [|destruct Hc as [<-|[<-|[<-|[<-|[]]]]]; reflexivity..].
        destruct s; try (destruct tw, e; discriminate Hb); destruct Hc as [<-|[<-|[<-|[<-|[]]]]]; reflexivity. }
      rewrite !K by (cbn; tauto). apply por_ok. apply (pmap_to _ _ _ _ (binarymean op, vmean v)); [|reflexivity].
      eapply separated_pair_ok; [exact HY|apply ms0|]. rewrite EY. apply HV; [exact Hv|exact Hd|now apply Hl].
    - rewrite !andb_true_iff in Ha. destruct Ha as [[Hv Hw] Hc]. specialize (Hl eq_refl).
      assert (Ww : not_white (vtext w ++ F)) by now apply value_starts.
      assert (Wv : not_white (vtext v ++ '" : " ++ vtext w ++ F)) by (apply value_starts; [exact Hv|now apply ends_char]).
      rewrite <- !app_assoc.
      assert (Es : strip ('" ? " ++ vtext v ++ '" : " ++ vtext w ++ F) = 63%N :: 32%N :: vtext v ++ '" : " ++ vtext w ++ F).
      { cbn [of_string app]. now rewrite strip_space, strip_char by reflexivity. }
      rewrite Es. unfold parse_after_value.
      match goal with |- context [starts "(" ?s] => change (starts "(" s) with false; change (starts "?" s) with true end. cbn iota.
      apply (pmap_to _ _ _ _ (vmean v, vmean w)); [|reflexivity].
      eapply preceded_ok; [apply (then_ws_ok "?")|]. rewrite strip_space, strip_id by exact Wv.
      eapply separated_pair_ok; [apply HQ; [exact Hv|exact Hc|lia]| |].
      + eapply pand_ok; [eapply pand_ok; [apply ms0|]|apply ms0].
        cbn [of_string app]. rewrite strip_space, strip_char by reflexivity. apply (pchar_eq ":").
      + rewrite strip_space, strip_id by exact Ww. apply HV; [exact Hw|lia|exact Hl].
  Qed.
  Lemma trailer_length t : 1 <= List.length (atext t).
  Proof. destruct (after_first t []) as (c & r & Ec & _). rewrite app_nil_r in Ec. rewrite Ec. cbn. lia. Qed.
  Lemma trailers_ok ac ag rest : vstop ac ag rest -> forall ts, forallb aok ts = true -> lmax adep ts <= k -> last_last ts = true ->
    members_apart ts = true -> many0 (preceded multispace0 (parse_after_value E ac ag)) (afterT ts ++ rest) = POk rest (map amean ts).
  Proof.
    intros Hs. pose proof (vstop_stops _ _ _ Hs) as Hst. induction ts as [|t ts IH]; intros Ha Hd Hl Hm.
    - cbn [afterT map concat app]. apply many0_nil. eapply preceded_err2; [apply ms0|]. rewrite stops_strip by exact Hst. now apply after_err.
    - cbn [forallb] in Ha. apply andb_true_iff in Ha as [Ht Ha]. cbn [lmax fold_right] in Hd. fold (lmax adep ts) in Hd.
      cbn [last_last] in Hl. apply andb_true_iff in Hl as [Hl Hll]. rewrite afterT_cons. cbn [map].
      assert (Hm' : members_apart ts = true).
      { cbn [members_apart] in Hm. destruct t; try exact Hm. destruct ts; [reflexivity|]. now apply andb_true_iff in Hm as [_ Hm]. }
      eapply many0_cons.
      + eapply preceded_ok; [apply ms0|]. apply trailer_ok; [exact Ht|lia| | |].
        * intros H. rewrite H in Hl. cbn [negb orb] in Hl. destruct ts; [exact Hs|discriminate Hl].
        * now apply after_ends, stops_ends.
        * destruct t as [v|args|i| |up|op v|v w]; try exact I. destruct ts as [|t ts].
          -- apply (follow_after [] rest); try reflexivity; [exact Hst|now apply (vstop_no_ge ac ag)].
          -- cbn [members_apart] in Hm. apply andb_true_iff in Hm as [Hm _]. apply negb_true_iff in Hm.
             cbn [forallb] in Ha. apply andb_true_iff in Ha as [Ht' _]. rewrite afterT_cons. now apply after_after_id.
      + pose proof (trailer_length t). rewrite (app_length (atext t)). lia.
      + apply IH; [exact Ha|lia|exact Hll|exact Hm'].
  Qed.
  Lemma follows_stop v ac ag rest : vok v = true -> is_expr v = false -> vstop ac ag rest -> follows ac ag v rest.
  Proof.
    intros Hv He Hs. pose proof (vstop_stops _ _ _ Hs) as Hst. pose proof (vstop_no_ge _ _ _ Hs) as Hg.
    destruct v as [l|n|s v|up v|t v|v|b t|v ts]; try discriminate He; cbn [follows]; auto.
    - now apply stops_ends.
    - split; [now apply (follow_after [] rest)|]. split; [|apply stops_not_first; [exact Hst|cbn; intuition discriminate]].
      apply (lone_ok E k HT HV HB [] rest); try assumption; try reflexivity. cbn. lia.
  Qed.
  Lemma follows_after v ts ac ag rest : vok (CExpr v ts) = true -> lmax adep ts <= k -> vstop ac ag rest -> follows ac ag v (afterT ts ++ rest).
  Proof.
    intros Hv Hd Hs. pose proof (vstop_stops _ _ _ Hs) as Hst. pose proof (vstop_no_ge _ _ _ Hs) as Hg.
    cbn [vok] in Hv. rewrite !andb_true_iff in Hv. destruct Hv as [[[[[[Hv Ha] Hf] Hll] Hm] Hne] Hk].
    destruct v as [l|n|s v|up v|t v|v|b t|v ts']; try discriminate Hk; cbn [follows]; auto.
    - now apply after_ends, stops_ends.
    - destruct ts as [|t ts]; [discriminate Hne|]. split; [|split].
      + rewrite afterT_cons. cbn [forallb] in Ha. apply andb_true_iff in Ha as [Ht _]. apply after_after_id; [exact Ht|].
        destruct t as [v|args|i| |up|op v|v w]; try reflexivity. cbn [after_name] in Hk.
        destruct op as [s tw e|b|]; cbn [template_like] in *; try reflexivity; [|discriminate Hk]. destruct s; try reflexivity; discriminate Hk.
      + apply (lone_after E k HT HV HB HP); try assumption. discriminate.
      + rewrite afterT_cons. apply after_not_first. cbn. intuition discriminate.
    - intros H. destruct (as_type v); [discriminate Hk|congruence].
  Qed.
  Lemma value_ok v ac ag rest : vok v = true -> vdep v <= S k -> vstop ac ag rest ->
    parse_value_like E ac ag (vtext v ++ rest) = POk rest (vmean v).
  Proof.
    intros Hv Hd Hs. destruct (is_expr v) eqn:He.
    - destruct v as [l|n|s v|up v|t v|v|b t|v ts]; try discriminate He. clear He. cbn [vdep] in Hd.
      pose proof (follows_after v ts ac ag rest Hv ltac:(lia) Hs) as Hfo. destruct (expr_header v ts Hv) as [Hh _].
      destruct (header_ok v ac ag (afterT ts ++ rest) Hh ltac:(lia) Hfo) as (h & Hp & Em).
      cbn [vtext vmean]. rewrite Em. cbn [app]. fold (afterT ts). rewrite <- app_assoc.
      cbn [vok] in Hv. rewrite !andb_true_iff in Hv. destruct Hv as [[[[[[_ Ha] Hf] Hll] Hm] _] _].
      unfold parse_value_like. apply (pmap_to _ _ _ _ (h, map amean ts)); [|reflexivity].
      eapply pand_ok; [exact Hp|]. apply intern_ok; [|now rewrite fewer_map]. apply trailers_ok; try assumption. lia.
    - destruct (header_ok v ac ag rest Hv Hd (follows_stop v ac ag rest Hv He Hs)) as (h & Hh & ->). now apply value_of_header.
  Qed.
  (** a value before a colon *)
  Lemma colon_err ac ag r : parse_after_value E ac ag (58%N :: r) = PErr.
  Proof.
    unfold parse_after_value. rewrite !starts_not by discriminate. rewrite por_next.
    - unfold parse_increment_decrement. apply pmap_err. rewrite por_next; apply pvalue_err, tag_first; discriminate.
    - reflexivity.
  Qed.
  Lemma follows_colon v ac ag r : before_colon v = true -> follows ac ag v ('" : " ++ r).
  Proof.
    intros Hc. destruct v as [l|n|s v|up v|t v|v|b t|v ts]; try discriminate Hc; cbn [follows before_colon] in *.
    - now apply ends_char.
    - split; [|split; [|discriminate]].
      + split; [now apply ends_char|]. split; [now apply no_ge_char|].
        exists (58%N :: 32%N :: r), cv_default. cbn [of_string app]. rewrite strip_space, strip_char by reflexivity. split.
        * apply cv_none. rewrite head_char by reflexivity. cbn. intuition discriminate.
        * discriminate.
      + unfold lone. eapply terminated_err2; [apply opt_err_eq, signature_err; discriminate|].
        apply ignored_none; cbn [of_string app].
        * rewrite strip_space, strip_char, head_char by reflexivity. cbn. intuition discriminate.
        * rewrite strip_space, strip_char by reflexivity. discriminate.
        * discriminate.
    - intros H. destruct (as_type v); [discriminate Hc|congruence].
    - exact I.
  Qed.
  Lemma value_colon v ac ag r : vok v = true -> before_colon v = true -> vdep v <= S k ->
    parse_value_like E ac ag (vtext v ++ '" : " ++ r) = POk ('" : " ++ r) (vmean v).
  Proof.
    intros Hv Hc Hd. destruct (header_ok v ac ag ('" : " ++ r) Hv Hd (follows_colon v ac ag r Hc)) as (h & Hh & ->).
    unfold parse_value_like. apply (pmap_to _ _ _ _ (h, [])); [|reflexivity].
    eapply pand_ok; [exact Hh|]. unfold intern_seq. rewrite many0_nil; [reflexivity|].
    eapply preceded_err2; [apply ms0|]. cbn [of_string app]. rewrite strip_space, strip_char by reflexivity. apply colon_err.
  Qed.
End Step.

Lemma good_zero : good (env_n 1) 0.
Proof.
  split.
  - intros [c b ops] rest _ Hd. cbn [tdep] in Hd. lia.
  - intros v ac ag rest _ Hd. destruct v; cbn [vdep] in Hd; lia.
  - intros s. apply type_bad.
  - intros ac ag s. apply value_bad.
  - intros; lia.
  - intros; lia.
  - intros v rest _ Ht Hd. destruct v; try discriminate Ht. cbn [vdep] in Hd. lia.
  - intros; lia.
  - intros v ac ag rest _ _ Hd. destruct v; cbn [vdep] in Hd; lia.
Qed.
Lemma good_step n k : good (env_n (S n)) k -> good (env_n (S (S n))) (S k).
Proof.
  intros G. remember (env_n (S n)) as E eqn:EE.
  assert (Er : env_n (S (S n)) = mk_env (fun s => parse_type_like E s) (fun ac ag s => parse_value_like E ac ag s) (fun s => parse_declarator E s))
    by (subst E; reflexivity).
  rewrite Er. split; cbn [r_type r_value r_decl].
  - intros. now apply (type_ok E k).
  - intros. now apply (value_ok E k).
  - intros s. apply type_bad.
  - intros ac ag s. apply value_bad.
  - intros. apply (declarator_ok E k); try assumption; try apply G; lia.
  - intros. apply (type_ops_err E k); try assumption; lia.
  - intros. now apply (then_ok E k).
  - intros. apply value_sign_bad; try assumption. apply G.
  - intros. now apply (value_colon E k).
Qed.
Lemma good_n n : good (env_n (S n)) n.
Proof. induction n as [|n IH]; [apply good_zero|now apply good_step]. Qed.
End Style.

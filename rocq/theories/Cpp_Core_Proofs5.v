(** Round trip of the core entities, part 5: names and signatures. *)
From Coq Require Import Ascii String Permutation.
From Verif Require Import Base Cpp_Lex_Model Cpp_Ast_Model Cpp_Parse_Model Cpp_Lex_Spec
  Cpp_Display_Spec Cpp_Parse_Spec Cpp_Parse_Proofs Cpp_Parse_Proofs2 Cpp_Lex_Proofs Cpp_Lex_Proofs2
  Cpp_Lex_Proofs3 Cpp_Lex_Proofs4 Cpp_Lex_Proofs5 Cpp_Lex_Proofs6 Cpp_Core_Spec Cpp_Core_Proofs Cpp_Core_Proofs2
  Cpp_Core_Proofs3 Cpp_Core_Proofs4.
Local Open Scope nat_scope.
Local Open Scope bool_scope.
Local Open Scope list_scope.
Local Notation "' s" := (of_string s) (at level 0, s at level 0).

Section Style.
Context {st : style}.

Lemma then_ws_ok c s : then_ws c (N_of_ascii c :: s) = POk (strip s) tt.
Proof. unfold then_ws. eapply pvalue_ok, pand_ok; [apply pchar_eq|apply ms0]. Qed.
Lemma then_ws_err c s : not_first (N_of_ascii c) s -> then_ws c s = PErr.
Proof. intros H. unfold then_ws. apply pvalue_err, pand_err1. now apply pchar_first. Qed.
Lemma ws_then_ok c s : is_space (N_of_ascii c) = false -> ws_then c (N_of_ascii c :: s) = POk s tt.
Proof.
  intros H. unfold ws_then. eapply pvalue_ok, pand_ok; [apply ms0|]. rewrite strip_char by exact H. apply pchar_eq.
Qed.
Lemma intern_ok {A} bits (p : parser (list A)) s r l : p s = POk r l -> fewer l bits = true -> intern_seq bits p s = POk r l.
Proof. intros H Hf. unfold intern_seq. rewrite H. cbn [pbind]. unfold fewer in Hf. now rewrite Hf. Qed.
Lemma intern_err {A} bits (p : parser (list A)) s : p s = PErr -> intern_seq bits p s = PErr.
Proof. intros H. unfold intern_seq. now rewrite H. Qed.
Lemma fewer_map {A B} (f : A -> B) l bits : fewer (map f l) bits = fewer l bits.
Proof. unfold fewer. now rewrite map_length. Qed.
Lemma sep_err {A B C} (p : parser A) (sep : parser B) (t : parser C) s : p s = PErr -> separated_terminated p sep t s = PErr.
Proof. intros H. unfold separated_terminated. now rewrite H. Qed.
Lemma not_first_strip c s : is_space c = false -> not_first c (strip s) -> not_first c s.
Proof. intros Hc H r ->. apply (H r). now apply strip_char. Qed.
Lemma stops_char c r : In c '",>)]" -> stops (c :: r).
Proof. intros H. right. eauto. Qed.

Lemma header_bad_type v f : vok v = true -> is_expr v = false -> not_a_type v = true -> word_ends f -> bad_type (vtext v ++ f).
Proof.
  intros Hv He Hn Hf. destruct v as [l|n|s v|up v|t v|v|b t|v ts]; try discriminate Hn; try discriminate He; cbn [vtext vok] in *.
  - destruct (literal_first l) as (c & r & -> & H). cbn [app bad_type]. left.
    destruct H as [H|[->| ->]].
    + apply digit_plain in H as (H1 & H2 & H3). split; [exact H1|split; [exact H2|]]. intros Hi. apply H3. cbn in *. intuition.
    + split; [reflexivity|split; [reflexivity|cbn; intuition discriminate]].
    + split; [reflexivity|split; [reflexivity|cbn; intuition discriminate]].
  - apply andb_true_iff in Hv as [_ Hs]. destruct s; try discriminate; cbn [show_sym of_string app bad_type]; left;
      (split; [reflexivity|split; [reflexivity|cbn; intuition discriminate]]).
  - destruct up; cbn [step_text of_string app bad_type]; left; apply sign_bad_char; cbn; tauto.
  - apply andb_true_iff in Hv as [Ht _]. cbn [of_string app]. right. split; [reflexivity|]. rewrite <- app_assoc.
    apply type_no_paren_word; [exact Ht|]. cbn [of_string app]. apply stops_char. cbn. tauto.
  - apply andb_true_iff in Hv as [Hv _]. cbn [of_string app]. right. split; [reflexivity|]. rewrite <- app_assoc. apply value_no_paren_word; [exact Hv|].
    cbn [of_string app]. now apply ends_char.
Qed.
Lemma value_bad_type v f : vok v = true -> not_a_type v = true -> word_ends f -> bad_type (vtext v ++ f).
Proof.
  intros Hv Hn Hf. destruct (is_expr v) eqn:Ev; [|now apply header_bad_type].
  destruct v as [l|n|s v|up v|t v|v|b t|v ts]; try discriminate Ev. destruct (expr_header v ts Hv) as [Hh He].
  cbn [vtext not_a_type] in *. rewrite <- app_assoc. fold (afterT ts). apply header_bad_type; try assumption. now apply after_ends.
Qed.

(** ** Values that are written like a type *)
Lemma sequence_map {A B} (f : A -> option B) l r : sequence (map f l) = Some r -> Forall2 (fun a b => f a = Some b) l r.
Proof.
  revert r. induction l as [|a l IH]; cbn [map sequence fold_right]; intros r H; [injection H as <-; constructor|].
  destruct (f a) as [b|] eqn:Ef; [|discriminate]. fold (sequence (map f l)) in H. destruct (sequence (map f l)) as [r'|]; [|discriminate].
  injection H as <-. constructor; [exact Ef|now apply IH].
Qed.
Definition simple_op (o : cop) : bool :=
  match o with
  | CArr _ l => negb (l_before l)
  | CFun (CSig _ _ _ _ None None) l => negb (l_before l)
  | _ => false
  end.
Lemma simple_apart ops : forallb simple_op ops = true -> all_apart ops = true /\ forallb loose (firstn 1 ops) = true.
Proof.
  intros H. split.
  - induction ops as [|a ops IH]; [reflexivity|]. destruct ops as [|b ops]; [reflexivity|].
    cbn [forallb] in H. rewrite !andb_true_iff in H. destruct H as (Ha & Hb & H).
    change (apart a b && loose b && all_apart (b :: ops) = true). rewrite IH by (cbn [forallb]; now rewrite Hb, H).
    destruct a as [|?|?|?|[? ? ? ? [] []]|]; try discriminate Ha; destruct b as [|?|?|?|[? ? ? ? [] []]|]; try discriminate Hb; reflexivity.
  - destruct ops as [|a ops]; [reflexivity|]. cbn [firstn forallb] in *. rewrite andb_true_r. apply andb_true_iff in H as [H _].
    destruct a; try discriminate H; reflexivity.
Qed.
Lemma fewer_weaker {A B} (l : list A) (l' : list B) : List.length l = List.length l' -> fewer l 6 = true -> fewer l' 8 = true.
Proof.
  unfold fewer. intros E H. apply N.ltb_lt in H. apply N.ltb_lt. rewrite <- E. change (2 ^ 6)%N with 64%N in H. change (2 ^ 8)%N with 256%N. lia.
Qed.
Lemma F2_length {A B} (R : A -> B -> Prop) l l' : Forall2 R l l' -> List.length l = List.length l'.
Proof. induction 1; cbn; congruence. Qed.
Lemma as_type_ok k : forall v t, vdep v <= k -> vok v = true -> as_type v = Some t ->
  ttext t = vtext v /\ tok t = true /\ tdep t <= vdep v.
Proof.
  induction k as [k IH] using lt_wf_ind. intros v t Hk Hv Ht.
  destruct v as [l|n|s v|up v|u v|v|b u|v ts]; try discriminate Ht.
  - cbn [as_type] in Ht. injection Ht as <-. cbn [vok vdep vtext ttext tok tdep bok btext bdep] in *. rewrite !andb_true_iff in Hv.
    destruct Hv as [[Hn _] Hop]. split; [cbn [no_cv cv_default app opt_text map concat]; now rewrite app_nil_r|].
    split; [|cbn [lmax fold_right]; lia]. rewrite Hn. destruct n. rewrite Hop. reflexivity.
  - cbn [as_type] in Ht. injection Ht as <-. cbn [vok vdep] in *. split; [|split].
    + destruct b; cbn [ttext btext ntext idtext no_cv cv_default map concat app opt_text optext sigtext join l_before no_marks vtext];
        rewrite mark_false, !app_nil_r; reflexivity.
    + destruct b; cbn [tok bok nok forallb sok idok opok sigok all_apart firstn loose opt_ok negb andb orb]; rewrite Hv; reflexivity.
    + cbn [tdep bdep ndep idep lmax fold_right omax opdep sigdep]. lia.
  - destruct v as [l|n|s v|up v|u v|v|b u|v ts']; try discriminate Ht. cbn [as_type] in Ht.
    destruct (sequence (map as_op ts)) as [ops|] eqn:Es; [|discriminate]. injection Ht as <-. apply sequence_map in Es.
    cbn [vok] in Hv. rewrite !andb_true_iff in Hv. destruct Hv as [[[[[[[[Hn _] Hop] Ha] Hf] _] _] _] _].
    cbn [vdep] in Hk.
    assert (P : concat (map optext ops) = afterT ts /\ forallb opok ops = true /\ forallb simple_op ops = true /\ lmax opdep ops <= lmax adep ts).
    { assert (Hl : S (lmax adep ts) <= k) by lia. clear Hf Hk Hn Hop.
      induction Es as [|a o ts ops Eo Es IHs]; [cbn; auto|].
      cbn [forallb] in Ha. apply andb_true_iff in Ha as [Ha Has]. cbn [lmax fold_right] in Hl. fold (lmax adep ts) in Hl.
      destruct IHs as (P1 & P2 & P3 & P4); [exact Has|lia|].
      assert (Q : optext o = atext a /\ opok o = true /\ simple_op o = true /\ opdep o <= adep a).
      { destruct a as [v|args|i| |up|op v|v w]; try discriminate Eo; cbn [as_op] in Eo.
        - injection Eo as <-. cbn [aok] in Ha. cbn [optext opok simple_op opdep adep atext opt_text opt_ok omax l_before no_marks].
          rewrite mark_false. auto.
        - destruct (sequence (map as_type args)) as [ps|] eqn:Eps; [|discriminate]. injection Eo as <-. apply sequence_map in Eps.
          cbn [aok] in Ha. apply andb_true_iff in Ha as [Hargs Hfew]. cbn [adep] in Hl.
          assert (R : map ttext ps = map vtext args /\ forallb tok ps = true /\ lmax tdep ps <= lmax vdep args).
          { assert (Hl' : lmax vdep args < k) by lia. clear -IH Eps Hargs Hl'.
            induction Eps as [|v t args ps Et Eps IHp]; [cbn; auto|].
            cbn [forallb] in Hargs. apply andb_true_iff in Hargs as [Hv Hargs]. cbn [lmax fold_right] in Hl'. fold (lmax vdep args) in Hl'.
            destruct IHp as (R1 & R2 & R3); [exact Hargs|lia|].
            destruct (IH (vdep v)) with (v := v) (t := t) as (T1 & T2 & T3); [lia|lia|exact Hv|exact Et|].
            cbn [map forallb lmax fold_right]. fold (lmax tdep ps). fold (lmax vdep args). rewrite T1, R1, T2, R2. repeat split; lia. }
          destruct R as (R1 & R2 & R3). cbn [optext opok sigok simple_op opdep sigdep adep atext sigtext l_before no_marks negb orb opt_ok omax opt_text no_cv cv_default].
          rewrite mark_false, R1, R2, (fewer_weaker args ps (F2_length _ _ _ Eps) Hfew). cbn [space app andb].
          rewrite !app_nil_r. repeat split; lia. }
      destruct Q as (Q1 & Q2 & Q3 & Q4). unfold afterT in *. cbn [map concat forallb lmax fold_right]. fold (lmax opdep ops). fold (lmax adep ts).
      rewrite Q1, Q2, Q3, P1, P2, P3. repeat split; lia. }
    destruct P as (P1 & P2 & P3 & P4). destruct (simple_apart ops P3) as [A1 A2]. split; [|split].
    + cbn [ttext btext vtext no_cv cv_default app opt_text]. now rewrite P1.
    + cbn [tok bok]. rewrite Hn, P2, A1, A2, (fewer_weaker ts ops (F2_length _ _ _ Es) Hf). cbn [andb].
      destruct n as [? ? i]. destruct ops as [|[] ops]; rewrite Hop, ?(bare_shift_oper i Hop); reflexivity.
    + cbn [tdep bdep vdep]. lia.
Qed.

(** ** What comes after a value *)
Definition after_chars : str := '"[(.-+*/%^&|=<>!?".
Lemma after_strip t y : aok t = true -> exists c r, strip (atext t ++ y) = c :: r /\ In c after_chars /\
  (c = 38%N -> exists tw e v, t = CBinary (CbSymbol AndRef tw e) v) /\
  (c = 42%N -> exists tw e v, t = CBinary (CbSymbol MulDeref tw e) v) /\
  (c = 40%N -> exists args, t = CCall args) /\ (c = 91%N -> exists v, t = CIndex v) /\
  (c = 60%N -> template_like t = true) /\
  (forall x, c = 45%N -> r = 62%N :: x -> exists star v, t = CBinary (CbArrow star) v).
Proof.
  intros Ha.
  assert (D : forall c r (P1 P2 P3 P4 P5 : Prop) (P6 : str -> Prop), strip (atext t ++ y) = c :: r -> In c after_chars ->
     (c = 38%N -> P1) -> (c = 42%N -> P2) -> (c = 40%N -> P3) -> (c = 91%N -> P4) -> (c = 60%N -> P5) ->
     (forall x, c = 45%N -> r = 62%N :: x -> P6 x) ->
     exists c r, strip (atext t ++ y) = c :: r /\ In c after_chars /\ (c = 38%N -> P1) /\ (c = 42%N -> P2) /\ (c = 40%N -> P3) /\
       (c = 91%N -> P4) /\ (c = 60%N -> P5) /\ (forall x, c = 45%N -> r = 62%N :: x -> P6 x)).
  { intros c r P1 P2 P3 P4 P5 P6 H1 H2 H3 H4 H5 H6 H7 H8. exists c, r. auto 10. }
  destruct t as [v|args|i| |up|op v|v w].
  - cbn [atext of_string app]. rewrite strip_char by reflexivity. eexists _, _. split; [reflexivity|].
    split; [cbn; tauto|]. repeat split; intros; try discriminate. eauto.
  - cbn [atext of_string app]. rewrite strip_char by reflexivity. eexists _, _. split; [reflexivity|].
    split; [cbn; tauto|]. repeat split; intros; try discriminate. eauto.
  - cbn [atext of_string app]. rewrite strip_char by reflexivity. eexists _, _. split; [reflexivity|].
    split; [cbn; tauto|]. repeat split; intros; try discriminate.
  - cbn [atext of_string app]. rewrite strip_char by reflexivity. eexists _, _. split; [reflexivity|].
    split; [cbn; tauto|]. repeat split; intros; try discriminate.
  - destruct up; cbn [atext step_text of_string app]; rewrite strip_char by reflexivity; (eexists _, _; split; [reflexivity|]);
      (split; [cbn; tauto|]); repeat split; intros; try discriminate.
  - cbn [aok] in Ha. rewrite !andb_true_iff in Ha. destruct Ha as [[_ Hb] _].
    destruct op as [s tw e|star|].
    + destruct s, tw, e; try discriminate Hb; cbn [atext binary_text show_sym of_string app];
        rewrite strip_space, strip_char by reflexivity; (eexists _, _; split; [reflexivity|]);
        (split; [cbn; tauto|]); repeat split; intros; try discriminate; eauto.
    + destruct star; cbn [atext binary_text of_string app]; rewrite strip_char by reflexivity; (eexists _, _; split; [reflexivity|]);
        (split; [cbn; tauto|]); repeat split; intros; try discriminate; eauto.
    + cbn [atext binary_text of_string app]. rewrite strip_space, strip_char by reflexivity. eexists _, _. split; [reflexivity|].
      split; [cbn; tauto|]. repeat split; intros; try discriminate; eauto.
  - cbn [atext of_string app]. rewrite strip_space, strip_char by reflexivity. eexists _, _. split; [reflexivity|].
    split; [cbn; tauto|]. repeat split; intros; try discriminate.
Qed.
Lemma after_char_plain c : In c after_chars -> is_id_start c = false /\ is_space c = false /\ ~ In c '",):]~{".
Proof.
  intros H. cbn in H. repeat (destruct H as [<-|H]; [split; [reflexivity|split; [reflexivity|cbn; intuition discriminate]]|]). destruct H.
Qed.
Lemma after_after_id t y : aok t = true -> template_like t = false -> after_id (atext t ++ y).
Proof.
  intros Ha Ht. destruct (after_first t y) as (c & r & Ec & Hc). destruct (after_strip t y Ha) as (c' & r' & Es & Hc' & _ & _ & _ & _ & H60 & _).
  split; [|split].
  - rewrite Ec. apply ends_char. cbn in Hc. repeat (destruct Hc as [<-|Hc]; [reflexivity|]). destruct Hc.
  - rewrite Ec. apply no_ge_char; intros ->; cbn in Hc; intuition discriminate.
  - exists (c' :: r'), cv_default. rewrite Es. destruct (after_char_plain c' Hc') as (P1 & _). split.
    + apply cv_none. rewrite head_char by exact P1. cbn. intuition discriminate.
    + intros x [= -> _]. rewrite H60 in Ht by reflexivity. discriminate.
Qed.
Lemma after_not_first t y c : ~ In c '"[(. -+" -> not_first c (atext t ++ y).
Proof. intros Hc r E. destruct (after_first t y) as (c' & r' & E' & H). rewrite E' in E. injection E as -> _. contradiction. Qed.

(** how a value starts *)
Lemma id_first i x : idok i = true -> exists c r, idtext i ++ x = c :: r /\ (is_id_start c = true \/ c = 126%N \/ c = 40%N \/ c = 123%N).
Proof.
  intros Hi. destruct i as [d w tp|op tp|v|u w l|l|m|f m]; cbn [idtext]; try (eexists _, _; split; [reflexivity|tauto]);
    [|destruct (mark u); (eexists _, _; split; [reflexivity|tauto])].
  cbn [idok] in Hi. apply andb_true_iff in Hi as [Hw _]. apply name_ok_iff in Hw as [(c & r & -> & Hc & _) _].
  apply id_start_iff in Hc. destruct d; eexists _, _; (split; [reflexivity|tauto]).
Qed.
Lemma path_first p x : forallb sok p = true -> p <> [] ->
  exists c r, pathT p ++ x = c :: r /\ (is_id_start c = true \/ c = 126%N \/ c = 40%N \/ c = 123%N).
Proof.
  destruct p as [|[i f] p]; [congruence|]. cbn [forallb]. rewrite andb_true_iff. intros [H _] _.
  cbn [sok] in H. rewrite !andb_true_iff in H. destruct H as [[Hi _] _].
  unfold pathT. cbn [map concat stext]. rewrite <- !app_assoc. now apply id_first.
Qed.
Lemma name_first n X : nok n = true -> exists c r, ntext n ++ X = c :: r /\ (is_id_start c = true \/ In c '"(~:{").
Proof.
  destruct n as [rooted ss i]. cbn [nok ntext]. rewrite !andb_true_iff. intros [[H1 _] H3].
  destruct rooted; [eexists _, _; split; [reflexivity|right; cbn; tauto]|]. cbn [app]. rewrite <- app_assoc.
  assert (X0 : exists c r, concat (map stext ss) ++ idtext i ++ X = c :: r /\ (is_id_start c = true \/ c = 126%N \/ c = 40%N \/ c = 123%N)).
  { destruct ss as [|s ss]; [now apply id_first|]. fold (pathT (s :: ss)). now apply path_first. }
  destruct X0 as (c & r & Ec & H). exists c, r. split; [exact Ec|]. destruct H as [H|[->|[->| ->]]]; [now left|right; cbn; tauto..].
Qed.
Lemma header_first v x : vok v = true -> is_expr v = false ->
  exists c r, vtext v ++ x = c :: r /\ (is_id_start c = true \/ is_digit c = true \/ In c '"-'(~:&*!+{") /\
    (c = 38%N -> exists w, v = CUnary AndRef w).
Proof.
  intros Hv He. destruct v as [l|n|s v|up v|t v|v|b t|v ts]; try discriminate He; cbn [vtext vok] in *.
  - destruct (literal_first l) as (c & r & -> & H). eexists _, _. split; [reflexivity|]. split.
    + destruct H as [H|[->| ->]]; cbn; tauto.
    + intros ->. destruct H as [H|[H|H]]; discriminate H.
  - rewrite !andb_true_iff in Hv. destruct Hv as [[Hn _] _]. destruct (name_first n x Hn) as (c & r & -> & H).
    exists c, r. split; [reflexivity|]. split; [destruct H as [H|H]; [now left|cbn in *; tauto]|].
    intros ->. destruct H as [H|H]; [discriminate H|cbn in H; intuition discriminate].
  - apply andb_true_iff in Hv as [_ Hs]. destruct s; try discriminate Hs; (eexists _, _; split; [reflexivity|]);
      (split; [cbn; tauto|]); intros; try discriminate; eauto.
  - destruct up; (eexists _, _; split; [reflexivity|]); (split; [cbn; tauto|discriminate]).
  - eexists _, _. split; [reflexivity|]. split; [cbn; tauto|discriminate].
  - eexists _, _. split; [reflexivity|]. split; [cbn; tauto|discriminate].
  - destruct b; (eexists _, _; split; [reflexivity|]); (split; [now left|discriminate]).
Qed.
Lemma value_first v x : vok v = true ->
  exists c r, vtext v ++ x = c :: r /\ (is_id_start c = true \/ is_digit c = true \/ In c '"-'(~:&*!+{") /\
    (c = 38%N -> exists w, v = CUnary AndRef w).
Proof.
  intros Hv. destruct (is_expr v) eqn:Ev; [|now apply header_first].
  destruct v as [l|n|s v|up v|t v|v|b t|v ts]; try discriminate Ev. destruct (expr_header v ts Hv) as [Hh He].
  cbn [vtext]. rewrite <- app_assoc. destruct (header_first v (concat (map atext ts) ++ x) Hh He) as (c & r & Ec & H & H38).
  exists c, r. split; [exact Ec|]. split; [exact H|]. intros Hc. destruct (H38 Hc) as [w Ew]. subst v. exfalso.
  cbn [vok] in Hv. rewrite !andb_true_iff in Hv. destruct Hv as [_ Hv]. discriminate Hv.
Qed.
Lemma value_not_first v x c : vok v = true -> is_id_start c = false -> is_digit c = false -> ~ In c '"-'(~:&*!+{" ->
  not_first c (vtext v ++ x).
Proof.
  intros Hv H1 H2 H3 r E. destruct (value_first v x Hv) as (c' & r' & E' & H & _). rewrite E' in E. injection E as -> _.
  destruct H as [H|[H|H]]; [congruence|congruence|contradiction].
Qed.
Lemma join_split (f : cvalue -> str) xs b r Z : join '", " (map f (xs ++ b :: r)) ++ Z =
  concat (map (fun x => f x ++ '", ") xs) ++ f b ++ match r with [] => Z | _ => '", " ++ join '", " (map f r) ++ Z end.
Proof.
  induction xs as [|x xs IH].
  - cbn [app map concat]. destruct r as [|y r]; [reflexivity|].
    change (join '", " (f b :: map f (y :: r))) with (f b ++ '", " ++ join '", " (map f (y :: r))). now rewrite <- !app_assoc.
  - cbn [map concat]. rewrite <- !app_assoc, <- IH.
    destruct (xs ++ b :: r) as [|y l] eqn:El; [destruct xs; discriminate|].
    change ((x :: xs) ++ b :: r) with (x :: xs ++ b :: r). rewrite El.
    change (join '", " (map f (x :: y :: l))) with (f x ++ '", " ++ join '", " (map f (y :: l))). now rewrite <- !app_assoc.
Qed.
Lemma args_cases args : args_unmistakable args = true ->
  (exists ps, sequence (map as_type args) = Some ps) \/
  exists xs b r, args = xs ++ b :: r /\ (forall x, In x xs -> as_type x <> None) /\ as_type b = None /\
    (not_a_type b = true \/ type_then b = true).
Proof.
  induction args as [|a args IH]; cbn [args_unmistakable]; intros H; [left; now exists []|].
  destruct (as_type a) as [t|] eqn:Ea; cbn [is_none] in H.
  - destruct (IH H) as [[ps Hps]|(xs & b & r & -> & H1 & H2 & H3)].
    + left. exists (t :: ps). cbn [map sequence fold_right]. fold (sequence (map as_type args)). now rewrite Ea, Hps.
    + right. exists (a :: xs), b, r. split; [reflexivity|]. split; [|now split]. intros x [<-|Hx]; [congruence|now apply H1].
  - right. exists [], a, args. split; [reflexivity|]. split; [intros x []|]. split; [exact Ea|]. now apply orb_true_iff in H.
Qed.
Lemma ignored_none s : ~ In (head (strip s)) cvw -> not_first 38%N (strip s) -> not_first 58%N s -> ignored_qualifiers s = PErr.
Proof.
  intros H1 H2 H3. unfold ignored_qualifiers. apply pvalue_err. eapply pand_err2; [apply many0_nil; now apply qualifier_none|].
  now apply tag_scope_err.
Qed.
Lemma ignored_amp s (b : bool) y : strip s = (if b then '"&&" else '"&") ++ y -> not_first 38%N y ->
  ~ In (head (strip y)) cvw -> not_first 38%N (strip y) -> not_first 58%N y -> ignored_qualifiers s = PErr.
Proof.
  intros H0 H1 H2 H3 H4. unfold ignored_qualifiers. apply pvalue_err. eapply pand_err2.
  - eapply many0_cons; [now apply (qualifier_ref s b y)| |apply many0_nil; now apply qualifier_none].
    pose proof (strip_length s) as L. rewrite H0, app_length in L. destruct b; cbn [of_string List.length] in L; lia.
  - now apply tag_scope_err.
Qed.

Section Core.
  Variable E : env.
  Variable k : nat.
  Hypothesis HT : forall t rest, tok t = true -> tdep t <= k -> stops rest -> no_ge rest ->
    r_type E (ttext t ++ rest) = POk rest (tmean t).
  Hypothesis HV : forall v ac ag rest, vok v = true -> vdep v <= k -> vstop ac ag rest ->
    r_value E ac ag (vtext v ++ rest) = POk rest (vmean v).
  Hypothesis HB : forall s, bad_type s -> r_type E s = PErr.
  Hypothesis HW : forall ac ag s, no_value s -> r_value E ac ag s = PErr.

  (** ** Template parameters *)
  Definition item_end (f : str) : Prop := (exists X, f = 62%N :: X /\ no_ge X) \/ exists r, f = '", " ++ r.
  Lemma item_end_stops f : item_end f -> stops f /\ no_ge f /\ vstop false false f.
  Proof.
    intros [(X & -> & H)|(r & ->)].
    - assert (G : no_ge (62%N :: X)) by now apply no_ge_gt.
      split; [apply stops_char; cbn; tauto|]. split; [exact G|]. right. right. right. eauto.
    - cbn [of_string app]. split; [apply stops_char; cbn; tauto|]. split; [now apply no_ge_char|].
      right. right. left. cbn. eauto.
  Qed.
  Lemma lookahead_ok f : item_end f -> exists c,
    pand multispace0 (peek (por (pchar ",") (pchar ">"))) f = POk f c.
  Proof.
    intros H. pose proof (item_end_stops f H) as (Hs & _). assert (Es : strip f = f) by now apply stops_strip.
    destruct H as [(X & -> & _)|(r & ->)]; eexists; (eapply pand_ok; [rewrite ms0, Es; reflexivity|reflexivity]).
  Qed.
  Lemma parameter_ok p f : pok p = true -> pdep p <= k -> item_end f ->
    parse_template_parameter E (ptext p ++ f) = POk f (pmean p).
  Proof.
    intros Hp Hd Hf. destruct (lookahead_ok f Hf) as [c Hc]. destruct (item_end_stops f Hf) as (H1 & H2 & H3).
    unfold parse_template_parameter. cbv zeta. destruct p as [t|v]; cbn [pok pdep ptext pmean] in *.
    - apply por_ok. eapply terminated_ok; [|exact Hc]. apply pmap_ok. now apply HT.
    - apply andb_true_iff in Hp as [Hv Hn]. rewrite por_next.
      + eapply terminated_ok; [|exact Hc]. apply pmap_ok. now apply HV.
      + apply terminated_err1, pmap_err, HB. apply value_bad_type; [exact Hv|exact Hn|now apply stops_ends].
  Qed.
  Lemma parameter_bad s : no_value s -> parse_template_parameter E s = PErr.
  Proof.
    intros H. unfold parse_template_parameter. cbv zeta. rewrite por_next; apply terminated_err1, pmap_err.
    - now apply HW.
    - apply HB. now apply no_value_bad.
  Qed.
  Lemma parameters_err r : shift_rest r -> parse_template_parameters E (60%N :: r) = PErr.
  Proof.
    intros Hc. unfold parse_template_parameters.
    assert (Hs : strip r = r).
    { destruct Hc as [->|(c & r' & -> & Hc)]; [reflexivity|]. apply strip_char. cbn in Hc. destruct Hc as [<-|[<-|[]]]; reflexivity. }
    eapply preceded_err2; [exact (then_ws_ok "<" r)|]. rewrite Hs.
    rewrite por_next; [apply pvalue_err, tag_first|apply pmap_err; rewrite por_next].
    - destruct Hc as [->|(c & r' & -> & Hc)]; intros y; [discriminate|]. intros [= -> _]. cbn in Hc. intuition discriminate.
    - apply pvalue_err, pchar_first.
      destruct Hc as [->|(c & r' & -> & Hc)]; intros y; [discriminate|]. intros [= -> _]. cbn in Hc. intuition discriminate.
    - apply intern_err, sep_err, parameter_bad. destruct Hc as [->|(c & r' & -> & Hc)]; [now left|right].
      exists c, r'. split; [reflexivity|]. cbn in *. tauto.
  Qed.
  Lemma parameter_white p f : pok p = true -> item_end f -> not_white (ptext p ++ f).
  Proof.
    intros Hp Hf. destruct (item_end_stops f Hf) as (H1 & _). destruct p as [t|v]; cbn [pok ptext] in *.
    - now apply type_starts.
    - apply andb_true_iff in Hp as [Hv _]. apply value_starts; [exact Hv|now apply stops_ends].
  Qed.
  Lemma parameters_ok l X : forallb pok l = true -> fewer l 10 = true -> lmax pdep l <= k -> no_ge X ->
    parse_template_parameters E (('"<" ++ join '", " (map ptext l) ++ '">") ++ X) = POk X (TPList (map pmean l)).
  Proof.
    intros Hl Hf Hd Hx. unfold parse_template_parameters.
    assert (Hi : forall x, In x l -> pok x = true /\ pdep x <= k).
    { intros x Hx'. rewrite forallb_forall in Hl. split; [now apply Hl|now apply (lmax_in pdep l k)]. }
    assert (Hend : item_end (62%N :: X)) by (left; eauto).
    eapply preceded_ok; [rewrite <- !app_assoc; apply (then_ws_ok "<")|]. apply por_ok.
    apply pmap_ok. destruct l as [|p l].
    - cbn [map join app of_string]. rewrite strip_char by reflexivity. rewrite por_next.
      + eapply pvalue_ok. apply (pchar_eq ">").
      + apply intern_err, sep_err, parameter_bad, stops_no_value. apply stops_char. cbn. tauto.
    - assert (Es : strip (join '", " (map ptext (p :: l)) ++ '">" ++ X) = join '", " (map ptext (p :: l)) ++ '">" ++ X).
      { apply strip_id. destruct (Hi p (or_introl eq_refl)) as [Hp _]. destruct l as [|p' l].
        - cbn [map join]. now apply parameter_white.
        - change (join '", " (map ptext (p :: p' :: l))) with (ptext p ++ '", " ++ join '", " (map ptext (p' :: l))).
          rewrite <- !app_assoc. apply parameter_white; [exact Hp|right; eauto]. }
      rewrite Es. apply por_ok. apply intern_ok; [|now rewrite fewer_map].
      change ('">" ++ X) with (N_of_ascii ">" :: X).
      apply (separated_ok ptext pmean); [discriminate|reflexivity|discriminate| |].
      + intros x Hx' f Hf'. destruct (Hi x Hx') as [H1 H2]. apply parameter_ok; [exact H1|exact H2|].
        destruct Hf' as [->|H]; [exact Hend|now right].
      + intros x Hx' f Hf'. destruct (Hi x Hx') as [H1 H2]. apply parameter_white; [exact H1|].
        destruct Hf' as [->|H]; [exact Hend|now right].
  Qed.

  (** ** Unqualified names *)
  Lemma named_ok d w tp X : name_ok w = true -> opt_ok (fun l => forallb pok l && fewer l 10) tp = true ->
    omax (lmax pdep) tp <= k -> after_id X ->
    parse_named E d (w ++ opt_text (fun l => '"<" ++ join '", " (map ptext l) ++ '">") tp ++ X)
    = POk X (UNamed d w (option_map (fun l => TPList (map pmean l)) tp)).
  Proof.
    intros Hw Htp Hd (H1 & H2 & r & c & Hr & Hr'). apply name_ok_iff in Hw as [Hw _]. unfold parse_named.
    apply (pmap_to _ _ _ _ (w, option_map (fun l => TPList (map pmean l)) tp)); [|reflexivity].
    eapply pand_ok.
    - apply identifier_iff. split; [reflexivity|]. split; [exact Hw|].
      destruct tp as [l|]; cbn [opt_text of_string app]; [now apply ends_char|exact H1].
    - destruct tp as [l|]; cbn [opt_text option_map opt_ok omax] in *.
      + apply andb_true_iff in Htp as [Hl Hf]. apply opt_ok_eq. eapply preceded_ok; [|now apply parameters_ok].
        apply opt_ok_eq. eapply pand_ok; [apply ms0|]. cbn [of_string app]. rewrite strip_char by reflexivity.
        apply cv_none. rewrite head_char by reflexivity. cbn. intuition discriminate.
      + apply opt_err_eq. eapply preceded_err2.
        * apply opt_ok_eq. eapply pand_ok; [apply ms0|exact Hr].
        * unfold parse_template_parameters. apply preceded_err1. now apply then_ws_err.
  Qed.
  Lemma not_first_word c w y : word w -> is_id_start c = false -> not_first c (w ++ y).
  Proof. intros (x & r & -> & Hx & _) Hc r' [= -> _]. apply id_start_iff in Hx. congruence. Qed.
  (** ** Parameters of functions *)
  Definition itext (o : option ctype) : str := match o with Some t => ttext t | None => '"..." end.
  Definition items (params : list ctype) (variadic : bool) : list (option ctype) :=
    map Some params ++ (if variadic then [None] else []).
  Lemma items_text params variadic : negb variadic || match params with [] => false | _ => true end = true ->
    join '", " (map itext (items params variadic)) =
    join '", " (map ttext params) ++ (if variadic then '", ..." else []).
  Proof.
    unfold items. destruct variadic; cbn [negb orb]; intros H.
    - destruct params as [|p params]; [discriminate|]. clear H. revert p.
      induction params as [|q params IH]; intros p; [reflexivity|].
      change (map itext (map Some (p :: q :: params) ++ [None])) with (ttext p :: ttext q :: map itext (map Some params ++ [None])).
      change (map ttext (p :: q :: params)) with (ttext p :: ttext q :: map ttext params).
      change (join '", " (ttext p :: ttext q :: map itext (map Some params ++ [None])))
        with (ttext p ++ '", " ++ join '", " (map itext (map Some (q :: params) ++ [None]))).
      change (join '", " (ttext p :: ttext q :: map ttext params))
        with (ttext p ++ '", " ++ join '", " (map ttext (q :: params))).
      rewrite IH. now rewrite <- !app_assoc.
    - now rewrite !app_nil_r, map_map.
  Qed.
  Lemma items_fold params variadic :
    fold_left parameter_step (map (option_map tmean) (items params variadic)) ([], false, false)
    = (map tmean params, variadic, false).
  Proof.
    unfold items. assert (G : forall acc, fold_left parameter_step (map (option_map tmean) (map Some params)) (acc, false, false)
      = (acc ++ map tmean params, false, false)).
    { induction params as [|p params IH]; intros acc; cbn [map fold_left option_map]; [now rewrite app_nil_r|].
      cbn [parameter_step orb]. rewrite IH. now rewrite <- app_assoc. }
    rewrite map_app, fold_left_app, G. cbn [app]. destruct variadic; reflexivity.
  Qed.
  Lemma parameter_set_ok params variadic Y :
    forallb tok params = true -> fewer params 8 = true -> lmax tdep params <= k ->
    negb variadic || match params with [] => false | _ => true end = true ->
    parse_function_parameter_set E
      ('"(" ++ join '", " (map ttext params) ++ (if variadic then '", ..." else []) ++ '")" ++ Y)
    = POk Y (map tmean params, variadic).
  Proof.
    intros Hp Hf Hd Hv. unfold parse_function_parameter_set.
    assert (Hi : forall x, In x params -> tok x = true /\ tdep x <= k).
    { intros x Hx'. rewrite forallb_forall in Hp. split; [now apply Hp|now apply (lmax_in tdep params k)]. }
    eapply preceded_ok; [apply (then_ws_ok "(")|].
    destruct params as [|p params].
    - destruct variadic; [discriminate|]. cbn [map join of_string app]. rewrite strip_char by reflexivity.
      assert (Hs : stops (41%N :: Y)) by (apply stops_char; cbn; tauto).
      rewrite por_next.
      + eapply pvalue_ok. apply (pchar_eq ")").
      + rewrite map_opt_err; [reflexivity|]. apply sep_err. rewrite por_next.
        * apply pvalue_err, tag_first. intros r. discriminate.
        * apply pmap_err, HB. now apply stops_bad.
    - pose proof (items_text (p :: params) variadic Hv) as Et. rewrite (app_assoc (join _ _)), <- Et.
      assert (Hw : forall x, In x (items (p :: params) variadic) -> forall f,
         (f = N_of_ascii ")" :: Y \/ exists r, f = '", " ++ r) -> not_white (itext x ++ f)).
      { intros x Hx f Hf'. destruct x as [t|]; cbn [itext]; [|now apply not_white_char].
        unfold items in Hx. apply in_app_or in Hx as [Hx|Hx]; [|destruct variadic; [destruct Hx as [Hx|[]]; discriminate|destruct Hx]].
        apply in_map_iff in Hx as (t' & [= ->] & Hx). apply type_starts; [now apply Hi|].
        destruct Hf' as [->|[r ->]]; apply stops_char; cbn; tauto. }
      assert (Es : strip (join '", " (map itext (items (p :: params) variadic)) ++ '")" ++ Y)
                   = join '", " (map itext (items (p :: params) variadic)) ++ '")" ++ Y).
      { apply strip_id. assert (H0 : In (Some p) (items (p :: params) variadic)) by (unfold items; left; reflexivity).
        change (items (p :: params) variadic) with (Some p :: items params variadic) at 1. cbn [map].
        destruct (items params variadic) as [|q l]; cbn [map].
        - cbn [join]. apply (Hw (Some p) H0). now left.
        - change (join '", " (itext (Some p) :: itext q :: map itext l)) with (itext (Some p) ++ '", " ++ join '", " (itext q :: map itext l)).
          rewrite <- !app_assoc. apply (Hw (Some p) H0). right. eauto. }
      rewrite Es. apply por_ok.
      assert (Em : separated_terminated (por (pmap Some (r_type E)) (pvalue None (tag "..."))) comma_sep (ws_then ")")
        (join '", " (map itext (items (p :: params) variadic)) ++ '")" ++ Y)
        = POk Y (map (option_map tmean) (items (p :: params) variadic))).
      { change ('")" ++ Y) with (N_of_ascii ")" :: Y).
        apply (separated_ok itext (option_map tmean)); [discriminate|reflexivity|discriminate| |exact Hw].
        intros x Hx f Hf'. destruct x as [t|]; cbn [itext option_map].
        - unfold items in Hx. apply in_app_or in Hx as [Hx|Hx]; [|destruct variadic; [destruct Hx as [Hx|[]]; discriminate|destruct Hx]].
          apply in_map_iff in Hx as (t' & [= ->] & Hx). apply por_ok. apply pmap_ok. destruct (Hi t Hx) as [H1 H2]. apply HT; [exact H1|exact H2| |].
          + destruct Hf' as [->|[r ->]]; apply stops_char; cbn; tauto.
          + destruct Hf' as [->|[r ->]]; now apply no_ge_char.
        - rewrite por_next.
          + eapply pvalue_ok. apply tag_ok.
          + apply pmap_err, HB. left. split; [reflexivity|split; [reflexivity|cbn; intuition discriminate]]. }
      rewrite (map_opt_ok _ _ _ _ _ (map tmean (p :: params), variadic) Em); [|now rewrite items_fold].
      cbn [pbind fst]. unfold fewer in Hf. rewrite map_length, Hf. reflexivity.
  Qed.

  (** ** Signatures *)
  Definition retT (ret : option ctype) : str := opt_text (fun t => '" -> " ++ ttext t) ret.
  Definition noexT (n : option (option cvalue)) : str :=
    opt_text (fun o => '" noexcept" ++ opt_text (fun v => '"(" ++ vtext v ++ '")") o) n.
  Definition refT (r : reference) : str := match r with RNone => [] | _ => '" " ++ ref_text r end.
  Definition cvT (c : cv) : str := if no_cv c then [] else '" " ++ cv_text c.
  (** what may follow a signature *)
  Definition after_sig (f : csig) (Y : str) : Prop :=
    word_ends Y /\ allowed (head (strip Y)) /\ not_first 38%N (strip Y) /\ (forall r, strip Y <> '"->" ++ r) /\
    (sig_bare_noexcept f = true -> not_first 40%N Y) /\ (sig_ret f = true -> stops Y /\ no_ge Y).
  Lemma strip_ret ret Y : strip (retT ret ++ Y) = match ret with Some t => '"-> " ++ ttext t ++ Y | None => strip Y end.
  Proof.
    destruct ret as [t|]; [|reflexivity]. unfold retT. cbn [opt_text]. rewrite <- app_assoc.
    change ('" -> " ++ ttext t ++ Y) with (32%N :: '"-> " ++ ttext t ++ Y). rewrite strip_space. cbn [of_string app]. now rewrite strip_char.
  Qed.
  Lemma strip_noex n Z : strip (noexT n ++ Z) =
    match n with Some o => '"noexcept" ++ opt_text (fun v => '"(" ++ vtext v ++ '")") o ++ Z | None => strip Z end.
  Proof.
    destruct n as [o|]; [|reflexivity]. unfold noexT. cbn [opt_text]. rewrite <- app_assoc.
    match goal with |- strip ('" noexcept" ++ ?y) = _ => change ('" noexcept" ++ y) with (32%N :: '"noexcept" ++ y) end.
    rewrite strip_space. now apply word_strip, is_word_iff.
  Qed.
  Lemma strip_ref r Z : strip (refT r ++ Z) = match r with RNone => strip Z | _ => ref_text r ++ Z end.
  Proof. destruct r; [reflexivity|..]; unfold refT; cbn [ref_text of_string app]; now rewrite strip_space, strip_char. Qed.
  Lemma strip_cvT c Z : word_ends Z -> strip (cvT c ++ Z) = if no_cv c then strip Z else cv_text c ++ Z.
  Proof.
    intros HZ. unfold cvT. destruct (no_cv c) eqn:Ec; [reflexivity|]. rewrite <- app_assoc.
    change ('" " ++ cv_text c ++ Z) with (32%N :: cv_text c ++ Z). rewrite strip_space. apply strip_id. now apply cv_head.
  Qed.

  Lemma ret_stage ret Y : opt_ok tok ret = true -> omax tdep ret <= k -> (forall r, strip Y <> '"->" ++ r) ->
    (ret <> None -> stops Y /\ no_ge Y) ->
    opt (preceded (pand (tag "->") multispace0) (r_type E)) (strip (retT ret ++ Y)) = POk (strip Y) (option_map tmean ret).
  Proof.
    intros Hr Hd H1 H2. rewrite strip_ret. destruct ret as [t|]; cbn [opt_ok omax option_map] in *.
    - destruct H2 as [Hs Hg]; [discriminate|]. rewrite (stops_strip Y Hs). apply opt_ok_eq. eapply preceded_ok.
      + eapply pand_ok; [apply (tag_ok "->")|]. change ([32%N] ++ ttext t ++ Y) with (32%N :: ttext t ++ Y).
        rewrite ms0, strip_space. rewrite strip_id by (now apply type_starts). reflexivity.
      + now apply HT.
    - apply opt_err_eq, preceded_err1, pand_err1. apply tag_err. exact H1.
  Qed.
  Lemma noexcept_stage n Z : opt_ok (opt_ok vok) n = true -> omax (omax vdep) n <= k -> word_ends Z ->
    head (strip Z) <> '"noexcept" -> (n = Some None -> not_first 40%N Z) ->
    opt (terminated (parse_noexcept E) multispace0) (strip (noexT n ++ Z)) = POk (strip Z) (option_map (option_map vmean) n).
  Proof.
    intros Hn Hd Hw Hh Hb. rewrite strip_noex. destruct n as [o|]; cbn [opt_ok omax option_map] in *.
    - apply opt_ok_eq. eapply terminated_ok; [|apply ms0]. unfold parse_noexcept.
      eapply preceded_ok; [apply keyword_ok; destruct o; cbn [opt_text of_string app]; [now apply ends_char|exact Hw]|].
      destruct o as [v|]; cbn [opt_text opt_ok omax option_map] in *.
      + apply opt_ok_eq. rewrite <- !app_assoc. eapply delimited_ok.
        * cbn [of_string app]. rewrite (then_ws_ok "("). rewrite strip_id by (apply value_starts; [exact Hn|now apply ends_char]). reflexivity.
        * apply HV; [exact Hn|exact Hd|]. left. eauto.
        * apply (ws_then_ok ")"). reflexivity.
      + apply opt_err_eq, delimited_err1. apply then_ws_err. now apply Hb.
    - apply opt_err_eq, terminated_err1. unfold parse_noexcept. apply preceded_err1, keyword_head; [now apply is_word_iff|exact Hh].
  Qed.
  Lemma ref_stage r Z : not_first 38%N (strip Z) ->
    terminated parse_reference multispace0 (strip (refT r ++ Z)) = POk (strip Z) r.
  Proof.
    intros H. rewrite strip_ref. assert (Hz : not_first 38%N Z) by now apply not_first_strip.
    destruct r.
    - eapply terminated_ok; [now apply reference_none|]. now rewrite ms0, strip_strip.
    - eapply terminated_ok; [exact (reference_text RLValue Z Hz)|apply ms0].
    - eapply terminated_ok; [exact (reference_text RRValue Z Hz)|apply ms0].
  Qed.
  Lemma cv_stage c Z : word_ends Z -> ~ In (head (strip Z)) cvw ->
    terminated parse_cv multispace0 (strip (cvT c ++ Z)) = POk (strip Z) c.
  Proof.
    intros H1 H2. rewrite strip_cvT by exact H1. destruct (no_cv c) eqn:Ec.
    - apply no_cv_eq in Ec. subst c. eapply terminated_ok; [now apply cv_none|]. now rewrite ms0, strip_strip.
    - eapply terminated_ok; [now apply cv_ok|]. now rewrite ms0, strip_strip.
  Qed.
  Lemma signature_ok f Y : sigok f = true -> sigdep f <= k -> after_sig f Y ->
    parse_function_signature E (sigtext f ++ Y) = POk (strip Y) (sigmean f).
  Proof.
    destruct f as [params variadic c r n ret]. cbn [sigok sigdep sigtext sigmean]. rewrite !andb_true_iff.
    intros [[[[Hp Hf] Hv] Hn] Hr] Hd (Y1 & Y2 & Y3 & Y4 & Y5 & Y6). cbn [sig_bare_noexcept sig_ret] in *.
    unfold parse_function_signature. cbv zeta.
    apply (pmap_to _ _ _ _ (None, ((map tmean params, variadic), (c, (r, (option_map (option_map vmean) n, option_map tmean ret)))))); [|reflexivity].
    set (T4 := retT ret ++ Y). set (T3 := noexT n ++ T4). set (T2 := refT r ++ T3). set (T1 := cvT c ++ T2).
    assert (E0 : ('"(" ++ join '", " (map ttext params) ++ (if variadic then '", ..." else []) ++ '")" ++
      (if no_cv c then [] else '" " ++ cv_text c) ++ (match r with RNone => [] | _ => '" " ++ ref_text r end) ++
      opt_text (fun o => '" noexcept" ++ opt_text (fun v => '"(" ++ vtext v ++ '")") o) n ++
      opt_text (fun t => '" -> " ++ ttext t) ret) ++ Y
      = '"(" ++ join '", " (map ttext params) ++ (if variadic then '", ..." else []) ++ '")" ++ T1).
    { subst T1 T2 T3 T4. unfold cvT, refT, noexT, retT. rewrite <- !app_assoc. reflexivity. }
    rewrite E0.
    assert (W4 : word_ends T4) by (subst T4; destruct ret; [now apply ends_char|exact Y1]).
    assert (W3 : word_ends T3) by (subst T3; destruct n; [now apply ends_char|exact W4]).
    assert (W2 : word_ends T2) by (subst T2; destruct r; [exact W3|now apply ends_char|now apply ends_char]).
    assert (S4 : allowed (head (strip T4)) /\ not_first 38%N (strip T4) /\ (not_first 40%N Y -> not_first 40%N T4)).
    { subst T4. rewrite strip_ret. destruct ret as [t|]; [|now split].
      split; [|split; [|intros _]]; try discriminate. cbn [of_string app]. rewrite head_char by reflexivity. apply nil_allowed. }
    assert (S3 : (allowed (head (strip T3)) \/ head (strip T3) = '"noexcept") /\ not_first 38%N (strip T3)).
    { subst T3. rewrite strip_noex. destruct n as [o|]; [|tauto]. split; [right|discriminate].
      apply head_word; [now apply is_word_iff|]. destruct o; [now apply ends_char|exact W4]. }
    assert (S2 : allowed (head (strip T2)) \/ head (strip T2) = '"noexcept").
    { subst T2. rewrite strip_ref. destruct r; [tauto|..]; cbn [ref_text of_string app];
        rewrite head_char by reflexivity; left; apply nil_allowed. }
    eapply pand_ok.
    - apply opt_err_eq, delimited_err1, tag_first. discriminate.
    - eapply pand_ok; [eapply terminated_ok; [apply parameter_set_ok; try assumption; lia|apply ms0]|].
      eapply pand_ok; [subst T1; apply cv_stage; [exact W2|]|].
      + destruct S2 as [S2|S2]; [now apply allowed_list|]. rewrite S2. intros H. apply mem_iff in H. discriminate.
      + eapply pand_ok; [apply ref_stage; tauto|].
        eapply pand_ok; [apply noexcept_stage; [exact Hn|lia|exact W4| |]|].
        * destruct S4 as [S4 _]. intros H. rewrite H in S4. destruct S4 as [S4|[S4|S4]]; [discriminate|discriminate|].
          apply S4. apply mem_iff. reflexivity.
        * intros ->. apply S4. now apply Y5.
        * apply ret_stage; [exact Hr|lia|exact Y4|]. intros H. apply Y6. destruct ret; [reflexivity|congruence].
  Qed.
  Lemma signature_err X : not_first 40%N X -> (forall r, X <> '"[abi:" ++ r) -> parse_function_signature E X = PErr.
  Proof.
    intros H1 H2. unfold parse_function_signature. cbv zeta. apply pmap_err. eapply pand_err2.
    - apply opt_err_eq, delimited_err1, tag_err. exact H2.
    - apply pand_err1, terminated_err1. unfold parse_function_parameter_set. apply preceded_err1. now apply then_ws_err.
  Qed.

  Lemma unqualified_ok i X : idok i = true -> idep i <= k -> after_id X ->
    (is_operator i = true -> X = [] \/ ((exists x, X = 40%N :: x) /\ bare_shift i = false)) ->
    parse_unqualified_id E (idtext i ++ X) = POk X (idmean i).
  Proof.
    intros Hi Hd Hx Ho. unfold parse_unqualified_id. destruct i as [d w tp|op tp|v|u w l|l|m|f m]; cbn [idtext idok idep idmean is_operator] in *.
    - apply andb_true_iff in Hi as [Hw Htp]. destruct d.
      + cbn [of_string app]. rewrite <- app_assoc. cbn [starts tl].
        change (starts "{" (126%N :: w ++ opt_text (fun l => '"<" ++ join '", " (map ptext l) ++ '">") tp ++ X)) with false.
        now apply named_ok.
      + cbn [app]. rewrite <- app_assoc. pose proof (named_ok false w tp X Hw Htp Hd Hx) as Hn.
        remember (opt_text (fun l => '"<" ++ join '", " (map ptext l) ++ '">") tp ++ X) as y eqn:Ey.
        assert (He : word_ends y).
        { subst y. destruct tp; cbn [opt_text of_string app]; [now apply ends_char|apply Hx]. }
        apply name_ok_iff in Hw as [Hw Hr]. assert (Hh : head (w ++ y) = w) by now apply head_word.
        rewrite (starts_not "{"), (starts_not "("), (starts_not "~") by now apply not_first_word. cbn [orb].
        destruct (starts "d" (w ++ y)); [|destruct (starts "o" (w ++ y)); [|exact Hn]].
        * rewrite por_next; [exact Hn|]. unfold parse_decltype. apply pmap_err, delimited_err1, pand_err1.
          apply (head_no_tag '"decltype" 40%N); [now apply is_word_iff|reflexivity|reflexivity|].
          rewrite Hh. intros ->. apply Hr. apply mem_iff. reflexivity.
        * rewrite por_next; [exact Hn|]. apply pmap_err. unfold parse_operator_overload. apply preceded_err1, keyword_head; [now apply is_word_iff|].
          rewrite Hh. intros ->. apply Hr. apply mem_iff. reflexivity.
    - specialize (Ho eq_refl). rewrite <- !app_assoc. apply andb_true_iff in Hi as [Hi Htp].
      assert (HX : X = [] \/ exists x, X = 40%N :: x) by tauto.
      set (Z := opt_text (fun l => '"<" ++ join '", " (map ptext l) ++ '">") tp ++ X).
      change (starts "{" ('"operator" ++ oper_text op ++ Z)) with false.
      change (starts "(" ('"operator" ++ oper_text op ++ Z)) with false.
      change (starts "d" ('"operator" ++ oper_text op ++ Z)) with false.
      change (starts "o" ('"operator" ++ oper_text op ++ Z)) with true. cbn [orb].
      apply por_ok. apply (pmap_to _ _ _ _ (opermean op, option_map (fun l => TPList (map pmean l)) tp)); [|reflexivity].
      apply operator_ok; [exact Hi|exact parameters_err| |exact HX| |]; subst Z.
      + destruct tp as [l|]; cbn [opt_text option_map opt_ok omax] in *.
        * apply andb_true_iff in Htp as [H1 H2]. eapply preceded_ok.
          -- rewrite ms0. cbn [of_string app]. now rewrite strip_char.
          -- apply opt_ok_eq. apply (parameters_ok l X H1 H2 Hd). apply Hx.
        * cbn [app]. eapply preceded_ok; [rewrite ms0; destruct HX as [->|[x ->]]; [reflexivity|now rewrite strip_char]|].
          now destruct HX as [->|[x ->]]; apply opt_err_eq.
      + destruct tp as [l|]; cbn [opt_text of_string app]; [right; eexists; eexists; split; [reflexivity|cbn; tauto]|].
        destruct HX as [->|[x ->]]; [now left|right; eexists; eexists; split; [reflexivity|cbn; tauto]].
      + intros Eo. destruct op as [[] [] []| | | | | | | |]; try discriminate Eo.
        destruct tp as [l|]; [cbn [opt_text of_string app]; eauto|]. destruct Ho as [->|[_ Ho]]; [now left|discriminate Ho].
    - change (starts "{" (('"decltype(" ++ vtext v ++ '")") ++ X)) with false.
      change (starts "(" (('"decltype(" ++ vtext v ++ '")") ++ X)) with false.
      change (starts "d" (('"decltype(" ++ vtext v ++ '")") ++ X)) with true. cbn [orb].
      apply por_ok. unfold parse_decltype. apply pmap_ok. rewrite <- !app_assoc.
      eapply delimited_ok.
      + eapply pand_ok; [apply tag_ok|]. rewrite ms0. rewrite strip_id; [reflexivity|]. apply value_starts; [exact Hi|now apply ends_char].
      + apply HV; [exact Hi|exact Hd|]. left. cbn. eauto.
      + apply (ws_then_ok ")"). reflexivity.
    - rewrite <- !app_assoc.
      match goal with |- context [starts "{" ?s || starts "(" ?s] =>
        replace (starts "{" s || starts "(" s) with true by (now destruct (mark u)) end. cbn iota.
      rewrite !andb_true_iff in Hi. destruct Hi as [[H1 H2] H3].
      apply pmap_ok. unfold parse_anonymous.
      match goal with |- context [starts "(" ?s] => replace (starts "(" s) with true by (now destruct (mark u)) end. cbn iota.
      pose proof (anonymous_ok (mark u) w l X H1 H2 H3) as Ha. pose proof (lambda_no (mark u) w l ('")" ++ X)) as Hl.
      rewrite por_next; [exact Ha|exact Hl].
    - pose proof (lambda_ok l X Hi) as Ha. cbn [of_string app] in Ha. cbn [of_string app]. rewrite <- app_assoc. cbn [of_string app].
      match goal with |- context [starts "{" ?s || starts "(" ?s] =>
        change (starts "{" s || starts "(" s) with true end. cbn iota.
      apply pmap_ok. unfold parse_anonymous.
      match goal with |- context [starts "(" ?s] => change (starts "(" s) with true end. cbn iota.
      apply por_ok. exact Ha.
    - rewrite <- !app_assoc. cbn [of_string app].
      match goal with |- context [starts "{" ?s || starts "(" ?s] => change (starts "{" s || starts "(" s) with true end. cbn iota.
      apply pmap_ok. unfold parse_anonymous.
      match goal with |- context [starts "(" ?s] => change (starts "(" s) with false end. cbn iota.
      rewrite por_next; [|unfold parse_libiberty_lambda; apply pmap_err, pand_err1, preceded_err1, tag_err; discriminate].
      unfold parse_libiberty_unnamed. apply pmap_ok. eapply delimited_ok.
      + exact (tag_ok "{unnamed type#" (show_int m ++ 125%N :: X)).
      + apply parse_u32_ok; [exact Hi|]. now intros c t [= <- _].
      + apply (pchar_eq "}").
    - rewrite !andb_true_iff in Hi. destruct Hi as [[Hf Hr] Hm]. apply negb_true_iff in Hr. rewrite <- !app_assoc. cbn [of_string app].
      match goal with |- context [starts "{" ?s || starts "(" ?s] => change (starts "{" s || starts "(" s) with true end. cbn iota.
      apply pmap_ok. unfold parse_anonymous.
      match goal with |- context [starts "(" ?s] => change (starts "(" s) with false end. cbn iota.
      apply por_ok. unfold parse_libiberty_lambda. apply (pmap_to _ _ _ _ (sigmean f, m)); [|reflexivity]. eapply pand_ok.
      + eapply preceded_ok; [exact (tag_ok "{lambda" (sigtext f ++ 35%N :: show_int m ++ 125%N :: X))|].
        apply signature_ok; [exact Hf|exact Hd|]. split; [now apply ends_char|].
        rewrite strip_char by reflexivity. split; [rewrite head_char by reflexivity; apply nil_allowed|].
        repeat split; try discriminate; congruence.
      + rewrite strip_char by reflexivity. eapply delimited_ok; [apply (pchar_eq "#")| |apply (pchar_eq "}")].
        apply parse_u32_ok; [exact Hm|]. now intros c t [= <- _].
  Qed.

  (** ** Scopes *)
  Lemma scope_tail_after (f : option csig) y : after_id (opt_text sigtext f ++ '"::" ++ y).
  Proof.
    destruct f as [f|]; cbn [opt_text of_string app]; [destruct (sig_first f) as [r ->]; cbn [app]|];
      (apply after_char; [reflexivity|reflexivity|cbn; intuition discriminate]).
  Qed.
  Lemma after_sig_scope f y : sig_ret f = false -> after_sig f ('"::" ++ y).
  Proof.
    intros Hr. assert (Es : strip ('"::" ++ y) = '"::" ++ y) by reflexivity. unfold after_sig. rewrite Es.
    split; [now apply ends_char|]. split; [cbn [of_string app]; rewrite head_char by reflexivity; apply nil_allowed|].
    repeat split; try discriminate; congruence.
  Qed.
  Lemma scope_ok s y : sok s = true -> sdep s <= k ->
    parse_scope_or_unqualified_id E (stext s ++ y) = POk y (inl (smean s)).
  Proof.
    destruct s as [i f]. cbn [sok sdep stext smean]. rewrite !andb_true_iff. intros [[Hi Hf] [Ho Hsh]] Hd.
    unfold parse_scope_or_unqualified_id. rewrite <- !app_assoc.
    rewrite unqualified_ok; [|exact Hi|lia|apply scope_tail_after|].
    2:{ intros Hop. apply negb_true_iff in Hsh. right. split; [|exact Hsh]. destruct f as [f|]; [|rewrite Hop in Ho; discriminate]. cbn [opt_text]. destruct (sig_first f) as [r ->]. cbn [app]. eauto. }
    cbn [pbind].
    assert (Et : terminated (opt (parse_function_signature E)) ignored_qualifiers (opt_text sigtext f ++ '"::" ++ y)
      = POk y (option_map sigmean f)).
    { destruct f as [f|]; cbn [opt_text option_map opt_ok omax] in *.
      - apply andb_true_iff in Hf as [Hf Hr]. apply negb_true_iff in Hr.
        eapply terminated_ok; [apply opt_ok_eq; apply signature_ok; [exact Hf|lia|now apply after_sig_scope]|].
        change (strip ('"::" ++ y)) with ('"::" ++ y). apply ignored_scope.
      - eapply terminated_ok; [apply opt_err_eq, signature_err; discriminate|apply ignored_scope]. }
    rewrite Et. reflexivity.
  Qed.
  Lemma proto_scopes ss : forallb sok ss = true -> lmax sdep ss <= k -> forall n rooted acc y,
    proto_loop E (List.length ss + n) rooted acc (pathT ss ++ y) = proto_loop E n rooted (acc ++ map smean ss) y.
  Proof.
    induction ss as [|s ss IH]; intros Hs Hd n rooted acc y; [cbn; now rewrite app_nil_r|].
    cbn [forallb] in Hs. apply andb_true_iff in Hs as [Hs Hss]. cbn [lmax fold_right] in Hd.
    assert (Hd' : lmax sdep ss <= k) by (unfold lmax; lia).
    cbn [List.length Nat.add proto_loop]. unfold pathT. cbn [map concat]. rewrite <- app_assoc.
    rewrite scope_ok by (assumption || lia). fold (pathT ss). rewrite IH by assumption. cbn [map]. now rewrite <- app_assoc.
  Qed.
  Lemma scope_length s : 2 <= List.length (stext s).
  Proof. destruct s as [i f]. cbn [stext]. rewrite !app_length. cbn [of_string List.length]. lia. Qed.
  Lemma path_length ss : List.length ss <= List.length (pathT ss).
  Proof.
    induction ss as [|s ss IH]; [cbn; lia|]. unfold pathT in *. cbn [map concat List.length]. rewrite app_length.
    pose proof (scope_length s). lia.
  Qed.
  Definition lone (X : str) : Prop := terminated (opt (parse_function_signature E)) ignored_qualifiers X = PErr.
  Lemma proto_id ss i X rooted : forallb sok ss = true -> fewer ss 8 = true -> lmax sdep ss <= k ->
    idok i = true -> idep i <= k -> after_id X ->
    (is_operator i = true -> X = [] \/ ((exists x, X = 40%N :: x) /\ bare_shift i = false)) -> lone X ->
    exists b, proto_loop E (S (List.length (pathT ss ++ idtext i ++ X))) rooted [] (pathT ss ++ idtext i ++ X)
    = POk X (Nested rooted (map smean ss), Some (b, idmean i)).
  Proof.
    intros H1 H2 H3 H4 H5 H6 H7 H8. pose proof (path_length ss) as L.
    replace (S (List.length (pathT ss ++ idtext i ++ X)))
      with (List.length ss + S (List.length (pathT ss ++ idtext i ++ X) - List.length ss))
      by (rewrite !app_length; lia).
    rewrite proto_scopes by assumption. cbn [app proto_loop]. unfold parse_scope_or_unqualified_id.
    rewrite unqualified_ok by assumption. cbn [pbind]. unfold lone in H8. rewrite H8.
    unfold make_output. rewrite map_length. unfold fewer in H2. rewrite H2. eauto.
  Qed.
  Lemma proto_path ss z : forallb sok ss = true -> fewer ss 8 = true -> lmax sdep ss <= k -> ss <> [] ->
    parse_proto_id_expression E (pathT ss ++ 42%N :: z) = POk (42%N :: z) (Nested false (map smean ss), None).
  Proof.
    intros H1 H2 H3 H4. unfold parse_proto_id_expression.
    assert (Es : strip_tag '"::" (pathT ss ++ 42%N :: z) = None).
    { destruct (strip_tag _ _) as [r|] eqn:Es; [|reflexivity]. apply strip_tag_spec in Es.
      destruct (path_starts ss (42%N :: z) H1 H4) as [_ H]. now elim (H (58%N :: r)). }
    rewrite Es. pose proof (path_length ss) as L.
    replace (S (List.length (pathT ss ++ 42%N :: z)))
      with (List.length ss + S (List.length (pathT ss ++ 42%N :: z) - List.length ss))
      by (rewrite !app_length; cbn [List.length]; lia).
    rewrite proto_scopes by assumption. cbn [app proto_loop]. unfold parse_scope_or_unqualified_id.
    rewrite id_bad by (left; split; [reflexivity|split; [reflexivity|cbn; intuition discriminate]]). cbn [pbind].
    unfold make_output. rewrite map_length. unfold fewer in H2. now rewrite H2.
  Qed.

  (** ** Names *)
  Lemma id_expression_ok n X : nok n = true -> ndep n <= k -> after_id X -> lone X ->
    (match n with CName _ _ i => is_operator i = true -> X = [] \/ ((exists x, X = 40%N :: x) /\ bare_shift i = false) end) ->
    parse_id_expression E (ntext n ++ X) = POk X (nmean n).
  Proof.
    destruct n as [rooted ss i]. cbn [nok ndep ntext nmean]. rewrite !andb_true_iff. intros [[H1 H2] H3] Hd Ha Hl Ho.
    rewrite <- !app_assoc. fold (pathT ss). unfold parse_id_expression, parse_proto_id_expression.
    destruct (proto_id ss i X rooted) as [b Hp]; try assumption; try lia.
    assert (Es : strip_tag '"::" ((if rooted then '"::" else []) ++ pathT ss ++ idtext i ++ X)
       = if rooted then Some (pathT ss ++ idtext i ++ X) else None).
    { destruct rooted; [now apply strip_tag_spec|]. cbn [app].
      destruct (strip_tag _ _) as [r|] eqn:Es; [|reflexivity]. apply strip_tag_spec in Es.
      assert (H : not_first 58%N (pathT ss ++ idtext i ++ X)).
      { destruct ss as [|s ss]; [now apply id_starts; [|apply Ha]|]. now apply path_starts. }
      now elim (H (58%N :: r)). }
    unfold map_opt. rewrite Es. destruct rooted; cbn [app]; rewrite Hp; reflexivity.
  Qed.
  Lemma id_auto i x r : idok i = true -> word_ends x -> idtext i ++ x = '"auto:" ++ r -> x = 58%N :: r.
  Proof.
    intros Hi Hx He. destruct i as [d w tp|op tp|v|u w l|l|m|f m]; cbn [idtext idok] in *; try discriminate He;
      [|destruct (mark u); discriminate He].
    destruct d; [discriminate He|]. cbn [app] in He. rewrite <- app_assoc in He.
    apply andb_true_iff in Hi as [Hw _]. apply name_ok_iff in Hw as [Hw _].
    change ('"auto:" ++ r) with ('"auto" ++ 58%N :: r) in He.
    assert (Ew : w = '"auto").
    { rewrite <- (head_word w (opt_text (fun l => '"<" ++ join '", " (map ptext l) ++ '">") tp ++ x)); [|exact Hw|].
      - rewrite He. apply head_word; [now apply is_word_iff|now apply ends_char].
      - destruct tp; cbn [opt_text of_string app]; [now apply ends_char|exact Hx]. }
    subst w. apply app_inv_head in He. destruct tp; [discriminate He|exact He].
  Qed.
  Lemma path_auto ss z r : forallb sok ss = true -> ss <> [] -> pathT ss ++ z = '"auto:" ++ r -> exists r', r = 58%N :: r'.
  Proof.
    destruct ss as [|[i f] ss]; [congruence|]. cbn [forallb]. rewrite andb_true_iff. intros [H _] _ He.
    cbn [sok] in H. rewrite !andb_true_iff in H. destruct H as [[Hi _] _].
    unfold pathT in He. cbn [map concat stext] in He. rewrite <- !app_assoc in He.
    apply id_auto in He; [|exact Hi|apply scope_tail_ends].
    destruct f as [f|]; cbn [opt_text] in He; [destruct (sig_first f) as [r' Er]; rewrite Er in He; discriminate He|].
    cbn [of_string app] in He. injection He as <-. eauto.
  Qed.
  Lemma name_auto n X r : nok n = true -> word_ends X -> not_first 58%N X -> ntext n ++ X = '"auto:" ++ r -> exists r', r = 58%N :: r'.
  Proof.
    destruct n as [rooted ss i]. cbn [nok ntext]. rewrite !andb_true_iff. intros [[H1 _] H3] Hx Hc He.
    destruct rooted; [discriminate He|]. cbn [app] in He. rewrite <- app_assoc in He. destruct ss as [|s ss].
    - cbn [map concat app] in He. apply id_auto in He; [|exact H3|exact Hx]. now elim (Hc r).
    - eapply path_auto; [exact H1|discriminate|exact He].
  Qed.

  (** ** After a name, declarators *)
  Lemma after_sig_ops f lay ops rest : forallb opok ops = true -> all_apart (CFun f lay :: ops) = true -> stops rest -> no_ge rest ->
    after_sig f (opsT ops ++ rest).
  Proof.
    intros Ho Ha Hs Hg. pose proof (follow_next ops rest Ho (apart_tl _ _ Ha) Hs) as Hn. pose proof (apart_loose _ _ Ha) as Hl.
    assert (A : starts_cv ops = false /\ starts_ref ops = false /\ (sig_bare_noexcept f = true -> starts_fun ops = false)
       /\ (sig_ret f = true -> ops = [])).
    { destruct ops as [|o ops]; [now repeat split|]. cbn [all_apart] in Ha. rewrite !andb_true_iff in Ha. destruct Ha as [[Ha _] _].
      destruct o; cbn [apart] in Ha; try discriminate Ha; cbn [starts_cv starts_ref starts_fun].
      - split; [reflexivity|split; [reflexivity|split; intros H; [reflexivity|]]]. rewrite H in Ha. discriminate.
      - split; [reflexivity|split; [reflexivity|split; intros H; [reflexivity|]]]. rewrite H in Ha. discriminate.
      - apply andb_true_iff in Ha as [A1 A2]. split; [reflexivity|split; [reflexivity|split; intros H]].
        + rewrite H in A2. discriminate.
        + rewrite H in A1. discriminate.
      - split; [reflexivity|split; [reflexivity|split; intros H; [reflexivity|]]]. rewrite H in Ha. discriminate. }
    destruct A as (A1 & A2 & A3 & A4). split; [now apply follow_ends|]. split; [now apply (next_head rest ops)|].
    destruct (next_not rest ops _ Hs Hn) as (_ & N2 & _ & N4). split; [now apply N4|]. split; [intros r Er; now apply (N2 (62%N :: r))|]. split.
    - intros H. apply follow_no_paren; [exact Hl|exact Hs|now apply A3].
    - intros H. rewrite (A4 H). now split.
  Qed.
  Lemma no_abi ops rest : forallb opok ops = true -> first_loose ops = true -> stops rest -> forall r, opsT ops ++ rest <> '"[abi:" ++ r.
  Proof.
    intros Ho Hl Hs r He. destruct ops as [|o ops].
    - assert (H : not_first 91%N rest) by (apply stops_not_first; [exact Hs|cbn; intuition discriminate]). now elim (H ('"abi:" ++ r)).
    - rewrite opsT_cons in He. cbn [forallb] in Ho. apply andb_true_iff in Ho as [Ho _].
      cbn [first_loose firstn forallb] in Hl. rewrite andb_true_r in Hl.
      destruct o as [c|[|s ss] c r' l|b l|v l|f l|o']; try discriminate He.
      + cbn [optext] in He. destruct (mark (l_before l)); discriminate He.
      + cbn [optext] in He. rewrite (loose_mark _ _ _ _ _ Hl) in He. discriminate He.
      + cbn [optext] in He. destruct b, (mark (l_before l)); discriminate He.
      + cbn [optext] in He. destruct (mark (l_before l)); [discriminate He|]. cbn [space app] in He. destruct v as [v|]; [|discriminate He]. cbn [opt_text opok opt_ok] in *. rewrite <- !app_assoc in He.
        cbn [of_string app] in He. injection He as He.
        apply (value_no_paren_word v (93%N :: opsT ops ++ rest)); [exact Ho|now apply ends_char|].
        replace (vtext v ++ 93%N :: opsT ops ++ rest) with ('"abi" ++ 58%N :: r) by (symmetry; exact He).
        rewrite head_word; [cbn; tauto|now apply is_word_iff|now apply ends_char].
      + cbn [optext] in He. destruct (sig_first f) as [z Ez]. rewrite Ez in He. destruct (mark (l_before l)); discriminate He.
  Qed.
  Lemma lone_ok ops rest : forallb opok ops = true -> all_apart ops = true -> first_loose ops = true ->
    lmax opdep ops <= k -> stops rest -> no_ge rest -> lone (opsT ops ++ rest).
  Proof.
    intros Ho Ha Hl Hd Hs Hg. unfold lone.
    assert (T : not_first 40%N (opsT ops ++ rest) ->
      terminated (opt (parse_function_signature E)) ignored_qualifiers (opsT ops ++ rest) = PErr).
    { intros Hp. eapply terminated_err2; [apply opt_err_eq, signature_err; [exact Hp|now apply no_abi]|].
      apply (ignored_err rest ops); [exact Hs|exact Ho|exact Ha|reflexivity|now apply follow_not_colon]. }
    destruct (starts_fun ops) eqn:Ef; [|now apply T, follow_no_paren].
    destruct ops as [|o ops]; [discriminate|]. destruct o as [| | | |f l|]; try discriminate Ef.
    destruct (mark (l_before l)) eqn:El.
    - apply T. rewrite opsT_cons. cbn [optext]. rewrite El. discriminate.
    - rewrite opsT_cons. cbn [optext]. rewrite El. cbn [space app]. cbn [forallb] in Ho. apply andb_true_iff in Ho as [Hf Ho].
      cbn [opok] in Hf. cbn [lmax fold_right opdep] in Hd. pose proof (apart_tl _ _ Ha) as Ha'.
      eapply terminated_err2; [apply opt_ok_eq; apply signature_ok; [exact Hf|lia|now apply (after_sig_ops f l)]|].
      apply (ignored_err rest ops); [exact Hs|exact Ho|exact Ha'|apply strip_strip|].
      apply (next_not rest ops); [exact Hs|now apply follow_next].
  Qed.

  (** ** Declarators *)
  Hypothesis HD : forall ops rest, forallb opok ops = true -> all_apart ops = true -> fewer ops 8 = true ->
    S (lmax opdep ops) <= k -> stops rest -> no_ge rest -> r_decl E (strip (opsT ops ++ rest)) = POk rest (map opmean ops).
  Hypothesis HX : forall ops rest, forallb opok ops = true -> all_apart ops = true ->
    S (lmax opdep ops) <= k -> stops rest -> no_ge rest -> r_type E (strip (opsT ops ++ rest)) = PErr.

  Definition obody (o : cop) : str :=
    match o with
    | CCv c => cv_text c
    | CPtr path c r l => pathT path ++ '"*" ++ quals_text c r l
    | CRef b _ => if b then '"&&" else '"&"
    | CArr v _ => '"[" ++ opt_text vtext v ++ '"]"
    | CFun f _ => sigtext f
    | CParen ops => '"(" ++ opsT ops ++ '")"
    end.
  Lemma op_strip o Z : opok o = true -> word_ends Z -> strip (optext o ++ Z) = obody o ++ Z.
  Proof.
    intros Ho HZ. destruct o as [c|[|s ss] c r l|b l|v l|f l|o']; cbn [optext obody].
    - cbn [opok] in Ho. apply negb_true_iff in Ho. change (('" " ++ cv_text c) ++ Z) with (32%N :: cv_text c ++ Z).
      rewrite strip_space. apply strip_id. now apply cv_head.
    - rewrite <- app_assoc, strip_spaced. cbn [pathT map concat of_string app]. now rewrite strip_char by reflexivity.
    - cbn [opok] in Ho. rewrite !andb_true_iff in Ho. destruct Ho as [[Ho _] _].
      rewrite <- !app_assoc. rewrite strip_spaced. fold (pathT (s :: ss)). apply strip_id. now apply path_starts.
    - rewrite <- app_assoc, strip_spaced. destruct b; reflexivity.
    - rewrite <- app_assoc, strip_spaced. reflexivity.
    - rewrite <- app_assoc, strip_spaced. destruct (sig_first f) as [r ->]. reflexivity.
    - change (('" (" ++ concat (map optext o') ++ '")") ++ Z) with (32%N :: ('"(" ++ opsT o' ++ '")") ++ Z).
      rewrite strip_space. reflexivity.
  Qed.
  Lemma obody_length o : opok o = true -> 1 <= List.length (obody o).
  Proof.
    intros Ho. destruct o as [c|p c r l|b l|v l|f l|o']; cbn [obody].
    - destruct c as [[] []]; cbn in *; try discriminate; lia.
    - rewrite !app_length. cbn [of_string List.length]. lia.
    - destruct b; cbn; lia.
    - rewrite !app_length. cbn [of_string List.length]. lia.
    - destruct (sig_first f) as [r ->]. cbn. lia.
    - rewrite !app_length. cbn [of_string List.length]. lia.
  Qed.
  Lemma ops_strip o ops rest : opok o = true -> first_loose ops = true -> stops rest ->
    strip (opsT (o :: ops) ++ rest) = obody o ++ opsT ops ++ rest.
  Proof. intros Ho Hl Hs. rewrite opsT_cons. apply op_strip; [exact Ho|now apply follow_ends]. Qed.

  Definition rword (b : bool) : str := if b then '"__restrict" else '"restrict".
  Lemma rword_word b : word (rword b).
  Proof. apply is_word_iff. now destruct b. Qed.
  Lemma restrict_none Z : allowed (head Z) -> ~ In (head Z) ['"__restrict"; '"__restrict__"; '"restrict"] ->
    pmap is_some (opt (terminated (keywords_parser [("__restrict"%string, tt); ("__restrict__"%string, tt);
      ("restrict"%string, tt)]) multispace0)) Z = POk Z false.
  Proof.
    intros Ha Hn. apply (pmap_to _ _ _ _ None); [|reflexivity]. apply opt_err_eq, terminated_err1, keywords_head; [reflexivity|exact Hn].
  Qed.
  Lemma restrict_some b Z : word_ends Z ->
    pmap is_some (opt (terminated (keywords_parser [("__restrict"%string, tt); ("__restrict__"%string, tt);
      ("restrict"%string, tt)]) multispace0)) (rword b ++ Z) = POk (strip Z) true.
  Proof.
    intros HZ. apply (pmap_to _ _ _ _ (Some tt)); [|reflexivity]. apply opt_ok_eq. eapply terminated_ok; [|apply ms0].
    assert (Hh : head (rword b ++ Z) = rword b) by (apply head_word; [apply rword_word|exact HZ]).
    cbn [keywords_parser]. destruct b; cbn [rword] in *.
    - apply por_ok. eapply pvalue_ok. now apply keyword_ok.
    - rewrite por_next by (apply pvalue_err, keyword_head; [now apply is_word_iff|rewrite Hh; discriminate]).
      rewrite por_next by (apply pvalue_err, keyword_head; [now apply is_word_iff|rewrite Hh; discriminate]).
      apply por_ok. eapply pvalue_ok. now apply keyword_ok.
  Qed.
  Lemma rword_strip b Z : strip (rword b ++ Z) = rword b ++ Z.
  Proof. apply word_strip, rword_word. Qed.
  Lemma rword_no_cv b Z : word_ends Z -> ~ In (head (rword b ++ Z)) cvw.
  Proof. intros HZ. rewrite head_word; [|apply rword_word|exact HZ]. intros H. apply mem_iff in H. destruct b; discriminate. Qed.
  Lemma cv_restrict_ok c r l Z : word_ends Z -> allowed (head (strip Z)) ->
    cv_restrict (strip (quals_text c r l ++ Z)) = POk (strip Z) (c, r).
  Proof.
    intros HZ Ha. unfold cv_restrict.
    assert (Hcv : ~ In (head (strip Z)) cvw) by now apply allowed_list.
    assert (Hre : ~ In (head (strip Z)) ['"__restrict"; '"__restrict__"; '"restrict"]) by now apply allowed_list.
    assert (N : cv_default = mk_cv false false) by reflexivity.
    destruct (no_cv c) eqn:Ec, r.
    - apply (pmap_to _ _ _ _ (cv_default, (true, cv_default))); [|apply no_cv_eq in Ec; now subst c].
      unfold quals_text. rewrite Ec. fold (rword (mark (l_under l))).
      replace (if mark (l_late l) then _ else _) with [rword (mark (l_under l))] by (now destruct (mark (l_late l))).
      cbn [join]. rewrite <- app_assoc, strip_spaced, rword_strip.
      eapply pand_ok; [eapply terminated_ok; [apply cv_none; now apply rword_no_cv|rewrite ms0, rword_strip; reflexivity]|].
      eapply pand_ok; [now apply restrict_some|]. now apply cv_none.
    - apply (pmap_to _ _ _ _ (cv_default, (false, cv_default))); [|apply no_cv_eq in Ec; now subst c].
      unfold quals_text. rewrite Ec. replace (if mark (l_late l) then _ else _) with (@nil str) by (now destruct (mark (l_late l))).
      cbn [app]. eapply pand_ok; [eapply terminated_ok; [now apply cv_none|rewrite ms0, strip_strip; reflexivity]|].
      eapply pand_ok; [now apply restrict_none|]. now apply cv_none.
    - unfold quals_text. rewrite Ec. fold (rword (mark (l_under l))). destruct (mark (l_late l)).
      + apply (pmap_to _ _ _ _ (cv_default, (true, c))); [|destruct c as [[] []]; reflexivity].
        cbn [app join]. rewrite <- !app_assoc, strip_spaced, rword_strip.
        change ('" " ++ cv_text c ++ Z) with (32%N :: cv_text c ++ Z).
        assert (He : word_ends (32%N :: cv_text c ++ Z)) by now apply ends_char.
        eapply pand_ok; [eapply terminated_ok; [apply cv_none; now apply rword_no_cv|rewrite ms0, rword_strip; reflexivity]|].
        eapply pand_ok; [now apply restrict_some|]. rewrite strip_space, strip_id by now apply cv_head. now apply cv_ok.
      + apply (pmap_to _ _ _ _ (c, (true, cv_default))); [|destruct c as [[] []]; reflexivity].
        cbn [app join]. rewrite <- !app_assoc, strip_spaced.
        change ('" " ++ rword (mark (l_under l)) ++ Z) with (32%N :: rword (mark (l_under l)) ++ Z).
        assert (He : word_ends (32%N :: rword (mark (l_under l)) ++ Z)) by now apply ends_char.
        rewrite strip_id by now apply cv_head.
        eapply pand_ok; [eapply terminated_ok; [apply cv_ok; [exact Ec|exact He|]|]|].
        * rewrite strip_space, rword_strip. now apply rword_no_cv.
        * rewrite ms0, strip_strip, strip_space, rword_strip. reflexivity.
        * eapply pand_ok; [now apply restrict_some|]. now apply cv_none.
    - apply (pmap_to _ _ _ _ (c, (false, cv_default))); [|destruct c as [[] []]; reflexivity].
      unfold quals_text. rewrite Ec. replace (if mark (l_late l) then _ else _) with [cv_text c] by (now destruct (mark (l_late l))).
      cbn [join]. rewrite <- app_assoc, strip_spaced, strip_id by now apply cv_head.
      eapply pand_ok; [eapply terminated_ok; [now apply cv_ok|rewrite ms0, strip_strip; reflexivity]|].
      eapply pand_ok; [now apply restrict_none|]. now apply cv_none.
  Qed.

  Definition member_pointer : parser decl_operator :=
    pmap (fun x => DPointer (fst x) (fst (snd x)) (snd (snd x)))
           (separated_pair (terminated (parse_nested_name_specifier E) (pchar "*")) multispace0
                           cv_restrict).
  Lemma decl_member s : not_first 38%N s -> not_first 42%N s -> not_first 40%N s -> not_first 91%N s ->
    ~ In (head s) cvw -> head s <> '"__vector" -> parse_decl_operator E s = member_pointer s.
  Proof.
    intros H1 H2 H3 H4 H5 H6. unfold parse_decl_operator. cbv zeta. fold member_pointer.
    rewrite (starts_not "&"), (starts_not "*"), (starts_not "("), (starts_not "[") by assumption.
    assert (C : pmap DCv (verify parse_cv (fun c => negb (cv_is_default c))) s = PErr).
    { apply pmap_err. eapply verify_no; [now apply cv_none|reflexivity]. }
    destruct (starts "_" s); [|destruct (starts "c" s); [|destruct (starts "v" s); [|reflexivity]]];
      (rewrite por_next; [reflexivity|]); [|exact C|exact C].
    apply pmap_err, delimited_err1. apply (head_no_tag '"__vector" 40%N); [now apply is_word_iff|reflexivity|reflexivity|exact H6].
  Qed.
  Lemma decl_bad rest : bad_type rest -> not_first 38%N rest -> not_first 42%N rest -> not_first 40%N rest -> not_first 91%N rest ->
    parse_decl_operator E rest = PErr.
  Proof.
    intros Hb H1 H2 H3 H4. pose proof (bad_head _ Hb) as Hh. rewrite decl_member; try assumption.
    - unfold member_pointer. apply pmap_err. unfold separated_pair. apply pand_err1. eapply terminated_err2.
      + unfold parse_nested_name_specifier. rewrite proto_bad by exact Hb. reflexivity.
      + now apply pchar_first.
    - rewrite Hh. cbn. intuition discriminate.
    - rewrite Hh. discriminate.
  Qed.
  Lemma decl_end rest : stops rest -> parse_decl_operator E rest = PErr.
  Proof.
    intros Hs. assert (K : forall c, ~ In c '",>)]" -> not_first c rest) by (intros c Hc; now apply stops_not_first).
    apply decl_bad; try (apply K; cbn; intuition discriminate). now apply stops_bad.
  Qed.
  Lemma next_not_end ops rest z : next rest ops z -> ops <> [] -> not_first 41%N z /\ not_first 46%N z.
  Proof.
    intros [H|c o Hc|b l o|c r l o z'|p c r l o z' Hp Hs|v l o z'|f l o z'|o' o z'] Hn; try (split; discriminate).
    - congruence.
    - destruct c as [[] []]; try discriminate Hc; split; discriminate.
    - destruct b; split; discriminate.
    - destruct (path_first p z' Hs Hp) as (x & y & -> & H). split; intros r' [= -> _];
        (destruct H as [H|[H|[H|H]]]; discriminate H).
  Qed.

  Lemma decl_op_ok o ops rest : opok o = true -> forallb opok ops = true -> all_apart (o :: ops) = true -> opdep o <= k ->
    stops rest -> no_ge rest ->
    exists Y, parse_decl_operator E (obody o ++ opsT ops ++ rest) = POk Y (opmean o) /\ strip Y = strip (opsT ops ++ rest).
  Proof.
    intros Ho Hops Ha Hd Hs Hg. pose proof (apart_loose _ _ Ha) as Hl. pose proof (apart_tl _ _ Ha) as Ha'.
    pose proof (follow_next ops rest Hops Ha' Hs) as Hn.
    pose proof (follow_ends ops rest Hl Hs) as He. destruct o as [c|p c r l|b l|v l|f l|o']; cbn [obody opmean opdep opok] in *.
    - apply negb_true_iff in Ho. exists (strip (opsT ops ++ rest)). split; [|apply strip_strip].
      assert (H : pmap DCv (verify parse_cv (fun c => negb (cv_is_default c))) (cv_text c ++ opsT ops ++ rest) = POk (strip (opsT ops ++ rest)) (DCv c)).
      { apply pmap_ok, verify_ok; [|now rewrite <- no_cv_default, Ho].
        apply cv_ok; [exact Ho|exact He|]. apply allowed_list; [|reflexivity]. apply (next_head rest ops); [exact Hn|exact (apart_cv c ops Ha)]. }
      unfold parse_decl_operator. cbv zeta. destruct c as [[] []]; try discriminate Ho; cbn [cv_text] in *.
      + match goal with |- context [starts "&" ?s] => change (starts "&" s) with false; change (starts "*" s) with false;
          change (starts "(" s) with false; change (starts "[" s) with false; change (starts "_" s) with false; change (starts "c" s) with true end.
        cbn iota. now apply por_ok.
      + match goal with |- context [starts "&" ?s] => change (starts "&" s) with false; change (starts "*" s) with false;
          change (starts "(" s) with false; change (starts "[" s) with false; change (starts "_" s) with false; change (starts "c" s) with true end.
        cbn iota. now apply por_ok.
      + match goal with |- context [starts "&" ?s] => change (starts "&" s) with false; change (starts "*" s) with false;
          change (starts "(" s) with false; change (starts "[" s) with false; change (starts "_" s) with false; change (starts "c" s) with false; change (starts "v" s) with true end.
        cbn iota. now apply por_ok.
    - exists (strip (opsT ops ++ rest)). split; [|apply strip_strip].
      assert (Hc : starts_cv ops = false) by (destruct ops as [|[] ops]; [reflexivity|discriminate Ha|reflexivity..]).
      assert (Hall : allowed (head (strip (opsT ops ++ rest)))) by (now apply (next_head rest ops)).
      pose proof (cv_restrict_ok c r l (opsT ops ++ rest) He Hall) as Hcr. rewrite <- !app_assoc.
      destruct p as [|s p].
      + cbn [pathT map concat app of_string]. unfold parse_decl_operator. cbv zeta.
        match goal with |- context [starts "&" ?s] => change (starts "&" s) with false; change (starts "*" s) with true end. cbn iota.
        apply (pmap_to _ _ _ _ (c, r)); [|reflexivity]. eapply preceded_ok; [apply (then_ws_ok "*")|exact Hcr].
      + rewrite !andb_true_iff in Ho. destruct Ho as [[Ho Hfw] Hsp].
        assert (Hp : s :: p <> []) by discriminate.
        pose proof (path_starts (s :: p) ('"*" ++ quals_text c r l ++ opsT ops ++ rest) Ho Hp) as [(P1 & P2 & P3 & P4 & P5 & _) _].
        assert (F : exists c0 r0, pathT (s :: p) ++ '"*" ++ quals_text c r l ++ opsT ops ++ rest = c0 :: r0 /\
            (is_id_start c0 = true \/ c0 = 126%N)).
        { destruct s as [i f]. unfold pathT. cbn [map concat stext]. rewrite <- !app_assoc.
          destruct i as [d w tp|op|v|u w l0|l0|m0|f0 m0]; try discriminate Hsp; cbn [idtext]; [|eexists _, _; split; [reflexivity|now left]].
          cbn [forallb sok idok] in Ho. rewrite !andb_true_iff in Ho. destruct Ho as [[[[Hw _] _] _] _].
          apply name_ok_iff in Hw as [(x & y & -> & Hx & _) _]. apply id_start_iff in Hx.
          destruct d; eexists _, _; (split; [reflexivity|tauto]). }
        assert (K : forall x, In x '"&*([" -> not_first x (pathT (s :: p) ++ '"*" ++ quals_text c r l ++ opsT ops ++ rest)).
        { destruct F as (c0 & r0 & -> & H). intros x Hx r' [= -> _]. cbn in Hx.
          repeat (destruct Hx as [<-|Hx]; [destruct H; discriminate|]). destruct Hx. }
        rewrite decl_member; try (apply K; cbn; tauto); [|now apply allowed_list|].
        * unfold member_pointer. apply (pmap_to _ _ _ _ (Nested false (map smean (s :: p)), (c, r))); [|reflexivity].
          eapply separated_pair_ok; [|apply ms0|exact Hcr].
          eapply terminated_ok; [|apply (pchar_eq "*")]. unfold parse_nested_name_specifier. cbn [of_string app].
          rewrite proto_path by assumption. reflexivity.
        * intros H. rewrite H in P1. destruct P1 as [P1|[P1|P1]]; [discriminate|discriminate|]. apply P1. apply mem_iff. reflexivity.
    - exists (opsT ops ++ rest). split; [|reflexivity]. unfold parse_decl_operator. cbv zeta.
      assert (Hr : parse_reference ((if b then '"&&" else '"&") ++ opsT ops ++ rest) = POk (opsT ops ++ rest) (if b then RRValue else RLValue)).
      { assert (H : not_first 38%N (opsT ops ++ rest)) by (apply follow_not_amp; [exact Hl|exact Hs|exact (apart_ref b l ops Ha)]).
        destruct b; [exact (reference_text RRValue _ H)|exact (reference_text RLValue _ H)]. }
      match goal with |- context [starts "&" ?s] => replace (starts "&" s) with true by (now destruct b) end. cbn iota.
      now apply pmap_ok.
    - exists (opsT ops ++ rest). split; [|reflexivity]. unfold parse_decl_operator. cbv zeta.
      assert (Hf : parse_function_signature E (('"[" ++ opt_text vtext v ++ '"]") ++ opsT ops ++ rest) = PErr).
      { apply signature_err; [discriminate|]. intros r.
        assert (Et : ('"[" ++ opt_text vtext v ++ '"]") = optext (CArr v (mk_layout false false false false false)))
          by (cbn [optext l_before]; now rewrite mark_false).
        rewrite Et, <- opsT_cons. apply no_abi; [cbn [forallb opok]; now rewrite Ho|reflexivity|exact Hs]. }
      match goal with |- context [starts "&" ?s] => change (starts "&" s) with false; change (starts "*" s) with false;
          change (starts "(" s) with false; change (starts "[" s) with true end. cbn iota.
      rewrite por_next by (apply pmap_err; exact Hf). rewrite <- !app_assoc. apply pmap_ok.
      destruct v as [v|]; cbn [opt_text option_map opt_ok omax] in *.
      + eapply delimited_ok.
        * cbn [of_string app]. rewrite (then_ws_ok "["). rewrite strip_id by (apply value_starts; [exact Ho|now apply ends_char]). reflexivity.
        * apply opt_ok_eq. apply HV; [exact Ho|exact Hd|]. right. left. eauto.
        * apply (ws_then_ok "]"). reflexivity.
      + eapply delimited_ok; [apply (then_ws_ok "[")| |].
        * change (strip ([] ++ '"]" ++ opsT ops ++ rest)) with (93%N :: opsT ops ++ rest). apply opt_err_eq, HW, stops_no_value. apply stops_char. cbn. tauto.
        * apply (ws_then_ok "]"). reflexivity.
    - exists (strip (opsT ops ++ rest)). split; [|apply strip_strip]. unfold parse_decl_operator. cbv zeta.
      assert (S1 : forall c, c <> "("%char -> starts c (sigtext f ++ opsT ops ++ rest) = false).
      { intros c Hc. destruct (sig_first f) as [r ->]. apply starts_not. intros r' [= E' _]. apply Hc.
        change 40%N with (N_of_ascii "(") in E'. rewrite <- (ascii_N_embedding c), <- E'. reflexivity. }
      assert (S2 : starts "(" (sigtext f ++ opsT ops ++ rest) = true) by (destruct (sig_first f) as [r ->]; reflexivity).
      rewrite (S1 "&"%char), (S1 "*"%char), S2 by discriminate. apply por_ok. apply pmap_ok. apply signature_ok; [exact Ho|exact Hd|].
      now apply (after_sig_ops f l).
    - rewrite !andb_true_iff in Ho. destruct Ho as [[[H1 H2] H3] H4]. exists (opsT ops ++ rest). split; [|reflexivity].
      unfold parse_decl_operator. cbv zeta.
      match goal with |- context [starts "&" ?s] => change (starts "&" s) with false; change (starts "*" s) with false;
          change (starts "(" s) with true end. cbn iota. rewrite <- !app_assoc.
      assert (Hst : stops ('")" ++ opsT ops ++ rest)) by (apply stops_char; cbn; tauto).
      assert (Hge : no_ge ('")" ++ opsT ops ++ rest)) by now apply no_ge_char.
      assert (Hne : o' <> []) by (intros ->; discriminate).
      pose proof (follow_next o' _ H1 H2 Hst) as Hn'. destruct (next_not_end o' _ _ Hn' Hne) as [N1 N2].
      rewrite por_next.
      + apply por_ok. apply pmap_ok. eapply delimited_ok; [apply (then_ws_ok "(")| |].
        * apply verify_ok; [now apply HD|]. destruct o'; [congruence|reflexivity].
        * apply (ws_then_ok ")"). reflexivity.
      + apply pmap_err. unfold parse_function_signature. cbv zeta. apply pmap_err. eapply pand_err2.
        * apply opt_err_eq, delimited_err1, tag_first. discriminate.
        * apply pand_err1, terminated_err1. unfold parse_function_parameter_set. eapply preceded_err2; [apply (then_ws_ok "(")|].
          rewrite por_next; [apply pvalue_err, pchar_first; exact N1|].
          rewrite map_opt_err; [reflexivity|]. apply sep_err. rewrite por_next; [apply pvalue_err, tag_first; exact N2|].
          apply pmap_err. now apply HX.
  Qed.
  Lemma declarator_ok ops rest : forallb opok ops = true -> all_apart ops = true -> fewer ops 8 = true -> lmax opdep ops <= k ->
    stops rest -> no_ge rest -> parse_declarator E (strip (opsT ops ++ rest)) = POk rest (map opmean ops).
  Proof.
    intros H1 H2 H3 H4 Hs Hg. unfold parse_declarator. apply intern_ok; [|now rewrite fewer_map]. clear H3.
    induction ops as [|o ops IH].
    - cbn [opsT map concat app]. rewrite stops_strip by exact Hs. apply many0_nil, terminated_err1. now apply decl_end.
    - cbn [forallb] in H1. apply andb_true_iff in H1 as [Ho H1]. cbn [lmax fold_right] in H4.
      assert (Hd' : lmax opdep ops <= k) by (unfold lmax; lia).
      destruct (decl_op_ok o ops rest) as (Y & HY & EY); try assumption; [lia|].
      rewrite ops_strip by (assumption || now apply (apart_loose o)). cbn [map]. eapply many0_cons; [eapply terminated_ok; [exact HY|apply ms0]| |].
      + rewrite EY. pose proof (strip_length (opsT ops ++ rest)). pose proof (obody_length o Ho). rewrite app_length. lia.
      + rewrite EY. apply IH; [exact H1|now apply (apart_tl o)|exact Hd'].
  Qed.

  (** ** Names before something else *)
  Hypothesis HP : forall v rest, vok v = true -> type_then v = true -> vdep v <= k -> vstop false true rest ->
    exists c r u, r_type E (vtext v ++ rest) = POk (c :: r) u /\ is_space c = false /\ c <> 44%N /\ c <> 41%N.

  Lemma signature_no_type args Y : forallb vok args = true -> lmax vdep args <= k ->
    (exists xs b r, args = xs ++ b :: r /\ (forall x, In x xs -> as_type x <> None) /\ as_type b = None /\
      (not_a_type b = true \/ type_then b = true)) ->
    parse_function_signature E ('"(" ++ join '", " (map vtext args) ++ '")" ++ Y) = PErr.
  Proof.
    intros Ha Hd (xs & b & r & -> & Hxs & _ & Hb).
    rewrite forallb_forall in Ha. pose proof (lmax_in vdep _ k Hd) as Hl.
    assert (Vb : vok b = true) by (apply Ha, in_or_app; right; now left).
    assert (Db : vdep b <= k) by (apply Hl, in_or_app; right; now left).
    unfold parse_function_signature. cbv zeta. apply pmap_err. eapply pand_err2.
    - apply opt_err_eq, delimited_err1, tag_err. discriminate.
    - apply pand_err1, terminated_err1. unfold parse_function_parameter_set. eapply preceded_err2; [apply (then_ws_ok "(")|].
      rewrite join_split. set (tail := match r with [] => _ | _ => _ end).
      assert (Ht : vstop false true tail).
      { subst tail. destruct r as [|y r]; [left; cbn; eauto|right; right; left]. split; [reflexivity|]. cbn [of_string app]. eauto. }
      pose proof (stops_ends _ (vstop_stops _ _ _ Ht)) as He.
      assert (W : forall x, In x xs -> forall z, not_white (vtext x ++ '", " ++ z)).
      { intros x Hx z. apply value_starts; [apply Ha, in_or_app; now left|now apply ends_char]. }
      assert (Wb : not_white (vtext b ++ tail)) by now apply value_starts.
      assert (Es : strip (concat (map (fun x => vtext x ++ '", ") xs) ++ vtext b ++ tail) = concat (map (fun x => vtext x ++ '", ") xs) ++ vtext b ++ tail).
      { apply strip_id. destruct xs as [|x xs]; [exact Wb|]. cbn [map concat]. rewrite <- !app_assoc. apply W. now left. }
      rewrite Es. rewrite por_next.
      + apply pvalue_err, pchar_first. destruct xs as [|x xs].
        * apply value_not_first; [exact Vb|reflexivity|reflexivity|cbn; intuition discriminate].
        * cbn [map concat]. rewrite <- !app_assoc. apply value_not_first; [apply Ha; now left|reflexivity|reflexivity|cbn; intuition discriminate].
      + rewrite map_opt_err; [reflexivity|].
        set (mean := fun x : cvalue => option_map tmean (as_type x)).
        apply (separated_fails vtext mean); [discriminate| |exact W|exact Wb|].
        * intros x Hx z. assert (Hx' : In x (xs ++ b :: r)) by (apply in_or_app; now left).
          pose proof (Hxs x Hx) as Hn. destruct (as_type x) as [t|] eqn:Et; [|congruence].
          destruct (as_type_ok (vdep x) x t (le_n _) (Ha x Hx') Et) as (T1 & T2 & T3). apply por_ok. unfold mean. rewrite Et. cbn [option_map].
          apply pmap_ok. rewrite <- T1. apply HT; [exact T2|pose proof (Hl x Hx'); lia|apply stops_char; cbn; tauto|now apply no_ge_char].
        * destruct Hb as [Hb|Hb].
          -- left. rewrite por_next.
             ++ apply pvalue_err, tag_first. apply value_not_first; [exact Vb|reflexivity|reflexivity|cbn; intuition discriminate].
             ++ apply pmap_err, HB. now apply value_bad_type.
          -- right. destruct (HP b tail Vb Hb Db Ht) as (c & z & u & Hu & H1 & H2 & H3). exists c, z, (Some u).
             split; [apply por_ok; now apply pmap_ok|]. now repeat split.
  Qed.
  Lemma lone_after ts rest : ts <> [] -> forallb aok ts = true -> lmax adep ts <= k -> after_name ts = true -> stops rest -> no_ge rest ->
    lone (afterT ts ++ rest).
  Proof.
    intros Hne Ha Hd Hn Hs Hg. destruct ts as [|t ts]; [congruence|]. clear Hne.
    cbn [forallb] in Ha. apply andb_true_iff in Ha as [Ht Ha]. cbn [lmax fold_right] in Hd. fold (lmax adep ts) in Hd.
    rewrite afterT_cons. set (Y := afterT ts ++ rest).
    assert (C58 : not_first 58%N (atext t ++ Y)) by (apply after_not_first; cbn; intuition discriminate).
    destruct (after_strip t Y Ht) as (c & r & Es & Hc & H38 & H42 & H40 & H91 & H60 & H45).
    destruct (after_char_plain c Hc) as (P1 & P2 & P3).
    assert (Hh : ~ In (head (strip (atext t ++ Y))) cvw) by (rewrite Es, head_char by exact P1; cbn; intuition discriminate).
    destruct t as [v|args|i| |up|op v|v w].
    - unfold lone. eapply terminated_err2.
      + apply opt_err_eq, signature_err; [discriminate|]. intros x Ex. cbn [atext aok] in *. rewrite <- !app_assoc in Ex. cbn [of_string app] in Ex.
        injection Ex as Ex. apply (value_no_paren_word v (93%N :: Y)); [exact Ht|now apply ends_char|].
        replace (vtext v ++ 93%N :: Y) with ('"abi" ++ 58%N :: x) by (symmetry; exact Ex).
        rewrite head_word; [cbn; tauto|now apply is_word_iff|now apply ends_char].
      + apply ignored_none; [exact Hh| |exact C58]. intros z Ez. rewrite Es in Ez. injection Ez as -> _. destruct H38 as (? & ? & ? & E'); [reflexivity|discriminate E'].
    - cbn [after_name] in Hn. apply andb_true_iff in Hn as [Hn1 Hn2]. cbn [atext aok adep] in *. apply andb_true_iff in Ht as [Hargs Hfew].
      assert (Hstr : forall y, strip ('"(" ++ y) = '"(" ++ y) by reflexivity.
      rewrite <- !app_assoc in *. destruct (args_cases args Hn1) as [[ps Hps]|Hbad].
      + rewrite Hps in Hn2. cbn [is_none orb] in Hn2. apply sequence_map in Hps.
        assert (R : map ttext ps = map vtext args /\ forallb tok ps = true /\ lmax tdep ps <= lmax vdep args).
        { clear -Hps Hargs. induction Hps as [|v t args ps Et Eps IHp]; [cbn; auto|].
          cbn [forallb] in Hargs. apply andb_true_iff in Hargs as [Hv Hargs]. destruct (IHp Hargs) as (R1 & R2 & R3).
          destruct (as_type_ok (vdep v) v t (le_n _) Hv Et) as (T1 & T2 & T3).
          cbn [map forallb lmax fold_right]. fold (lmax tdep ps). fold (lmax vdep args). rewrite T1, R1, T2, R2. repeat split; lia. }
        destruct R as (R1 & R2 & R3). set (f := CSig ps false cv_default RNone None None).
        assert (Hf : '"(" ++ join '", " (map vtext args) ++ '")" ++ Y = sigtext f ++ Y).
        { subst f. cbn [sigtext no_cv cv_default opt_text]. rewrite R1. cbn [app]. rewrite !app_nil_r. now rewrite <- !app_assoc. }
        assert (HY : word_ends Y /\ head (strip Y) = [] /\ not_first 38%N (strip Y) /\ (forall r, strip Y <> '"->" ++ r) /\ not_first 58%N (strip Y)).
        { subst Y. split; [now apply after_ends, stops_ends|]. destruct ts as [|t ts].
          - cbn [afterT map concat app]. rewrite stops_strip by exact Hs. split; [now apply head_ends, stops_ends|].
            split; [apply stops_not_first; [exact Hs|cbn; intuition discriminate]|]. split; [|apply stops_not_first; [exact Hs|cbn; intuition discriminate]].
            intros x. apply stops_not_first; [exact Hs|cbn; intuition discriminate].
          - cbn [forallb] in Ha. apply andb_true_iff in Ha as [Ht _]. rewrite afterT_cons.
            destruct (after_strip t (afterT ts ++ rest) Ht) as (c' & r' & Es' & Hc' & H38' & _ & _ & _ & _ & H45').
            destruct (after_char_plain c' Hc') as (Q1 & Q2 & Q3). rewrite Es'. split; [now apply head_char|]. split; [|split].
            + intros x [= -> _]. destruct H38' as (? & ? & ? & ->); [reflexivity|discriminate Hn2].
            + intros x [= -> ->]. destruct (H45' x eq_refl eq_refl) as (? & ? & ->). discriminate Hn2.
            + intros x [= -> _]. apply Q3. cbn. tauto. }
        destruct HY as (Y1 & Y2 & Y3 & Y4 & Y5). unfold lone. rewrite Hf. eapply terminated_err2.
        * apply opt_ok_eq. apply signature_ok.
          -- subst f. cbn [sigok negb orb opt_ok andb]. now rewrite R2, (fewer_weaker args ps (F2_length _ _ _ Hps) Hfew).
          -- subst f. cbn [sigdep omax]. lia.
          -- split; [exact Y1|]. split; [rewrite Y2; apply nil_allowed|]. split; [exact Y3|]. split; [exact Y4|]. split; discriminate.
        * apply ignored_none; [rewrite strip_strip, Y2; cbn; intuition discriminate|now rewrite strip_strip|exact Y5].
      + unfold lone. eapply terminated_err2; [apply opt_err_eq, signature_no_type; [exact Hargs|lia|exact Hbad]|].
        apply ignored_none; [exact Hh| |exact C58]. rewrite Hstr. discriminate.
    - unfold lone. eapply terminated_err2; [apply opt_err_eq, signature_err; discriminate|].
      apply ignored_none; [exact Hh| |exact C58]. intros z Ez. rewrite Es in Ez. injection Ez as -> _. destruct H38 as (? & ? & ? & E'); [reflexivity|discriminate E'].
    - unfold lone. eapply terminated_err2; [apply opt_err_eq, signature_err; discriminate|].
      apply ignored_none; [exact Hh| |exact C58]. intros z Ez. rewrite Es in Ez. injection Ez as -> _. destruct H38 as (? & ? & ? & E'); [reflexivity|discriminate E'].
    - unfold lone. eapply terminated_err2; [apply opt_err_eq, signature_err; destruct up; discriminate|].
      apply ignored_none; [exact Hh| |exact C58]. intros z Ez. rewrite Es in Ez. injection Ez as -> _. destruct H38 as (? & ? & ? & E'); [reflexivity|discriminate E'].
    - assert (S1 : parse_function_signature E (atext (CBinary op v) ++ Y) = PErr).
      { apply signature_err; [|intros x]; destruct op as [s tw e|[]|]; discriminate. }
      unfold lone. eapply terminated_err2; [apply opt_err_eq; exact S1|].
      destruct (N.eq_dec c 38%N) as [->|Hn38].
      + destruct (H38 eq_refl) as (tw & e & v' & E'). injection E' as -> <-. clear H38 H42 H40 H91 H60 H45.
        cbn [aok] in Ht. rewrite !andb_true_iff in Ht. destruct Ht as [[Hv Hb] _]. cbn [atext adep] in *.
        assert (Hey : word_ends Y) by (subst Y; now apply after_ends, stops_ends).
        destruct (value_starts v Y Hv Hey) as [V1 V2].
        destruct e.
        * destruct tw; [discriminate Hb|]. apply (ignored_amp _ false ('"= " ++ vtext v ++ Y)).
          -- cbn [binary_text show_sym of_string app]. now rewrite strip_space, strip_char by reflexivity.
          -- discriminate.
          -- cbn [of_string app]. rewrite strip_char, head_char by reflexivity. cbn. intuition discriminate.
          -- cbn [of_string app]. rewrite strip_char by reflexivity. discriminate.
          -- discriminate.
        * apply (ignored_amp _ tw ('" " ++ vtext v ++ Y)).
          -- destruct tw; cbn [binary_text show_sym of_string app]; now rewrite strip_space, strip_char by reflexivity.
          -- discriminate.
          -- cbn [of_string app]. rewrite strip_space, strip_id by exact V2. now apply allowed_list.
          -- cbn [of_string app]. rewrite strip_space, strip_id by exact V2. intros x Ex.
             destruct (value_first v Y Hv) as (c' & r' & Ec' & _ & H'). rewrite Ec' in Ex. injection Ex as -> _.
             destruct (H' eq_refl) as [w ->]. cbn [after_name] in Hn. discriminate Hn.
          -- discriminate.
      + apply ignored_none; [exact Hh| |exact C58]. intros z Ez. rewrite Es in Ez. injection Ez as E' _. congruence.
    - unfold lone. eapply terminated_err2; [apply opt_err_eq, signature_err; discriminate|].
      apply ignored_none; [exact Hh| |exact C58]. intros z Ez. rewrite Es in Ez. injection Ez as -> _. destruct H38 as (? & ? & ? & E'); [reflexivity|discriminate E'].
  Qed.
End Core.
End Style.

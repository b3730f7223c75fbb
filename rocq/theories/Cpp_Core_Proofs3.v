(** Round trip of the core entities, part 3: unnamed entities, operators, ignored qualifiers. *)
From Coq Require Import Ascii String Permutation.
From Verif Require Asylum_Model.
From Verif Require Import Base Cpp_Lex_Model Cpp_Ast_Model Cpp_Parse_Model Cpp_Lex_Spec
  Cpp_Display_Spec Cpp_Parse_Spec Cpp_Parse_Proofs Cpp_Parse_Proofs2 Cpp_Lex_Proofs Cpp_Lex_Proofs2
  Cpp_Lex_Proofs3 Cpp_Lex_Proofs4 Cpp_Lex_Proofs5 Cpp_Lex_Proofs6 Cpp_Core_Spec Cpp_Core_Proofs Cpp_Core_Proofs2.
Local Open Scope nat_scope.
Local Open Scope bool_scope.
Local Open Scope list_scope.
Local Notation "' s" := (of_string s) (at level 0, s at level 0).

Lemma pmap_to {A B} (f : A -> B) (p : parser A) s r a b : p s = POk r a -> f a = b -> pmap f p s = POk r b.
Proof. intros H <-. now apply pmap_ok. Qed.

(** ** Locations *)
Lemma component_ok_iff n : component_ok n = true ->
  n <> [] /\ Forall (fun c => c <> slash /\ c <> 58%N) n /\ n <> '"." /\ n <> '"..".
Proof.
  unfold component_ok. rewrite !andb_true_iff. intros [[H1 H2] H3]. split; [now intros ->|]. split.
  - apply Forall_forall. intros c Hc. rewrite forallb_forall in H2. apply H2 in Hc.
    apply andb_true_iff in Hc as [Ha Hb]. apply negb_true_iff, N.eqb_neq in Ha, Hb. auto.
  - apply negb_true_iff in H3. split; intros ->; discriminate H3.
Qed.
Lemma split_name n : Forall (fun c => c <> slash) n -> Asylum_Model.split_slash n = [n].
Proof.
  induction 1 as [|c n Hc _ IH]; [reflexivity|]. cbn [Asylum_Model.split_slash].
  apply N.eqb_neq in Hc. now rewrite Hc, IH.
Qed.
Lemma split_name_slash n s : Forall (fun c => c <> slash) n ->
  Asylum_Model.split_slash (n ++ slash :: s) = n :: Asylum_Model.split_slash s.
Proof.
  induction 1 as [|c n Hc _ IH]; cbn [app Asylum_Model.split_slash]; [now rewrite N.eqb_refl|].
  apply N.eqb_neq in Hc. now rewrite Hc, IH.
Qed.
Lemma split_join names : names <> [] -> Forall (fun n => Forall (fun c => c <> slash) n) names ->
  Asylum_Model.split_slash (join '"/" names) = names.
Proof.
  intros Hne H. induction H as [|n names Hn Hns IH]; [congruence|].
  destruct names as [|n' names]; [now apply split_name|].
  change (join '"/" (n :: n' :: names)) with (n ++ slash :: join '"/" (n' :: names)).
  rewrite split_name_slash by exact Hn. now rewrite IH.
Qed.
Lemma push_names names : forall acc, fold_left path_push (map Asylum_Model.Normal names) acc = acc ++ names.
Proof.
  induction names as [|n names IH]; intros acc; cbn [map fold_left]; [now rewrite app_nil_r|].
  rewrite IH. cbn [path_push Asylum_Model.component_str]. now rewrite <- app_assoc.
Qed.
Lemma intern_path_ok names r : names <> [] -> forallb component_ok names = true ->
  (N.of_nat (List.length names) <? 255)%N = true ->
  intern_path (slash :: join '"/" names) r = POk r ('"/" :: names).
Proof.
  intros Hne Hok Hl.
  assert (Hn : Forall (fun n => n <> [] /\ Forall (fun c => c <> slash /\ c <> 58%N) n /\ n <> '"." /\ n <> '"..") names).
  { apply Forall_forall. intros n Hi. apply component_ok_iff. rewrite forallb_forall in Hok. now apply Hok. }
  unfold intern_path.
  assert (E1 : Asylum_Model.path_is_relative (slash :: join '"/" names) = false) by reflexivity.
  rewrite E1. unfold Asylum_Model.path_components.
  assert (E2 : Asylum_Model.path_has_root (slash :: join '"/" names) = true) by reflexivity.
  rewrite E2. cbn [Asylum_Model.split_slash]. rewrite N.eqb_refl. cbn [map Asylum_Model.segment_component Asylum_Model.filter_some].
  rewrite split_join; [|exact Hne|].
  2:{ eapply Forall_impl; [|exact Hn]. intros n (_ & H & _). eapply Forall_impl; [|exact H]. now intros c []. }
  assert (E3 : Asylum_Model.filter_some (map Asylum_Model.segment_component names) = map Asylum_Model.Normal names).
  { clear Hne Hok Hl E1 E2. induction Hn as [|n names (H1 & _ & H2 & H3) _ IH]; [reflexivity|].
    cbn [map]. assert (E : Asylum_Model.segment_component n = Some (Asylum_Model.Normal n)).
    { unfold Asylum_Model.segment_component, Asylum_Model.is_dot, Asylum_Model.is_dotdot. destruct n as [|c n]; [congruence|].
      destruct (str_eqb_spec (c :: n) [dot]) as [E|_]; [now elim H2|].
      destruct (str_eqb_spec (c :: n) [dot; dot]) as [E|_]; [now elim H3|]. reflexivity. }
    rewrite E. cbn [Asylum_Model.filter_some]. now rewrite IH. }
  rewrite E3. cbn [fold_left path_push Asylum_Model.component_str app]. rewrite push_names. cbn [app List.length].
  replace (N.of_nat (S (List.length names)) <? 2 ^ 8)%N with true; [reflexivity|].
  symmetry. apply N.ltb_lt. apply N.ltb_lt in Hl. change (2 ^ 8)%N with 256%N. lia.
Qed.
Lemma join_no_colon names : forallb component_ok names = true ->
  forallb (fun c : chr => negb (N.eqb c 58)) (join '"/" names) = true.
Proof.
  induction names as [|n names IH]; [reflexivity|]. cbn [forallb]. rewrite andb_true_iff. intros [Hn Hns].
  apply component_ok_iff in Hn as (_ & Hn & _).
  assert (H : forallb (fun c : chr => negb (N.eqb c 58)) n = true).
  { apply forallb_forall. intros c Hc. rewrite Forall_forall in Hn. apply Hn in Hc as [_ Hc].
    apply negb_true_iff. now apply N.eqb_neq. }
  destruct names as [|n' names]; [exact H|].
  change (join '"/" (n :: n' :: names)) with (n ++ slash :: join '"/" (n' :: names)).
  rewrite forallb_app. apply andb_true_iff. split; [exact H|]. cbn [forallb]. now rewrite IH.
Qed.
Lemma firstn_prefix (a b : str) : firstn (List.length (a ++ b) - List.length b) (a ++ b) = a.
Proof.
  rewrite app_length. replace (List.length a + List.length b - List.length b) with (List.length a + 0) by lia.
  rewrite firstn_app_2. cbn. now rewrite app_nil_r.
Qed.
Lemma path_text_ok names r : names <> [] -> forallb component_ok names = true ->
  path_text ((slash :: join '"/" names) ++ 58%N :: r) = POk (58%N :: r) (slash :: join '"/" names).
Proof.
  intros Hne Hok. unfold path_text.
  assert (E1 : opt (pand anychar (pchar ":")) ((slash :: join '"/" names) ++ 58%N :: r)
               = POk ((slash :: join '"/" names) ++ 58%N :: r) None).
  { apply opt_err_eq. apply (pand_err2 _ _ _ (join '"/" names ++ 58%N :: r) slash); [reflexivity|].
    destruct names as [|n names]; [congruence|]. cbn [forallb] in Hok. apply andb_true_iff in Hok as [Hn _].
    apply component_ok_iff in Hn as (H1 & H2 & _). destruct n as [|c n]; [congruence|]. inversion H2 as [|? ? [_ Hc] _]; subst.
    destruct names as [|n' names]; cbn [join app]; now apply pchar_not. }
  rewrite E1.
  assert (E2 : span (fun c => negb (N.eqb c (N_of_ascii ":"))) ((slash :: join '"/" names) ++ 58%N :: r)
             = (slash :: join '"/" names, 58%N :: r)).
  { apply span_app; [|reflexivity]. cbn [forallb]. now rewrite join_no_colon. }
  rewrite E2. now rewrite firstn_prefix.
Qed.
Lemma parse_u32_ok z r : u32 z = true -> (forall c t, r = c :: t -> is_digit c = false) ->
  parse_u32 (show_int z ++ r) = POk r z.
Proof.
  intros Hz Hr. unfold u32 in Hz. apply andb_true_iff in Hz as [H1 H2]. apply Z.leb_le in H1. apply Z.ltb_lt in H2.
  unfold show_int. replace (z <? 0)%Z with false by (symmetry; apply Z.ltb_ge; lia). cbn [app].
  destruct (shown_digits (Z.abs_N z)) as (ds & -> & [Hd1 Hd2] & Hv).
  assert (Hin : forall x, in_u32 x = true <-> (0 <= x < 2 ^ 32)%Z).
  { intros x. unfold in_u32. rewrite andb_true_iff, Z.leb_le, Z.ltb_lt. reflexivity. }
  pose proof (digits_loop_spec in_u32 0 (2 ^ 32) Hin (conj (Z.le_refl 0) eq_refl) false ds r Hd2 Hr 0 false (Z.le_refl 0) eq_refl) as E.
  unfold parse_u32. change (sg false 0) with 0%Z in E. rewrite E. destruct ds as [|d ds]; [congruence|].
  change (value_from 0 (d :: ds)) with (digits_value (d :: ds)). unfold sg. rewrite Hv.
  rewrite N2Z.inj_abs_N, Z.abs_eq by lia. replace (in_u32 z) with true; [reflexivity|].
  symmetry. apply Hin. lia.
Qed.
Lemma location_ok l x : loc_ok l = true ->
  parse_source_location (loc_text l ++ 41%N :: x) = POk (41%N :: x) (locmean l).
Proof.
  destruct l as [path line col]. unfold loc_ok, loc_text, locmean. cbn [cl_path cl_line cl_column].
  rewrite !andb_true_iff. intros [[[[H1 H2] H3] H4] H5].
  assert (Hne : path <> []) by (now intros ->).
  unfold parse_source_location.
  rewrite <- !app_assoc.
  change ('"/" ++ join '"/" path ++ '":" ++ show_int line ++ '":" ++ show_int col ++ 41%N :: x)
    with ((slash :: join '"/" path) ++ 58%N :: show_int line ++ 58%N :: show_int col ++ 41%N :: x).
  eapply (pmap_to _ _ _ _ ('"/" :: path, (line, col))); [|reflexivity].
  eapply separated_pair_ok.
  - cbv beta. rewrite path_text_ok by assumption. cbn [pbind]. now rewrite intern_path_ok.
  - apply (pchar_eq ":").
  - eapply separated_pair_ok.
    + apply parse_u32_ok; [exact H4|]. now intros c t [= <- _].
    + apply (pchar_eq ":").
    + apply parse_u32_ok; [exact H5|]. now intros c t [= <- _].
Qed.

(** ** Unnamed entities *)
Lemma lambda_ok l x : loc_ok l = true ->
  parse_clang_lambda ('"(lambda at " ++ loc_text l ++ '")" ++ x) = POk x (AClangLambda (locmean l)).
Proof.
  intros Hl. unfold parse_clang_lambda. apply pmap_ok. eapply delimited_ok; [apply tag_ok| |apply (pchar_eq ")")].
  apply location_ok. exact Hl.
Qed.
Lemma anonymous_ok (u : bool) w l x : opt_ok is_word w = true -> opt_ok loc_ok l = true -> negb (is_none w) || is_none l = true ->
  parse_clang_anonymous ((if u then '"(unnamed" else '"(anonymous") ++ opt_text (fun w => '" " ++ w) w ++
      opt_text (fun l => '" at " ++ loc_text l) l ++ '")" ++ x) = POk x (AClangOther w (option_map locmean l)).
Proof.
  intros Hw Hl Hwl. unfold parse_clang_anonymous.
  set (y := opt_text (fun w => '" " ++ w) w ++ opt_text (fun l => '" at " ++ loc_text l) l ++ '")" ++ x).
  replace ((if u then '"(unnamed" else '"(anonymous") ++ y) with (40%N :: (if u then '"unnamed" else '"anonymous") ++ y)
    by now destruct u.
  apply (pmap_to _ _ _ _ (w, option_map locmean l)); [|reflexivity].
  eapply delimited_ok.
  - eapply pand_ok; [apply (pchar_eq "(")|]. destruct u; [rewrite por_next by reflexivity|apply por_ok]; apply tag_ok.
  - subst y. eapply pand_ok.
    + destruct w as [w|]; cbn [opt_text].
      * rewrite <- app_assoc. apply opt_ok_eq. eapply preceded_ok; [apply (pchar_eq " ")|].
        apply identifier_iff. split; [reflexivity|]. split; [now apply is_word_iff|].
        destruct l as [l|]; now apply ends_char.
      * destruct l as [l|]; [discriminate Hwl|]. apply opt_err_eq. reflexivity.
    + destruct l as [l|]; cbn [opt_text option_map].
      * rewrite <- app_assoc. apply opt_ok_eq. eapply preceded_ok; [apply tag_ok|]. apply location_ok. exact Hl.
      * apply opt_err_eq. reflexivity.
  - apply (pchar_eq ")").
Qed.
Lemma lambda_no (u : bool) w l y : parse_clang_lambda ((if u then '"(unnamed" else '"(anonymous") ++ opt_text (fun w => '" " ++ w) w ++
      opt_text (fun l => '" at " ++ loc_text l) l ++ y) = PErr.
Proof. now destruct u. Qed.

(** Something else in parentheses *)
Lemma tag_cons c t s : tag (String c t) (N_of_ascii c :: s) = tag t s.
Proof. unfold tag. cbn [of_string strip_tag]. now rewrite N.eqb_refl. Qed.
Lemma no_anonymous E s : ~ In (head s) paren_words -> parse_anonymous E (40%N :: s) = PErr.
Proof.
  intros H. unfold parse_anonymous. change (starts "(" (40%N :: s)) with true. cbn iota.
  assert (N : forall w y, In w paren_words -> is_word w = true -> s = w ++ y -> word_ends y -> False).
  { intros w y Hw Hi Es He. apply H. rewrite Es, head_word; [exact Hw|now apply is_word_iff|exact He]. }
  rewrite por_next.
  - unfold parse_clang_anonymous. apply pmap_err.
    assert (A : forall w y, In w paren_words -> is_word w = true -> s = w ++ y ->
       opt (preceded (pchar " ") identifier) y = POk y None /\ opt (preceded (tag " at ") parse_source_location) y = POk y None
       /\ pchar ")" y = PErr).
    { intros w y Hw Hi Es. destruct (word_ends_dec y) as [He|He]; [now elim (N w y Hw Hi Es He)|].
      destruct y as [|c y]; [elim He; now apply word_ends_iff|].
      assert (Hc : is_id_continue c = true).
      { destruct (is_id_continue c) eqn:Hc; [reflexivity|]. elim He. now apply ends_char. }
      split; [|split].
      - apply opt_err_eq, preceded_err1. apply pchar_not. intros ->. discriminate Hc.
      - apply opt_err_eq, preceded_err1. apply tag_err. intros r Er. injection Er as -> _. discriminate Hc.
      - apply pchar_not. intros ->. discriminate Hc. }
    destruct (por (tag "anonymous") (tag "unnamed") s) as [y u| | |] eqn:Et.
    + assert (Es : exists w, In w paren_words /\ is_word w = true /\ s = w ++ y).
      { destruct u. apply por_cases in Et as [Et|[_ Et]]; apply tag_cases in Et;
          [exists '"anonymous"|exists '"unnamed"]; (split; [cbn; tauto|split; [reflexivity|exact Et]]). }
      destruct Es as (w & Hw & Hi & Es). destruct (A w y Hw Hi Es) as (A1 & A2 & A3).
      eapply delimited_err3; [| |exact A3].
      * eapply pand_ok; [apply (pchar_eq "(")|exact Et].
      * eapply pand_ok; [exact A1|exact A2].
    + apply delimited_err1. eapply pand_err2; [apply (pchar_eq "(")|exact Et].
    + exfalso. unfold por, tag in Et. destruct (strip_tag _ s); [discriminate|]. destruct (strip_tag _ s); discriminate.
    + exfalso. unfold por, tag in Et. destruct (strip_tag _ s); [discriminate|]. destruct (strip_tag _ s); discriminate.
  - unfold parse_clang_lambda. apply pmap_err, delimited_err1.
    change (40%N) with (N_of_ascii "("). rewrite tag_cons. apply tag_err. intros r Er.
    apply (N '"lambda" ('" at " ++ r)); [cbn; tauto|reflexivity| |now apply ends_char].
    rewrite Er. reflexivity.
Qed.

(** ** Operators *)
Lemma oper_tmpl_ok E (p : parser (operator type_like)) s Z X op T :
  p s = POk Z op -> preceded multispace0 (opt (parse_template_parameters E)) Z = POk X T ->
  X = [] \/ (exists x, X = 40%N :: x) ->
  arith_and_templates E p s = POk X (op, T).
Proof.
  intros H HZ HX. unfold arith_and_templates, map_opt, pand at 1. rewrite H. cbn [pbind].
  unfold pand. rewrite HZ. destruct HX as [->|[x ->]]; reflexivity.
Qed.
(** What may come after a `<` that does not start template parameters *)
Definition shift_rest (r : str) : Prop := r = [] \/ exists c r', r = c :: r' /\ In c '"<=".
Lemma oper_tmpl_reject E (p : parser (operator type_like)) s y r op :
  (forall r, shift_rest r -> parse_template_parameters E (60%N :: r) = PErr) ->
  p s = POk (symbol_text y ++ r) op -> (y = Less -> shift_rest r) ->
  arith_and_templates E p s = PErr.
Proof.
  intros HL H Hy. assert (D : y = Less \/ y <> Less) by (destruct y; (now left) || now right).
  destruct D as [->|D]; [|now apply (templates_reject E p s y r op)].
  specialize (Hy eq_refl).
  assert (Hc2 : symbol (60%N :: r) = POk r Less) by reflexivity.
  change (symbol_text Less ++ r) with (60%N :: r) in H.
  unfold arith_and_templates, map_opt, pand at 1. rewrite H. cbn [pbind].
  assert (K : preceded multispace0 (opt (parse_template_parameters E)) (60%N :: r) = POk (60%N :: r) None).
  { eapply preceded_ok; [rewrite ms0; now rewrite strip_char|]. apply opt_err_eq. now apply HL. }
  unfold pand. rewrite K. cbn [pbind]. unfold peek, opt.
  match goal with |- context [symbol ?z] => replace (symbol z) with (POk r Less) by (symmetry; exact Hc2) end.
  reflexivity.
Qed.
Lemma operator_ok E op T Z X : oper_ok op = true ->
  (forall r, shift_rest r -> parse_template_parameters E (60%N :: r) = PErr) ->
  preceded multispace0 (opt (parse_template_parameters E)) Z = POk X T ->
  X = [] \/ (exists x, X = 40%N :: x) ->
  Z = [] \/ (exists z r, Z = z :: r /\ In z '"(<") ->
  (opermean op = OBasic Less true false -> Z = [] \/ exists r, Z = 60%N :: r) ->
  parse_operator_overload E ('"operator" ++ oper_text op ++ Z) = POk X (opermean op, T).
Proof.
  intros Ho HL HZ HX HZ1 Hsh.
  assert (HZ2 : exists r, Z = [] \/ Z = 40%N :: r \/ Z = 60%N :: r).
  { destruct HZ1 as [->|(z & r & -> & Hz)]; [exists []; now left|].
    exists r. right. cbn in Hz. destruct Hz as [<-|[<-|[]]]; auto. }
  assert (HZe : word_ends Z) by (destruct HZ2 as (r & [->|[->| ->]]); now apply word_ends_iff).
  assert (S : forall t, written (opermean op) t -> oper_text op = t ->
    parse_operator_overload E ('"operator" ++ oper_text op ++ Z) = POk X (opermean op, T)).
  { intros t Hw Et. rewrite Et. clear Et. unfold parse_operator_overload.
    assert (Hwe : word_ends (t ++ Z)).
    { destruct (written_symbols (opermean op) t Hw) as (l & El).
      destruct l as [|a l]; [cbn in El; subst t; destruct (written_length (opermean op) [] Hw) as [H|[H|H]]; discriminate|].
      rewrite El. cbn [map concat]. intros y r Ey Hy. apply id_continue_iff in Hy.
      destruct a; injection Ey as <- _; discriminate. }
    eapply preceded_ok; [now apply keyword_ok|]. apply por_ok.
    destruct (written_length (opermean op) t Hw) as [L|[L|L]].
    - apply por_ok. apply (oper_tmpl_ok E _ _ Z); [|exact HZ|exact HX]. apply arith1_iff. eauto.
    - destruct (text_op2 (opermean op) t Hw L) as (a & y & E2 & Et').
      rewrite por_next.
      + apply por_ok. apply (oper_tmpl_ok E _ _ Z); [|exact HZ|exact HX]. apply arith2_iff. eauto.
      + apply (oper_tmpl_reject E _ _ y Z (OBasic a false false)); [exact HL| |].
        * apply arith1_iff. exists (symbol_text a). split; [split; [discriminate|cbn; now rewrite app_nil_r]|].
          split; [apply symbol_length|]. now rewrite Et', <- app_assoc.
        * intros ->. destruct Hsh as [->|[r ->]]; [|now left|right; exists 60%N, r; split; [reflexivity|cbn; tauto]].
          destruct a; cbn in E2; try discriminate E2; injection E2 as <-; reflexivity.
    - destruct (text_op3 (opermean op) t Hw L) as (a & y & z & E3 & Et').
      assert (Hz : z <> Less).
      { intros ->. destruct a, y; discriminate E3. }
      rewrite por_next; [rewrite por_next|].
      + apply (oper_tmpl_ok E _ _ Z); [|exact HZ|exact HX]. apply arith3_iff. eauto.
      + destruct (arith2_total (X := type_like) (t ++ Z)) as [(r & op' & E2)|E2]; [|now apply templates_err].
        apply (templates_reject E _ _ z Z op'); [|exact Hz]. rewrite E2. f_equal.
        apply arith2_iff in E2 as (t2 & _ & L2 & E2). rewrite Et', <- !app_assoc in E2.
        rewrite app_assoc in E2. apply app_same_length in E2 as [_ E2]; [now rewrite E2|].
        now rewrite app_length, !symbol_length, L2.
      + apply (oper_tmpl_reject E _ _ y (symbol_text z ++ Z) (OBasic a false false)); [exact HL| |].
        * apply arith1_iff. exists (symbol_text a). split; [split; [discriminate|cbn; now rewrite app_nil_r]|].
          split; [apply symbol_length|]. now rewrite Et', <- !app_assoc.
        * intros ->. destruct a, z; try discriminate E3; (right; eexists; eexists; split; [reflexivity|cbn; tauto]). }
  assert (G : forall y (o : operator type_like), oper_text op = y -> 
     (word_ends (y ++ Z)) ->
     por (arith_and_templates E arithmetic_or_comparison1)
           (por (arith_and_templates E arithmetic_or_comparison2)
                (arith_and_templates E arithmetic_or_comparison3)) (y ++ Z) = PErr ->
     por (por call_or_index (preceded multispace0 parse_custom_literal))
                      (preceded multispace1
                         (por new_op (por delete_op (por co_await_op
                            (pmap OConversion (r_type E)))))) (y ++ Z) = POk Z o ->
     parse_operator_overload E ('"operator" ++ oper_text op ++ Z) = POk X (o, T)).
  { intros y o -> He H1 H2. unfold parse_operator_overload.
    eapply preceded_ok; [now apply keyword_ok|]. rewrite por_next by exact H1.
    eapply pand_ok; [exact H2|exact HZ]. }
  destruct op as [s tw eq|st| | | |ar|ar| |w]; cbn [oper_text opermean oper_ok] in *.
  - apply (S (show_sym s ++ (if tw then show_sym s else []) ++ (if eq then '"=" else []))).
    + split.
      * intros E'. injection E' as -> -> ->. discriminate Ho.
      * cbn [operator_text]. now rewrite show_sym_text.
    + reflexivity.
  - apply (S (if st then '"->*" else '"->")); [now destruct st; split|reflexivity].
  - apply (S '"<=>"); [now split|reflexivity].
  - apply (G '"()"); [reflexivity|now apply ends_char|reflexivity|reflexivity].
  - apply (G '"[]"); [reflexivity|now apply ends_char|reflexivity|reflexivity].
  - apply (G (if ar then '" new[]" else '" new")); [reflexivity|destruct ar; now apply ends_char| |].
    + now destruct ar.
    + destruct HZ2 as (r & [->|[->| ->]]); now destruct ar.
  - apply (G (if ar then '" delete[]" else '" delete")); [reflexivity|destruct ar; now apply ends_char| |].
    + now destruct ar.
    + destruct HZ2 as (r & [->|[->| ->]]); now destruct ar.
  - apply (G '" co_await"); [reflexivity|now apply ends_char|reflexivity|]. destruct HZ2 as (r & [->|[->| ->]]); reflexivity.
  - apply (G ([34; 34; 32]%N ++ w)); [reflexivity|now apply ends_char|reflexivity|].
    apply por_ok. apply is_word_iff in Ho. rewrite <- app_assoc. rewrite por_next by reflexivity.
    eapply preceded_ok; [reflexivity|]. unfold parse_custom_literal. apply pmap_ok.
    eapply preceded_ok.
    + eapply pand_ok; [reflexivity|]. change ([32%N] ++ w ++ Z) with (32%N :: w ++ Z).
      rewrite ms0, strip_space, word_strip by exact Ho. reflexivity.
    + apply identifier_iff. split; [reflexivity|]. split; [exact Ho|exact HZe].
Qed.

(** ** Ignored qualifiers *)
Definition qualifier : parser (unit * unit) :=
  pand multispace0
        (por (pvalue tt (verify parse_cv (fun c => negb (cv_is_default c))))
             (pvalue tt (verify parse_reference (fun r => negb (ref_is_none r))))).
Lemma reference_none s : not_first 38%N s -> parse_reference s = POk s RNone.
Proof. intros H. exact (reference_meaning 0 s H). Qed.
Lemma reference_text r s : not_first 38%N s -> parse_reference (ref_text r ++ s) = POk s r.
Proof.
  intros H. destruct r; [exact (reference_meaning 0 s H)|exact (reference_meaning 1 s H)|exact (reference_meaning 2 s H)].
Qed.
Lemma qualifier_none s : ~ In (head (strip s)) cvw -> not_first 38%N (strip s) -> qualifier s = PErr.
Proof.
  intros H1 H2. unfold qualifier. eapply pand_err2; [apply ms0|]. rewrite por_next.
  - apply pvalue_err. eapply verify_no; [now apply reference_none|reflexivity].
  - apply pvalue_err. eapply verify_no; [now apply cv_none|reflexivity].
Qed.
Lemma qualifier_cv s c y : strip s = cv_text c ++ y -> no_cv c = false -> word_ends y -> ~ In (head (strip y)) cvw ->
  qualifier s = POk (strip y) (tt, tt).
Proof.
  intros Es Hc He Hh. unfold qualifier. eapply pand_ok; [apply ms0|]. rewrite Es. apply por_ok.
  eapply pvalue_ok. eapply verify_ok; [now apply cv_ok|]. now rewrite <- no_cv_default, Hc.
Qed.
Lemma qualifier_ref s (b : bool) y : strip s = (if b then '"&&" else '"&") ++ y -> not_first 38%N y ->
  qualifier s = POk y (tt, tt).
Proof.
  intros Es Hy. unfold qualifier. eapply pand_ok; [apply ms0|]. rewrite Es. rewrite por_next.
  - apply (pvalue_ok _ _ _ _ (if b then RRValue else RLValue)). apply verify_ok; [|now destruct b].
    destruct b; [exact (reference_text RRValue y Hy)|exact (reference_text RLValue y Hy)].
  - apply pvalue_err. apply (verify_no _ _ _ ((if b then '"&&" else '"&") ++ y) cv_default); [|reflexivity]. apply cv_none.
    destruct b; cbn [of_string app]; (rewrite head_char by reflexivity; cbn; intuition discriminate).
Qed.
Lemma tag_scope_err s : not_first 58%N s -> tag "::" s = PErr.
Proof. intros H. apply tag_err. intros r E. now apply (H (58%N :: r)). Qed.

Section Style.
Context {st : style}.
Lemma follow_not_colon ops rest : first_loose ops = true -> stops rest -> not_first 58%N (opsT ops ++ rest).
Proof.
  intros Hl Hs. destruct (follow_first ops rest Hl Hs) as [H|(c & r & -> & H)].
  - apply stops_not_first; [exact H|]. cbn. intuition discriminate.
  - intros r' E. injection E as -> _. cbn in H. intuition discriminate.
Qed.
Lemma follow_not_amp ops rest : first_loose ops = true -> stops rest -> starts_ref ops = false -> not_first 38%N (opsT ops ++ rest).
Proof.
  intros Hl Hs Hr. destruct ops as [|o ops].
  - apply stops_not_first; [exact Hs|]. cbn. intuition discriminate.
  - rewrite opsT_cons. cbn [first_loose firstn forallb] in Hl. rewrite andb_true_r in Hl.
    destruct o as [c|[|s ss] c r' l|b l|v l|f l|o']; try discriminate Hr; intros r; cbn [optext]; try discriminate.
    + destruct (mark (l_before l)); discriminate.
    + rewrite (loose_mark _ _ _ _ _ Hl). discriminate.
    + destruct (mark (l_before l)); discriminate.
    + destruct (sig_first f) as [r' ->]. destruct (mark (l_before l)); discriminate.
Qed.
Lemma apart_cv c ops : all_apart (CCv c :: ops) = true -> starts_cv ops = false.
Proof. destruct ops as [|[] ops]; (reflexivity || discriminate). Qed.
Lemma apart_ref b l ops : all_apart (CRef b l :: ops) = true -> starts_ref ops = false.
Proof. destruct ops as [|[] ops]; (reflexivity || discriminate). Qed.
Definition apart_tl := apart_tail.

Lemma next_cv_inv rest c ops z : next rest (CCv c :: ops) z -> no_cv c = false /\ z = cv_text c ++ opsT ops ++ rest.
Proof. intros H. inversion H; subst. auto. Qed.
Lemma next_ref_inv rest b l ops z : next rest (CRef b l :: ops) z -> z = (if b then '"&&" else '"&") ++ opsT ops ++ rest.
Proof. intros H. inversion H; subst. auto. Qed.
Lemma ignored_err rest ops : stops rest -> forallb opok ops = true -> all_apart ops = true ->
  forall y, strip y = strip (opsT ops ++ rest) -> not_first 58%N y -> ignored_qualifiers y = PErr.
Proof.
  intros Hs. assert (G : forallb opok ops = true -> all_apart ops = true ->
    forall y, strip y = strip (opsT ops ++ rest) -> not_first 58%N y ->
    exists r l, many0 qualifier y = POk r l /\ not_first 58%N r).
  { induction ops as [|o ops IH]; intros Ho Ha y Ey Hy.
    - exists y, []. split; [|exact Hy]. apply many0_nil.
      pose proof (follow_next [] rest Ho Ha Hs) as Hn. rewrite <- Ey in Hn.
      apply qualifier_none; [|now apply (next_not rest [])].
      apply allowed_list; [now apply (next_head rest [])|reflexivity].
    - pose proof (follow_next (o :: ops) rest Ho Ha Hs) as Hn. rewrite <- Ey in Hn.
      pose proof (apart_tl o ops Ha) as Ha'.
      assert (Ho' : forallb opok ops = true) by (cbn [forallb] in Ho; now apply andb_true_iff in Ho).
      pose proof (follow_next ops rest Ho' Ha' Hs) as Hn'. pose proof (apart_loose o ops Ha) as Hl.
      destruct (starts_cv (o :: ops)) eqn:Ec; [|destruct (starts_ref (o :: ops)) eqn:Er].
      + destruct o as [c| | | | |]; try discriminate Ec. apply next_cv_inv in Hn as [Hc Ez].
        pose proof (apart_cv c ops Ha) as Hac.
        destruct (IH Ho' Ha' (strip (opsT ops ++ rest))) as (r & l & Hm & Hr); [apply strip_strip|now apply (next_not rest ops)|].
        exists r, ((tt, tt) :: l). split; [|exact Hr]. eapply many0_cons; [| |exact Hm].
        * eapply qualifier_cv; [exact Ez|exact Hc|now apply follow_ends|].
          apply allowed_list; [now apply (next_head rest ops)|reflexivity].
        * pose proof (strip_length y) as L. rewrite Ez, app_length in L.
          pose proof (strip_length (opsT ops ++ rest)) as L'.
          destruct c as [[] []]; try discriminate Hc; cbn [cv_text of_string List.length] in L; lia.
      + destruct o as [| |b lay| | |]; try discriminate Er. apply next_ref_inv in Hn as Ez.
        destruct (IH Ho' Ha' (opsT ops ++ rest) eq_refl (follow_not_colon ops rest Hl Hs)) as (r & l & Hm & Hr).
        exists r, ((tt, tt) :: l). split; [|exact Hr]. eapply many0_cons; [| |exact Hm].
        * eapply qualifier_ref; [exact Ez|]. apply follow_not_amp; [exact Hl|exact Hs|exact (apart_ref b lay ops Ha)].
        * pose proof (strip_length y) as L. rewrite Ez, app_length in L. destruct b; cbn [of_string List.length] in L; lia.
      + exists y, []. split; [|exact Hy]. apply many0_nil.
        apply qualifier_none; [|now apply (next_not rest (o :: ops))].
        apply allowed_list; [now apply (next_head rest (o :: ops))|reflexivity]. }
  intros Ho Ha y Ey Hy. destruct (G Ho Ha y Ey Hy) as (r & l & Hm & Hr).
  unfold ignored_qualifiers. apply pvalue_err. eapply pand_err2; [exact Hm|]. now apply tag_scope_err.
Qed.
Lemma ignored_scope y : ignored_qualifiers ('"::" ++ y) = POk y tt.
Proof.
  unfold ignored_qualifiers. eapply pvalue_ok. eapply pand_ok; [|apply tag_ok]. apply many0_nil.
  apply qualifier_none; cbn [of_string app]; rewrite strip_char by reflexivity; [|discriminate].
  rewrite head_char by reflexivity. cbn. intuition discriminate.
Qed.
End Style.

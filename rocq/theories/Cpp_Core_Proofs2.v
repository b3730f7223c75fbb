(** Round trip of the core entities, part 2: how texts start. *)
From Coq Require Import Ascii String Permutation.
From Verif Require Import Base Cpp_Lex_Model Cpp_Ast_Model Cpp_Parse_Model Cpp_Lex_Spec
  Cpp_Display_Spec Cpp_Parse_Spec Cpp_Parse_Proofs Cpp_Parse_Proofs2 Cpp_Lex_Proofs Cpp_Lex_Proofs2
  Cpp_Lex_Proofs3 Cpp_Lex_Proofs4 Cpp_Lex_Proofs5 Cpp_Core_Spec Cpp_Core_Proofs.
Local Open Scope nat_scope.
Local Open Scope bool_scope.
Local Open Scope list_scope.
Local Notation "' s" := (of_string s) (at level 0, s at level 0).

Section Style.
Context {st : style}.

Definition opsT (ops : list cop) : str := concat (map optext ops).
Definition pathT (ss : list cscope) : str := concat (map stext ss).

(** neither `=` nor `>=` nor `>>=` and so on *)
Definition no_ge (s : str) : Prop := forall k r, s <> repeat 62%N k ++ 61%N :: r.
(** what may follow a type or a value *)
Definition stops (s : str) : Prop := s = [] \/ exists c r, s = c :: r /\ In c '",>)]".
Definition not_first (c : chr) (s : str) : Prop := forall r, s <> c :: r.

Lemma mem_iff w l : mem w l = true <-> In w l.
Proof.
  unfold mem. rewrite existsb_exists. split.
  - intros (x & H & E). apply str_eqb_eq in E. now subst.
  - intros H. exists w. split; [exact H|apply str_eqb_refl].
Qed.
Lemma name_ok_iff w : name_ok w = true <-> word w /\ ~ In w reserved.
Proof. unfold name_ok. rewrite andb_true_iff, is_word_iff, negb_true_iff, <- mem_iff. now destruct (mem w reserved). Qed.

Lemma ends_char c s : is_id_continue c = false -> word_ends (c :: s).
Proof. intros H. now apply word_ends_iff. Qed.
Lemma no_ge_char c s : c <> 62%N -> c <> 61%N -> no_ge (c :: s).
Proof. intros H1 H2 [|k] r E; cbn [repeat app] in E; injection E as E _; congruence. Qed.
Lemma no_ge_nil : no_ge [].
Proof. intros [|k] r E; discriminate E. Qed.
Lemma no_ge_gt s : no_ge s -> no_ge (62%N :: s).
Proof. intros H [|k] r E; cbn [repeat app] in E; [discriminate|]. injection E as E. now apply (H k r). Qed.
Lemma not_white_char c s : is_space c = false -> not_white (c :: s).
Proof. intros H. now apply not_white_iff. Qed.

Lemma stops_ends s : stops s -> word_ends s.
Proof.
  intros [->|(c & r & -> & H)]; apply word_ends_iff; [exact I|]. cbn in H.
  repeat (destruct H as [<-|H]; [reflexivity|]). destruct H.
Qed.
Lemma stops_not_white s : stops s -> not_white s.
Proof.
  intros [->|(c & r & -> & H)]; apply not_white_iff; [exact I|]. cbn in H.
  repeat (destruct H as [<-|H]; [reflexivity|]). destruct H.
Qed.
Lemma stops_strip s : stops s -> strip s = s.
Proof. intros H. now apply strip_id, stops_not_white. Qed.
Lemma stops_not_first c s : stops s -> ~ In c '",>)]" -> not_first c s.
Proof. intros [->|(c' & r & -> & H)] Hc r' E; [discriminate|]. injection E as <- _. contradiction. Qed.

(** ** Words at the start *)
Definition allowed (h : str) : Prop := h = '"operator" \/ h = '"decltype" \/ ~ In h reserved.
Lemma nil_allowed : allowed [].
Proof. right. right. intros H. apply mem_iff in H. discriminate. Qed.
Lemma allowed_list h l : allowed h -> forallb (fun w => mem w reserved && negb (mem w ['"operator"; '"decltype"])) l = true ->
  ~ In h l.
Proof.
  intros Ha Hl Hi. rewrite forallb_forall in Hl. apply Hl in Hi. apply andb_true_iff in Hi as [H1 H2].
  apply mem_iff in H1. apply negb_true_iff in H2. destruct Ha as [->|[->|H]]; [discriminate|discriminate|contradiction].
Qed.

Lemma oper_ends op y : word_ends (oper_text op ++ y).
Proof. destruct op as [s [] []|[]| | | |[]|[]| |w]; try destruct s; now apply word_ends_iff. Qed.

Lemma bare_shift_oper i : negb (is_operator i) = true -> negb (bare_shift i) = true.
Proof. now destruct i. Qed.

(** what is needed of the text of a name *)
Definition starts_well (s : str) : Prop := allowed (head s) /\ not_white s /\ not_first 60%N s /\ not_first 38%N s /\ not_first 45%N s /\ s <> [].
Lemma starts_char c s : is_id_start c = false -> is_space c = false -> c <> 60%N -> c <> 38%N -> c <> 45%N -> starts_well (c :: s).
Proof.
  intros H1 H2 H3 H4 H5. split; [rewrite head_char by exact H1; apply nil_allowed|].
  split; [now apply not_white_char|]. repeat split; try discriminate; intros r E; injection E as E _; congruence.
Qed.
Lemma starts_word w x : word w -> word_ends x -> allowed w -> starts_well (w ++ x).
Proof.
  intros H1 H2 H3. split; [rewrite head_word by assumption; exact H3|]. split; [now apply word_no_white|].
  destruct H1 as (c & r & -> & Hc & _). apply id_start_iff in Hc.
  repeat split; try discriminate; intros r' E; injection E as -> _; discriminate.
Qed.

Lemma id_starts i x : idok i = true -> word_ends x -> starts_well (idtext i ++ x) /\ not_first 58%N (idtext i ++ x).
Proof.
  intros Hi Hx. destruct i as [d w tp|op tp|v|u w l|l|m|f m]; cbn [idtext].
  - cbn [idok] in Hi. apply andb_true_iff in Hi as [Hw _]. apply name_ok_iff in Hw as [Hw Hr].
    destruct d; cbn [app].
    + split; [now apply starts_char|discriminate].
    + rewrite <- app_assoc. split.
      * apply starts_word; [exact Hw| |now right; right]. destruct tp; cbn [opt_text app]; [now apply ends_char|exact Hx].
      * destruct Hw as (c & r & -> & Hc & _). apply id_start_iff in Hc. intros r' E. injection E as -> _. discriminate.
  - rewrite <- !app_assoc. split; [|discriminate]. apply starts_word; [now apply is_word_iff|apply oper_ends|now left].
  - change ('"decltype(") with ('"decltype" ++ '"("). rewrite <- !app_assoc. split; [|discriminate].
    apply starts_word; [now apply is_word_iff|now apply ends_char|right; now left].
  - destruct (mark u); (split; [now apply starts_char|discriminate]).
  - split; [now apply starts_char|discriminate].
  - split; [now apply starts_char|discriminate].
  - split; [now apply starts_char|discriminate].
Qed.
Lemma sig_first f : exists r, sigtext f = 40%N :: r.
Proof. destruct f. cbn. eauto. Qed.
Lemma scope_tail_ends (f : option csig) y : word_ends (opt_text sigtext f ++ '"::" ++ y).
Proof. destruct f as [f|]; cbn [opt_text app]; [destruct (sig_first f) as [r ->]|]; now apply ends_char. Qed.
Lemma scope_starts s y : sok s = true -> starts_well (stext s ++ y) /\ not_first 58%N (stext s ++ y).
Proof.
  destruct s as [i f]. cbn [sok stext]. intros H. rewrite !andb_true_iff in H. destruct H as [[H _] _].
  rewrite <- !app_assoc. apply id_starts; [exact H|]. apply scope_tail_ends.
Qed.
Lemma path_starts ss y : forallb sok ss = true -> ss <> [] -> starts_well (pathT ss ++ y) /\ not_first 58%N (pathT ss ++ y).
Proof.
  destruct ss as [|s ss]; [congruence|]. cbn [forallb]. rewrite andb_true_iff. intros [H _] _.
  unfold pathT. cbn [map concat]. rewrite <- app_assoc. now apply scope_starts.
Qed.
Lemma name_starts n x : nok n = true -> word_ends x -> starts_well (ntext n ++ x).
Proof.
  destruct n as [rooted ss i]. cbn [nok ntext]. rewrite !andb_true_iff. intros [[H1 _] H2] Hx.
  destruct rooted; [now apply starts_char|]. cbn [app]. rewrite <- app_assoc.
  destruct ss as [|s ss]; [now apply id_starts|]. now apply path_starts.
Qed.

(** ** What follows in a declarator *)
Definition starts_cv (ops : list cop) : bool := match ops with CCv _ :: _ => true | _ => false end.
Definition starts_ref (ops : list cop) : bool := match ops with CRef _ _ :: _ => true | _ => false end.
Definition starts_fun (ops : list cop) : bool := match ops with CFun _ _ :: _ => true | _ => false end.
Definition first_loose (ops : list cop) : bool := forallb loose (firstn 1 ops).
Lemma apart_loose o ops : all_apart (o :: ops) = true -> first_loose ops = true.
Proof.
  destruct ops as [|a ops]; [reflexivity|]. cbn [all_apart first_loose firstn forallb]. rewrite !andb_true_iff. tauto.
Qed.
Lemma mark_false : mark false = false.
Proof. apply andb_false_r. Qed.
Lemma loose_mark s ss c r l : loose (CPtr (s :: ss) c r l) = true -> mark (l_tight l) = false.
Proof. cbn [loose]. intros H. apply negb_true_iff in H. rewrite H. apply mark_false. Qed.
Lemma strip_spaced b s : strip (space b ++ s) = strip s.
Proof. destruct b; [apply strip_space|reflexivity]. Qed.

Lemma opsT_cons o ops y : opsT (o :: ops) ++ y = optext o ++ opsT ops ++ y.
Proof. unfold opsT. cbn [map concat]. now rewrite <- app_assoc. Qed.
Lemma spaced_first b d s : In d '" *&[(" -> exists c r, space b ++ d :: s = c :: r /\ In c '" *&[(".
Proof. intros H. destruct b; (eexists _, _; split; [reflexivity|]); [cbn; tauto|exact H]. Qed.
Lemma op_first o y : loose o = true -> exists c r, optext o ++ y = c :: r /\ In c '" *&[(" .
Proof.
  intros Hl. destruct o as [c|[|s ss] c r l|b l|v l|f l|ops]; cbn [optext].
  - eexists _, _. split; [reflexivity|cbn; tauto].
  - rewrite <- !app_assoc. apply spaced_first. cbn. tauto.
  - rewrite (loose_mark _ _ _ _ _ Hl). eexists _, _. split; [reflexivity|cbn; tauto].
  - rewrite <- app_assoc. destruct b; apply spaced_first; cbn; tauto.
  - rewrite <- app_assoc. apply spaced_first. cbn. tauto.
  - destruct (sig_first f) as [r ->]. rewrite <- app_assoc. apply spaced_first. cbn. tauto.
  - eexists _, _. split; [reflexivity|cbn; tauto].
Qed.
Lemma follow_first ops rest : first_loose ops = true -> stops rest ->
  stops (opsT ops ++ rest) \/ exists c r, opsT ops ++ rest = c :: r /\ In c '" *&[(".
Proof.
  intros Hl H. destruct ops as [|o ops]; [now left|right]. rewrite opsT_cons. apply op_first.
  cbn [first_loose firstn forallb] in Hl. now rewrite andb_true_r in Hl.
Qed.
Lemma follow_ends ops rest : first_loose ops = true -> stops rest -> word_ends (opsT ops ++ rest).
Proof.
  intros Hl H. destruct (follow_first ops rest Hl H) as [Hs|(c & r & -> & Hc)]; [now apply stops_ends|].
  apply ends_char. cbn in Hc. repeat (destruct Hc as [<-|Hc]; [reflexivity|]). destruct Hc.
Qed.
Lemma follow_no_ge ops rest : first_loose ops = true -> stops rest -> no_ge rest -> no_ge (opsT ops ++ rest).
Proof.
  intros Hl H Hg. destruct ops as [|o ops]; [exact Hg|]. rewrite opsT_cons.
  destruct (op_first o (opsT ops ++ rest)) as (c & r & -> & Hc).
  - cbn [first_loose firstn forallb] in Hl. now rewrite andb_true_r in Hl.
  - apply no_ge_char; intros ->; cbn in Hc; intuition discriminate.
Qed.
Lemma follow_no_paren ops rest : first_loose ops = true -> stops rest -> starts_fun ops = false -> not_first 40%N (opsT ops ++ rest).
Proof.
  intros Hl H Hf. destruct ops as [|o ops].
  - apply stops_not_first; [exact H|]. cbn. intuition discriminate.
  - rewrite opsT_cons. cbn [first_loose firstn forallb] in Hl. rewrite andb_true_r in Hl.
    intros r. destruct o as [c|[|s ss] c r' l|b l|v l|f l|o']; try discriminate; cbn [optext].
    + destruct (mark (l_before l)); discriminate.
    + rewrite (loose_mark _ _ _ _ _ Hl). discriminate.
    + destruct b, (mark (l_before l)); discriminate.
    + destruct (mark (l_before l)); discriminate.
Qed.

(** The text that follows, without white space *)
Inductive next (rest : str) : list cop -> str -> Prop :=
| next_end : stops rest -> next rest [] rest
| next_cv c ops : no_cv c = false -> next rest (CCv c :: ops) (cv_text c ++ opsT ops ++ rest)
| next_ref b l ops : next rest (CRef b l :: ops) ((if b then '"&&" else '"&") ++ opsT ops ++ rest)
| next_ptr c r l ops z : next rest (CPtr [] c r l :: ops) (42%N :: z)
| next_path p c r l ops z : p <> [] -> forallb sok p = true -> next rest (CPtr p c r l :: ops) (pathT p ++ z)
| next_arr v l ops z : next rest (CArr v l :: ops) (91%N :: z)
| next_fun f l ops z : next rest (CFun f l :: ops) (40%N :: z)
| next_paren o ops z : next rest (CParen o :: ops) (40%N :: z).
Lemma follow_next ops rest : forallb opok ops = true -> all_apart ops = true -> stops rest -> next rest ops (strip (opsT ops ++ rest)).
Proof.
  intros Ho Ha Hs. destruct ops as [|o ops]; [cbn; rewrite stops_strip by exact Hs; now constructor|].
  apply apart_loose in Ha.
  cbn [forallb] in Ho. apply andb_true_iff in Ho as [Ho _]. rewrite opsT_cons.
  destruct o as [c|[|s ss] c r l|b l|v l|f l|o']; cbn [optext].
  - cbn [opok] in Ho. apply negb_true_iff in Ho.
    change (('" " ++ cv_text c) ++ opsT ops ++ rest) with (32%N :: cv_text c ++ opsT ops ++ rest).
    rewrite strip_space, strip_id; [now constructor|].
    now apply cv_head; [apply follow_ends|].
  - rewrite <- ?app_assoc. rewrite strip_spaced. cbn [of_string app]. rewrite strip_char by reflexivity. constructor.
  - cbn [opok] in Ho. rewrite !andb_true_iff in Ho. destruct Ho as [[Ho _] _].
    rewrite <- !app_assoc. rewrite strip_spaced. fold (pathT (s :: ss)). rewrite strip_id; [now constructor|].
    now apply path_starts.
  - rewrite <- app_assoc, strip_spaced.
    replace (strip _) with ((if b then '"&&" else '"&") ++ opsT ops ++ rest); [constructor|].
    destruct b; cbn [of_string app]; now rewrite strip_char.
  - rewrite <- !app_assoc, strip_spaced. cbn [of_string app]. rewrite strip_char by reflexivity. constructor.
  - rewrite <- app_assoc, strip_spaced. destruct (sig_first f) as [r ->]. cbn [app]. rewrite strip_char by reflexivity. constructor.
  - change ((('" (" ++ concat (map optext o') ++ '")") ++ opsT ops ++ rest))
      with (32%N :: 40%N :: (concat (map optext o') ++ '")") ++ opsT ops ++ rest).
    rewrite strip_space, strip_char by reflexivity. constructor.
Qed.

Lemma next_head rest ops z : next rest ops z -> starts_cv ops = false -> allowed (head z).
Proof.
  intros [H|c o Hc|b l o|c r l o z'|p c r l o z' Hp Hs|v l o z'|f l o z'|o' o z'] Hn; try discriminate;
    try (rewrite head_char by reflexivity; apply nil_allowed).
  - rewrite head_ends by now apply stops_ends. apply nil_allowed.
  - destruct b; cbn [of_string app]; (rewrite head_char by reflexivity; apply nil_allowed).
  - now apply path_starts.
Qed.
Lemma next_head_cv rest ops z : stops rest -> all_apart ops = true -> next rest ops z -> allowed (head z) \/ In (head z) cvw.
Proof.
  intros Hs Ha H. destruct (starts_cv ops) eqn:E; [right|left; now apply (next_head rest ops)].
  destruct ops as [|[c| | | | |] ops]; try discriminate. inversion H; subst.
  apply cv_head; [apply follow_ends; [now apply (apart_loose (CCv c))|exact Hs]|assumption].
Qed.
Lemma next_not rest ops z : stops rest -> next rest ops z ->
  not_first 60%N z /\ not_first 45%N z /\ not_first 58%N z /\ (starts_ref ops = false -> not_first 38%N z).
Proof.
  intros Hst [H|c o Hc|b l o|c r l o z'|p c r l o z' Hp Hs|v l o z'|f l o z'|o' o z'].
  - repeat split; intros; (apply stops_not_first; [assumption|cbn; intuition discriminate]).
  - destruct c as [[] []]; try discriminate; repeat split; intros; discriminate.
  - destruct b; repeat split; intros; discriminate.
  - repeat split; intros; discriminate.
  - destruct (path_starts p z' Hs Hp) as [(_ & _ & H1 & H2 & H3 & _) H4]. auto.
  - repeat split; intros; discriminate.
  - repeat split; intros; discriminate.
  - repeat split; intros; discriminate.
Qed.

(** ** What may follow an unqualified name *)
Definition no_template (x : str) : Prop := exists r c, parse_cv (strip x) = POk r c /\ not_first 60%N r.
Definition after_id (x : str) : Prop := word_ends x /\ no_ge x /\ no_template x.

Lemma no_template_char c x : is_id_start c = false -> is_space c = false -> c <> 60%N -> no_template (c :: x).
Proof.
  intros H1 H2 H3. exists (c :: x), cv_default. rewrite strip_char by exact H2. split.
  - apply cv_none. rewrite head_char by exact H1. cbn. intuition discriminate.
  - intros r E. injection E as E _. congruence.
Qed.
Lemma after_char c x : is_id_continue c = false -> is_space c = false -> ~ In c '"<>=" -> after_id (c :: x).
Proof.
  intros H1 H2 H3. split; [now apply ends_char|]. split.
  - apply no_ge_char; intros ->; apply H3; cbn; tauto.
  - apply no_template_char; [|exact H2|intros ->; apply H3; cbn; tauto].
    unfold is_id_continue in H1. now apply orb_false_iff in H1.
Qed.
Lemma apart_tail o ops : all_apart (o :: ops) = true -> all_apart ops = true.
Proof. destruct ops as [|a ops]; [reflexivity|]. cbn [all_apart]. rewrite !andb_true_iff. tauto. Qed.
Lemma follow_no_template ops rest : forallb opok ops = true -> all_apart ops = true -> stops rest ->
  no_template (opsT ops ++ rest).
Proof.
  intros Ho Ha Hs. pose proof (follow_next ops rest Ho Ha Hs) as Hn. unfold no_template.
  remember (strip (opsT ops ++ rest)) as z eqn:Ez. clear Ez.
  destruct (starts_cv ops) eqn:E.
  - destruct ops as [|[c| | | | |] ops]; try discriminate. inversion Hn as [|c' o Hc| | | | | |]; subst.
    pose proof (apart_tail _ _ Ha) as Ha'. pose proof (apart_loose _ _ Ha) as Hl.
    cbn [forallb] in Ho. apply andb_true_iff in Ho as [_ Ho]. pose proof (follow_next ops rest Ho Ha' Hs) as Hn'.
    exists (strip (opsT ops ++ rest)), c. split; [|now apply (next_not rest ops)].
    apply cv_ok; [assumption|now apply follow_ends|].
    assert (Hc' : starts_cv ops = false) by (destruct ops as [|[] ops]; [reflexivity|discriminate Ha|reflexivity..]).
    apply allowed_list; [|reflexivity]. now apply (next_head rest ops).
  - exists z, cv_default. split; [|now apply (next_not rest ops)].
    apply cv_none. apply allowed_list; [|reflexivity]. now apply (next_head rest ops).
Qed.
Lemma follow_after ops rest : forallb opok ops = true -> all_apart ops = true -> first_loose ops = true -> stops rest -> no_ge rest ->
  after_id (opsT ops ++ rest).
Proof.
  intros Ho Ha Hl Hs Hg. split; [now apply follow_ends|]. split; [now apply follow_no_ge|]. now apply follow_no_template.
Qed.

(** ** Starts of types and values *)
Definition keyw : list str := map key_word [KTypename; KClass; KStruct; KEnum; KUnion].
Definition typew : list str := cvw ++ legw ++ '"auto" :: keyw.
Lemma key_in k : In (key_word k) keyw.
Proof. destruct k; cbn; tauto. Qed.
Lemma key_is_word k : word (key_word k).
Proof. apply is_word_iff. now destruct k. Qed.
Lemma base_starts b y : bok b = true -> word_ends y ->
  (allowed (head (btext b ++ y)) \/ In (head (btext b ++ y)) (legw ++ '"auto" :: keyw)) /\ not_white (btext b ++ y).
Proof.
  intros Hb He. destruct b as [n|u|k n]; cbn [btext bok] in *.
  - destruct (legacy_head n y He) as [H1 H2]. split; [right; rewrite in_app_iff; tauto|exact H2].
  - change ('"auto:") with ('"auto" ++ '":"). rewrite <- !app_assoc.
    assert (W : word '"auto") by now apply is_word_iff.
    split; [|now apply word_no_white]. right. rewrite head_word; [|exact W|now apply ends_char].
    rewrite in_app_iff. cbn [In]. tauto.
  - destruct (name_starts n y Hb He) as (H1 & H2 & _). destruct k as [k|]; cbn [opt_text]; [|cbn [app]; auto].
    destruct (mark true); [|cbn [app]; auto]. rewrite <- !app_assoc.
    split; [|now apply word_no_white, key_is_word]. right. rewrite head_word; [|apply key_is_word|now apply ends_char].
    rewrite in_app_iff. right. right. apply key_in.
Qed.
(** without what an operator needs after its name *)
Definition tok_body (t : ctype) : bool :=
  match t with CType c b ops => bok b && forallb opok ops && all_apart ops && forallb loose (firstn 1 ops) && fewer ops 8 end.
Lemma tok_has_body t : tok t = true -> tok_body t = true.
Proof. destruct t. cbn [tok tok_body]. now intros [H _]%andb_true_iff. Qed.
Lemma alone_has_body t : core_ok t = true -> tok_body t = true.
Proof.
  unfold core_ok. intros [H|H]%orb_true_iff; [now apply tok_has_body|].
  destruct t as [c b [|o ops]]; [|discriminate]. cbn [tok_body forallb all_apart firstn]. now rewrite H.
Qed.
Lemma type_starts_body t rest : tok_body t = true -> stops rest ->
  (allowed (head (ttext t ++ rest)) \/ In (head (ttext t ++ rest)) typew) /\
  not_white (ttext t ++ rest).
Proof.
  destruct t as [c b ops]. cbn [tok_body ttext]. rewrite !andb_true_iff. intros [[[[Hb Ho] _] Hl] _] Hs.
  rewrite <- !app_assoc. unfold typew. destruct (no_cv c) eqn:Hc; cbn [app].
  - destruct (base_starts b (opsT ops ++ rest) Hb (follow_ends ops rest Hl Hs)) as [[H|H] H']; [auto|].
    split; [right; rewrite in_app_iff; now right|exact H'].
  - rewrite <- ?app_assoc. assert (He : word_ends ('" " ++ btext b ++ opsT ops ++ rest)) by now apply ends_char.
    destruct (cv_head c _ He Hc) as [H1 H2]. split; [right; rewrite in_app_iff; now left|exact H2].
Qed.

Lemma type_starts t rest : tok t = true -> stops rest ->
  (allowed (head (ttext t ++ rest)) \/ In (head (ttext t ++ rest)) typew) /\
  not_white (ttext t ++ rest).
Proof. intros H. apply type_starts_body. now apply tok_has_body. Qed.

(** words that must not start what is between parentheses *)
Definition paren_words : list str := ['"anonymous"; '"unnamed"; '"lambda"; '"abi"].
Lemma type_no_paren_word t rest : tok t = true -> stops rest -> ~ In (head (ttext t ++ rest)) paren_words.
Proof.
  intros H Hs. destruct (type_starts t rest H Hs) as [[Ha|Hi] _].
  - now apply allowed_list.
  - intros Hp. cbn in Hp. repeat (destruct Hp as [Hp|Hp]; [rewrite <- Hp in Hi; apply mem_iff in Hi; discriminate Hi|]). exact Hp.
Qed.

Lemma show_int_first z : exists c r, show_int z = c :: r /\ (is_digit c = true \/ c = 45%N).
Proof.
  unfold show_int. destruct (shown_digits (Z.abs_N z)) as (ds & -> & [Hd1 Hd2] & _).
  destruct (z <? 0)%Z; cbn [of_string app]; [eexists _, _; split; [reflexivity|now right]|].
  destruct ds as [|d ds]; [congruence|]. inversion Hd2; subst. cbn [digits_text map].
  eexists _, _. split; [reflexivity|left; now apply digit_char].
Qed.
Lemma literal_first l : exists c r, show_literal printable l = c :: r /\ (is_digit c = true \/ c = 45%N \/ c = 39%N).
Proof.
  destruct l as [v o]. unfold show_literal. cbn [lit_value lit_suffix].
  destruct v as [z|z|c]; cbn [show_literal_value].
  - destruct (show_int_first z) as (c & r & -> & H). eexists _, _. split; [reflexivity|tauto].
  - destruct (show_int_first z) as (c & r & -> & H). eexists _, _. split; [reflexivity|tauto].
  - unfold debug_char. eexists _, _. split; [reflexivity|tauto].
Qed.
Lemma digit_plain c : is_digit c = true -> is_id_start c = false /\ is_space c = false /\ ~ In c '"({~:.&*![]<>,)".
Proof.
  intros H. apply is_digit_cases in H as (d & -> & Hd).
  assert (D : (d = 0 \/ d = 1 \/ d = 2 \/ d = 3 \/ d = 4 \/ d = 5 \/ d = 6 \/ d = 7 \/ d = 8 \/ d = 9)%N) by lia.
  repeat (destruct D as [->|D]; [split; [reflexivity|split; [reflexivity|cbn; intuition discriminate]]|]).
  subst d. split; [reflexivity|split; [reflexivity|cbn; intuition discriminate]].
Qed.

Definition afterT (ts : list cafter) : str := concat (map atext ts).
Lemma afterT_cons t ts y : afterT (t :: ts) ++ y = atext t ++ afterT ts ++ y.
Proof. unfold afterT. cbn [map concat]. now rewrite <- app_assoc. Qed.
(** the first character of what comes after a value *)
Lemma after_first t y : exists c r, atext t ++ y = c :: r /\ In c '"[(. -+".
Proof.
  destruct t as [v|args|i| |up|op v|v w]; try (eexists _, _; split; [reflexivity|cbn; tauto]).
  { destruct up; (eexists _, _; split; [reflexivity|cbn; tauto]). }
  destruct op as [s tw e|[]|]; (eexists _, _; split; [reflexivity|cbn; tauto]).
Qed.
Lemma after_ends ts y : word_ends y -> word_ends (afterT ts ++ y).
Proof.
  intros H. destruct ts as [|t ts]; [exact H|]. rewrite afterT_cons. destruct (after_first t (afterT ts ++ y)) as (c & r & -> & Hc).
  apply ends_char. cbn in Hc. repeat (destruct Hc as [<-|Hc]; [reflexivity|]). destruct Hc.
Qed.
Definition is_expr (v : cvalue) : bool := match v with CExpr _ _ => true | _ => false end.
Lemma expr_header v ts : vok (CExpr v ts) = true -> vok v = true /\ is_expr v = false.
Proof.
  cbn [vok]. rewrite !andb_true_iff. intros [[[[[[Hv _] _] _] _] _] H]. split; [exact Hv|]. now destruct v.
Qed.
Lemma header_starts v x : vok v = true -> is_expr v = false -> word_ends x ->
  allowed (head (vtext v ++ x)) /\ not_white (vtext v ++ x).
Proof.
  intros Hv Hh Hx. destruct v as [l|n|s v|up v|t v|v|b t|v ts]; try discriminate Hh; cbn [vtext].
  - destruct (literal_first l) as (c & r & -> & H). cbn [app].
    assert (P : is_id_start c = false /\ is_space c = false)
      by (destruct H as [H|[->| ->]]; [apply digit_plain in H; tauto|now split|now split]).
    destruct P as [P1 P2]. split; [rewrite head_char by exact P1; apply nil_allowed|now apply not_white_char].
  - cbn [vok] in Hv. rewrite !andb_true_iff in Hv. destruct Hv as [[Hv _] _].
    destruct (name_starts n x Hv Hx) as (H1 & H2 & _). auto.
  - cbn [vok] in Hv. apply andb_true_iff in Hv as [_ Hs].
    destruct s; try discriminate; cbn [show_sym of_string app];
      (split; [rewrite head_char by reflexivity; apply nil_allowed|now apply not_white_char]).
  - destruct up; cbn [step_text of_string app];
      (split; [rewrite head_char by reflexivity; apply nil_allowed|now apply not_white_char]).
  - cbn [of_string app]. split; [rewrite head_char by reflexivity; apply nil_allowed|now apply not_white_char].
  - cbn [of_string app]. split; [rewrite head_char by reflexivity; apply nil_allowed|now apply not_white_char].
  - rewrite <- !app_assoc.
    assert (W : word (if b then '"declval" else '"sizeof")) by (apply is_word_iff; now destruct b).
    split; [|now apply word_no_white]. rewrite head_word; [|exact W|now apply ends_char].
    right. right. intros H. apply mem_iff in H. destruct b; discriminate.
Qed.
Lemma value_starts v x : vok v = true -> word_ends x ->
  allowed (head (vtext v ++ x)) /\ not_white (vtext v ++ x).
Proof.
  intros Hv Hx. destruct (is_expr v) eqn:Ev; [|now apply header_starts].
  destruct v as [l|n|s v|up v|t v|v|b t|v ts]; try discriminate Ev. destruct (expr_header v ts Hv) as [Hh He].
  cbn [vtext]. rewrite <- app_assoc. fold (afterT ts). apply header_starts; [exact Hh|exact He|now apply after_ends].
Qed.
Lemma value_no_paren_word v x : vok v = true -> word_ends x -> ~ In (head (vtext v ++ x)) paren_words.
Proof. intros H Hs. destruct (value_starts v x H Hs) as [Ha _]. now apply allowed_list. Qed.
End Style.

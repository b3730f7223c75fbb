(** Round trip of the core entities, part 1: combinators and words. *)
From Coq Require Import Ascii String Permutation.
From Verif Require Import Base Cpp_Lex_Model Cpp_Ast_Model Cpp_Parse_Model Cpp_Lex_Spec
  Cpp_Display_Spec Cpp_Parse_Spec Cpp_Parse_Proofs Cpp_Parse_Proofs2 Cpp_Lex_Proofs Cpp_Lex_Proofs2
  Cpp_Lex_Proofs3 Cpp_Lex_Proofs4 Cpp_Lex_Proofs5 Cpp_Core_Spec.
Local Open Scope nat_scope.
Local Open Scope bool_scope.
Local Open Scope list_scope.
Local Notation "' s" := (of_string s) (at level 0, s at level 0).

(** ** Combinators, forwards *)
Section Combinators.
  Context {A B C : Type}.
  Variables (p : parser A) (q : parser B) (t : parser C).

  Lemma pmap_ok (f : A -> B) s r a : p s = POk r a -> pmap f p s = POk r (f a).
  Proof. unfold pmap. now intros ->. Qed.
  Lemma pmap_err (f : A -> B) s : p s = PErr -> pmap f p s = PErr.
  Proof. unfold pmap. now intros ->. Qed.
  Lemma pvalue_ok (b : B) s r a : p s = POk r a -> pvalue b p s = POk r b.
  Proof. unfold pvalue, pmap. now intros ->. Qed.
  Lemma pvalue_err (b : B) s : p s = PErr -> pvalue b p s = PErr.
  Proof. unfold pvalue, pmap. now intros ->. Qed.
  Lemma pand_ok s r a r' b : p s = POk r a -> q r = POk r' b -> pand p q s = POk r' (a, b).
  Proof. unfold pand. intros -> H. cbn [pbind]. now rewrite H. Qed.
  Lemma pand_err1 s : p s = PErr -> pand p q s = PErr.
  Proof. unfold pand. now intros ->. Qed.
  Lemma pand_err2 s r a : p s = POk r a -> q r = PErr -> pand p q s = PErr.
  Proof. unfold pand. intros -> H. cbn [pbind]. now rewrite H. Qed.
  Lemma terminated_ok s r a r' b : p s = POk r a -> q r = POk r' b -> terminated p q s = POk r' a.
  Proof. unfold terminated, pmap, pand. intros -> H. cbn [pbind]. now rewrite H. Qed.
  Lemma terminated_err1 s : p s = PErr -> terminated p q s = PErr.
  Proof. unfold terminated, pmap, pand. now intros ->. Qed.
  Lemma terminated_err2 s r a : p s = POk r a -> q r = PErr -> terminated p q s = PErr.
  Proof. unfold terminated, pmap, pand. intros -> H. cbn [pbind]. now rewrite H. Qed.
  Lemma preceded_ok s r a r' b : p s = POk r a -> q r = POk r' b -> preceded p q s = POk r' b.
  Proof. unfold preceded, pmap, pand. intros -> H. cbn [pbind]. now rewrite H. Qed.
  Lemma preceded_err1 s : p s = PErr -> preceded p q s = PErr.
  Proof. unfold preceded, pmap, pand. now intros ->. Qed.
  Lemma preceded_err2 s r a : p s = POk r a -> q r = PErr -> preceded p q s = PErr.
  Proof. unfold preceded, pmap, pand. intros -> H. cbn [pbind]. now rewrite H. Qed.
  Lemma delimited_ok s r a r' b r'' c : p s = POk r a -> q r = POk r' b -> t r' = POk r'' c ->
    delimited p q t s = POk r'' b.
  Proof.
    unfold delimited, preceded, terminated, pmap, pand. intros -> H H'. cbn [pbind]. rewrite H. cbn [pbind].
    now rewrite H'.
  Qed.
  Lemma delimited_err1 s : p s = PErr -> delimited p q t s = PErr.
  Proof. unfold delimited, preceded, pmap, pand. now intros ->. Qed.
  Lemma delimited_err2 s r a : p s = POk r a -> q r = PErr -> delimited p q t s = PErr.
  Proof. unfold delimited, preceded, terminated, pmap, pand. intros -> H. cbn [pbind]. now rewrite H. Qed.
  Lemma delimited_err3 s r a r' b : p s = POk r a -> q r = POk r' b -> t r' = PErr -> delimited p q t s = PErr.
  Proof.
    unfold delimited, preceded, terminated, pmap, pand. intros -> H H'. cbn [pbind]. rewrite H. cbn [pbind].
    now rewrite H'.
  Qed.
  Lemma separated_pair_ok s r a r' b r'' c : p s = POk r a -> q r = POk r' b -> t r' = POk r'' c ->
    separated_pair p q t s = POk r'' (a, c).
  Proof.
    unfold separated_pair, preceded, pmap, pand. intros -> H H'. cbn [pbind]. rewrite H. cbn [pbind].
    now rewrite H'.
  Qed.
  Lemma opt_ok_eq s r a : p s = POk r a -> opt p s = POk r (Some a).
  Proof. unfold opt. now intros ->. Qed.
  Lemma opt_err_eq s : p s = PErr -> opt p s = POk s None.
  Proof. unfold opt. now intros ->. Qed.
  Lemma map_opt_ok (f : A -> option B) s r a b : p s = POk r a -> f a = Some b -> map_opt p f s = POk r b.
  Proof. unfold map_opt. intros -> H. cbn [pbind]. now rewrite H. Qed.
  Lemma map_opt_none (f : A -> option B) s r a : p s = POk r a -> f a = None -> map_opt p f s = PErr.
  Proof. unfold map_opt. intros -> H. cbn [pbind]. now rewrite H. Qed.
  Lemma map_opt_err (f : A -> option B) s : p s = PErr -> map_opt p f s = PErr.
  Proof. unfold map_opt. now intros ->. Qed.
  Lemma verify_ok (f : A -> bool) s r a : p s = POk r a -> f a = true -> verify p f s = POk r a.
  Proof. unfold verify, map_opt. intros -> H. cbn [pbind]. now rewrite H. Qed.
  Lemma verify_no (f : A -> bool) s r a : p s = POk r a -> f a = false -> verify p f s = PErr.
  Proof. unfold verify, map_opt. intros -> H. cbn [pbind]. now rewrite H. Qed.
  Lemma verify_err (f : A -> bool) s : p s = PErr -> verify p f s = PErr.
  Proof. unfold verify, map_opt. now intros ->. Qed.
End Combinators.
Lemma por_ok {A} (p q : parser A) s r a : p s = POk r a -> por p q s = POk r a.
Proof. unfold por. now intros ->. Qed.
Lemma por_next {A} (p q : parser A) s : p s = PErr -> por p q s = q s.
Proof. unfold por. now intros ->. Qed.

Lemma tag_ok t r : tag t (of_string t ++ r) = POk r tt.
Proof.
  unfold tag. assert (E : strip_tag (of_string t) (of_string t ++ r) = Some r) by now apply strip_tag_spec.
  now rewrite E.
Qed.
Lemma tag_err t s : (forall r, s <> of_string t ++ r) -> tag t s = PErr.
Proof.
  unfold tag. intros H. destruct (strip_tag (of_string t) s) as [r|] eqn:E; [|reflexivity].
  apply strip_tag_spec in E. now elim (H r).
Qed.

(** ** White space *)
Definition strip (s : str) : str := snd (span is_space s).
Lemma ms0 s : multispace0 s = POk (strip s) tt.
Proof. reflexivity. Qed.
Lemma strip_split s : exists sp, s = sp ++ strip s /\ Forall white sp.
Proof.
  exists (fst (span is_space s)). destruct (span_spec is_space s) as (E & H & _). split; [exact E|].
  now apply (forallb_of_Forall _ _ _ space_iff) in H.
Qed.
Lemma strip_not_white s : not_white (strip s).
Proof. apply not_white_iff. destruct (span_spec is_space s) as (_ & _ & H). exact H. Qed.
Lemma strip_id s : not_white s -> strip s = s.
Proof.
  intros H. apply not_white_iff in H. unfold strip. destruct s as [|c s]; [reflexivity|].
  cbn in *. now rewrite H.
Qed.
Lemma strip_strip s : strip (strip s) = strip s.
Proof. apply strip_id, strip_not_white. Qed.
Lemma strip_space s : strip (32%N :: s) = strip s.
Proof. unfold strip. cbn [span]. change (is_space 32%N) with true. cbn iota. now destruct (span is_space s). Qed.
Lemma strip_char c s : is_space c = false -> strip (c :: s) = c :: s.
Proof. intros H. unfold strip. cbn [span]. now rewrite H. Qed.
Lemma strip_length s : List.length (strip s) <= List.length s.
Proof. destruct (strip_split s) as (sp & E & _). rewrite E at 2. rewrite app_length. lia. Qed.

(** ** The word at the start of a text *)
Definition head (s : str) : str := match identifier s with POk _ w => w | _ => [] end.
Lemma head_word w x : word w -> word_ends x -> head (w ++ x) = w.
Proof.
  intros H1 H2. unfold head. now rewrite (proj2 (identifier_iff (w ++ x) x w) (conj eq_refl (conj H1 H2))).
Qed.
Lemma head_cases s : (head s = [] /\ identifier s = PErr) \/
  exists x, identifier s = POk x (head s) /\ s = head s ++ x /\ word (head s) /\ word_ends x.
Proof.
  unfold head. destruct (identifier s) as [r w| | |] eqn:E.
  - right. exists r. split; [reflexivity|]. now apply identifier_iff in E.
  - now left.
  - destruct s as [|c s]; cbn in E; [discriminate|]. destruct (is_id_start c); [|discriminate].
    destruct (span is_id_continue s); discriminate.
  - destruct s as [|c s]; cbn in E; [discriminate|]. destruct (is_id_start c); [|discriminate].
    destruct (span is_id_continue s); discriminate.
Qed.
Lemma head_char c s : is_id_start c = false -> head (c :: s) = [].
Proof. intros H. unfold head. cbn [identifier]. now rewrite H. Qed.
Lemma head_ends s : word_ends s -> head s = [].
Proof.
  intros H. destruct s as [|c s]; [reflexivity|]. apply head_char. apply word_ends_iff in H.
  unfold is_id_continue in H. now apply orb_false_iff in H.
Qed.

Lemma is_word_iff w : is_word w = true <-> word w.
Proof.
  unfold is_word, word. destruct w as [|c r]; [split; [discriminate|intros (? & ? & ? & _); discriminate]|].
  rewrite andb_true_iff, id_start_iff, (forallb_of_Forall _ _ _ id_continue_iff).
  split; [intros [H1 H2]; eauto|intros (c' & r' & [= <- <-] & H); exact H].
Qed.
Lemma word_ne w : word w -> w <> [].
Proof. now intros (c & r & -> & _). Qed.
Lemma word_no_white w s : word w -> not_white (w ++ s).
Proof.
  intros (c & r & -> & H & _) c' r' [= <- <-] Hw. apply space_iff in Hw. apply id_start_iff in H.
  unfold is_space in Hw. rewrite !orb_true_iff, !N.eqb_eq in Hw. destruct Hw as [[[-> | ->] | ->] | ->]; discriminate.
Qed.
Lemma word_strip w s : word w -> strip (w ++ s) = w ++ s.
Proof. intros H. now apply strip_id, word_no_white. Qed.

(** keywords, when another word or none is at the start *)
Lemma head_no_keyword w s : word (of_string w) -> head s <> of_string w -> ~ starts_with_word w s.
Proof. intros Hw Hh (r & -> & Hr). apply Hh. now apply head_word. Qed.
Lemma head_no_tag w c t s : word w -> is_id_continue c = false -> of_string t = w ++ c :: skipn (S (List.length w)) (of_string t) ->
  head s <> w -> tag t s = PErr.
Proof.
  intros Hw Hc Et Hh. apply tag_err. intros r E. apply Hh. rewrite E, Et, <- app_assoc.
  apply head_word; [exact Hw|]. apply word_ends_iff. exact Hc.
Qed.

Definition words_list (l : list string) : bool := forallb is_word (map of_string l).
Lemma no_word_of l s : words_list l = true -> ~ In (head s) (map of_string l) ->
  forall w, In w l -> ~ starts_with_word w s.
Proof.
  intros Hl Hh w Hw. unfold words_list in Hl. rewrite forallb_forall in Hl.
  apply head_no_keyword.
  - apply is_word_iff, Hl. now apply in_map.
  - intros E. apply Hh. rewrite E. now apply in_map.
Qed.
Lemma keywords_head {O} (kws : list (string * O)) s :
  words_list (map fst kws) = true -> ~ In (head s) (map of_string (map fst kws)) ->
  keywords_parser kws s = PErr.
Proof.
  intros Hl Hh. apply keywords_err. intros k Hk. apply (no_word_of (map fst kws)); auto. now apply in_map.
Qed.
Lemma keyword_head w s : word (of_string w) -> head s <> of_string w -> keyword_parser w s = PErr.
Proof. intros Hw Hh. apply keyword_err. now apply head_no_keyword. Qed.

(** ** Lists of words followed by white space *)
Lemma spaced_then_strip vocabulary ws y :
  Forall (fun w => of_string w <> [] /\ Forall can_continue_word (of_string w)) vocabulary ->
  Forall (fun w => In w vocabulary) ws -> ws <> [] -> word_ends y ->
  (forall w, In w vocabulary -> ~ starts_with_word w (strip y)) ->
  words_then vocabulary ws (spaced ws ++ y) (strip y).
Proof.
  intros Hv Hw Hne He Hr. induction Hw as [|w ws Hw Hws IH]; [congruence|].
  destruct ws as [|w' ws].
  - cbn [spaced]. destruct (strip_split y) as (sp & E & Hsp).
    replace (of_string w ++ y) with (of_string w ++ sp ++ strip y) by now rewrite <- E.
    apply words_next; auto using strip_not_white; [now rewrite <- E|]. now constructor.
  - change (spaced (w :: w' :: ws)) with (of_string w ++ [32%N] ++ spaced (w' :: ws)).
    rewrite <- !app_assoc. assert (Hsp : Forall white [32%N]) by (constructor; [now left|constructor]).
    apply words_next; auto.
    + apply (ends_white [32%N]); auto. discriminate.
    + inversion Hws as [|? ? Hw' _]; subst. rewrite Forall_forall in Hv. destruct (Hv w' Hw') as [H1 H2].
      destruct ws; cbn [spaced]; rewrite <- ?app_assoc; now apply not_white_letter.
    + apply IH. discriminate.
Qed.

Definition cvw : list str := map of_string cv_words.
Definition legw : list str := map of_string legacy_words.

Lemma cv_text_show c : cv_text c = show_cv c.
Proof. now destruct c as [[] []]. Qed.
Lemma no_cv_default c : no_cv c = cv_is_default c.
Proof. now destruct c as [[] []]. Qed.
Lemma no_cv_eq c : no_cv c = true -> c = cv_default.
Proof. now destruct c as [[] []]. Qed.

Lemma cv_ok c y : no_cv c = false -> word_ends y -> ~ In (head (strip y)) cvw ->
  parse_cv (cv_text c ++ y) = POk (strip y) c.
Proof.
  intros Hc He Hh.
  set (ws := (if is_const c then ["const"%string] else []) ++
             (if is_volatile c then ["volatile"%string] else [])).
  assert (E : cv_text c = spaced ws) by (destruct c as [[] []]; reflexivity).
  rewrite E. destruct (cv_meaning ws (spaced ws ++ y) (strip y)) as (c' & -> & H1 & H2).
  - apply spaced_then_strip; auto using cv_vocabulary.
    + apply Forall_forall. subst ws. destruct c as [[] []]; cbn; tauto.
    + subst ws. destruct c as [[] []]; discriminate.
    + now apply (no_word_of cv_words).
  - f_equal. subst ws. clear Hh E He. destruct c as [[] []], c' as [[] []]; cbn in *; try reflexivity; exfalso; intuition (congruence || discriminate).
Qed.
Lemma cv_none y : ~ In (head y) cvw -> parse_cv y = POk y cv_default.
Proof.
  intros Hh. destruct (cv_meaning [] y y) as (c & -> & H1 & H2).
  - constructor. now apply (no_word_of cv_words).
  - f_equal. destruct c as [[] []]; cbn in *; try reflexivity; exfalso; intuition.
Qed.
Lemma cv_head c y : word_ends y -> no_cv c = false -> In (head (cv_text c ++ y)) cvw /\ not_white (cv_text c ++ y).
Proof.
  intros He Hc. destruct c as [[] []]; try discriminate Hc; cbn [cv_text].
  - change ('"const volatile") with ('"const" ++ '" volatile"). rewrite <- app_assoc.
    split; [|apply word_no_white; now apply is_word_iff].
    rewrite head_word; [now left|now apply is_word_iff|]. apply word_ends_iff. reflexivity.
  - split; [|apply word_no_white; now apply is_word_iff].
    rewrite head_word; [now left|now apply is_word_iff|exact He].
  - split; [|apply word_no_white; now apply is_word_iff].
    rewrite head_word; [right; now left|now apply is_word_iff|exact He].
Qed.

Lemma legacy_ok n y : word_ends y -> ~ In (head (strip y)) legw ->
  parse_legacy_name (show_legacy n ++ y) = POk (strip y) n.
Proof.
  intros He Hh.
  assert (X : exists ws, show_legacy n = spaced ws /\ Forall (fun w => In w legacy_words) ws /\
    ws <> [] /\ exists b, fold_left legacy_step (map kw_value ws) (Some b_default) = Some b /\ legacy_build b = BOk n).
  { destruct n;
    [exists ["short"]%string|exists ["unsigned"; "short"]%string|exists ["int"]%string|exists ["unsigned"; "int"]%string|exists ["long"]%string
    |exists ["unsigned"; "long"]%string|exists ["long"; "long"]%string|exists ["unsigned"; "long"; "long"]%string
    |exists ["__int128"]%string|exists ["unsigned"; "__int128"]%string|exists ["char"]%string|exists ["signed"; "char"]%string
    |exists ["unsigned"; "char"]%string|exists ["float"]%string|exists ["double"]%string|exists ["long"; "double"]%string
    |exists ["float"; "_Complex"]%string|exists ["double"; "_Complex"]%string|exists ["long"; "double"; "_Complex"]%string];
    (split; [reflexivity|]; split; [apply Forall_forall; cbn; intuition|]; split; [discriminate|];
     eexists; split; reflexivity). }
  destruct X as (ws & -> & Hws & Hne & b & Ef & Eb).
  rewrite (legacy_run ws _ (strip y)).
  - destruct ws as [|w ws]; [congruence|]. now rewrite Ef, Eb.
  - apply spaced_then_strip; auto using legacy_words_ok. now apply (no_word_of legacy_words).
Qed.
Lemma legacy_none y : ~ In (head y) legw -> parse_legacy_name y = PErr.
Proof.
  intros Hh. rewrite (legacy_run [] y y); [reflexivity|]. constructor. now apply (no_word_of legacy_words).
Qed.
Lemma legacy_head n y : word_ends y -> In (head (show_legacy n ++ y)) legw /\ not_white (show_legacy n ++ y).
Proof.
  intros He.
  assert (X : exists w s, show_legacy n = w ++ s /\ In w legw /\ is_word w = true /\ (s = [] \/ exists s', s = 32%N :: s')).
  { destruct n; [exists '"short", []|exists '"unsigned", '" short"|exists '"int", []|exists '"unsigned", '" int"
    |exists '"long", []|exists '"unsigned", '" long"|exists '"long", '" long"|exists '"unsigned", '" long long"
    |exists '"__int128", []|exists '"unsigned", '" __int128"|exists '"char", []|exists '"signed", '" char"
    |exists '"unsigned", '" char"|exists '"float", []|exists '"double", []|exists '"long", '" double"
    |exists '"float", '" _Complex"|exists '"double", '" _Complex"|exists '"long", '" double _Complex"];
    (split; [reflexivity|]; split; [cbn; tauto|]; split; [reflexivity|]; (now left) || (right; eexists; reflexivity)). }
  destruct X as (w & s & -> & Hl & Hw & Hs). apply is_word_iff in Hw. rewrite <- app_assoc. split.
  - rewrite head_word; [exact Hl|exact Hw|]. destruct Hs as [->|[s' ->]]; [exact He|].
    apply word_ends_iff. reflexivity.
  - now apply word_no_white.
Qed.

(** ** Loops *)
Lemma many_loop_more {A} (p : parser A) : forall n m s r l, many_loop n p s = POk r l -> n <= m ->
  many_loop m p s = POk r l.
Proof.
  induction n as [|n IH]; intros m s r l H Hm; [discriminate|]. destruct m as [|m]; [lia|]. cbn [many_loop] in *.
  destruct (p s) as [r1 a| | |]; auto; try discriminate. destruct (Nat.eqb _ _); [discriminate|].
  destruct (many_loop n p r1) as [r2 l2| | |] eqn:E; try discriminate.
  now rewrite (IH m _ _ _ E) by lia.
Qed.
Lemma many0_nil {A} (p : parser A) s : p s = PErr -> many0 p s = POk s [].
Proof. intros H. unfold many0. cbn [many_loop]. now rewrite H. Qed.
Lemma many0_cons {A} (p : parser A) s s' a r l : p s = POk s' a -> List.length s' < List.length s ->
  many0 p s' = POk r l -> many0 p s = POk r (a :: l).
Proof.
  intros H Hl Hm. unfold many0 in *. cbn [many_loop]. rewrite H.
  replace (Nat.eqb _ _) with false by (symmetry; apply Nat.eqb_neq; lia).
  now rewrite (many_loop_more _ _ (List.length s) _ _ _ Hm) by lia.
Qed.

Lemma sep_loop_more {A B C} (p : parser A) (sep : parser B) (term : parser C) :
  forall n m s r l, sep_loop n p sep term s = POk r l -> n <= m -> sep_loop m p sep term s = POk r l.
Proof.
  induction n as [|n IH]; intros m s r l H Hm; [discriminate|]. destruct m as [|m]; [lia|]. cbn [sep_loop] in *.
  destruct (term s) as [r1 a| | |]; auto; try discriminate.
  destruct (sep s) as [r1 b| | |]; try discriminate. cbn [pbind] in *.
  destruct (p r1) as [r2 a| | |]; try discriminate. cbn [pbind] in *.
  destruct (sep_loop n p sep term r2) as [r3 l3| | |] eqn:E; try discriminate.
  now rewrite (IH m _ _ _ E) by lia.
Qed.

(** A list read by [separated_terminated]: the items [xs], each with its text, separated by
    commas, up to a closing character *)
Section Separated.
  Context {X A : Type}.
  Variable txt : X -> str.
  Variable mean : X -> A.
  Variable p : parser A.
  Variable close : ascii.
  Hypothesis Hclose : N_of_ascii close <> 44%N.
  Hypothesis Hspace : is_space (N_of_ascii close) = false.
  Variable rest : str.

  Lemma separated_ok xs : xs <> [] ->
    (forall x, In x xs -> forall f, (f = N_of_ascii close :: rest \/ exists r, f = '", " ++ r) ->
       p (txt x ++ f) = POk f (mean x)) ->
    (forall x, In x xs -> forall f, (f = N_of_ascii close :: rest \/ exists r, f = '", " ++ r) -> not_white (txt x ++ f)) ->
    separated_terminated p comma_sep (ws_then close)
      (join '", " (map txt xs) ++ N_of_ascii close :: rest) = POk rest (map mean xs).
  Proof.
    intros Hne Hp Hw. unfold separated_terminated.
    assert (G : forall ys, (forall y, In y ys -> In y xs) ->
      sep_loop (S (List.length (concat (map (fun y => '", " ++ txt y) ys) ++ N_of_ascii close :: rest)))
        p comma_sep (ws_then close) (concat (map (fun y => '", " ++ txt y) ys) ++ N_of_ascii close :: rest)
      = POk rest (map mean ys)).
    { induction ys as [|y ys IH]; intros Hys.
      - cbn [map concat app sep_loop]. unfold ws_then, pvalue, pmap, pand. rewrite ms0. cbn [pbind].
        rewrite strip_char by exact Hspace. now rewrite pchar_eq.
      - cbn [map concat]. remember (concat (map (fun y => '", " ++ txt y) ys) ++ N_of_ascii close :: rest) as f eqn:Ef.
        assert (Hf : f = N_of_ascii close :: rest \/ exists r, f = '", " ++ r).
        { destruct ys as [|y' ys]; [now left|right]. rewrite Ef. cbn [map concat].
          eexists. now rewrite <- !app_assoc. }
        rewrite <- !app_assoc. rewrite <- Ef. cbn [sep_loop].
        assert (E1 : ws_then close ('", " ++ txt y ++ f) = PErr).
        { unfold ws_then, pvalue, pmap, pand. rewrite ms0. cbn [pbind]. change ('", ") with ([44; 32]%N).
          cbn [app]. rewrite strip_char by reflexivity. rewrite pchar_not; [reflexivity|congruence]. }
        rewrite E1.
        assert (E2 : comma_sep ('", " ++ txt y ++ f) = POk (txt y ++ f) tt).
        { unfold comma_sep, pvalue, pmap, pand. rewrite ms0. cbn [pbind]. change ('", ") with ([44; 32]%N).
          cbn [app]. rewrite strip_char by reflexivity. change 44%N with (N_of_ascii ","). rewrite pchar_eq. cbn [pbind].
          rewrite ms0. cbn [pbind]. rewrite strip_space, strip_id by (apply Hw; [apply Hys; now left|exact Hf]). reflexivity. }
        rewrite E2. cbn [pbind]. rewrite Hp by (auto; apply Hys; now left). cbn [pbind].
        rewrite (sep_loop_more p comma_sep (ws_then close) _ _ _ _ _ (IH (fun z Hz => Hys z (or_intror Hz)))).
        + reflexivity.
        + rewrite !app_length. cbn [List.length of_string]. lia. }
    destruct xs as [|x xs]; [congruence|].
    assert (E : join '", " (map txt (x :: xs)) = txt x ++ concat (map (fun y => '", " ++ txt y) xs)).
    { clear. revert x. induction xs as [|y xs IH]; intros x; [cbn; now rewrite app_nil_r|].
      change (join '", " (map txt (x :: y :: xs))) with (txt x ++ '", " ++ join '", " (map txt (y :: xs))).
      rewrite IH. cbn [map concat]. now rewrite <- !app_assoc. }
    rewrite E, <- app_assoc, Hp.
    - cbn [pbind]. rewrite G by (intros; now right). reflexivity.
    - now left.
    - destruct xs as [|y xs]; [now left|right]. cbn [map concat]. eexists. now rewrite <- !app_assoc.
  Qed.

  (** a list where one of the items is not an item, or not a whole one *)
  Lemma separated_fails xs y :
    (forall x, In x xs -> forall r, p (txt x ++ '", " ++ r) = POk ('", " ++ r) (mean x)) ->
    (forall x, In x xs -> forall r, not_white (txt x ++ '", " ++ r)) -> not_white y ->
    (p y = PErr \/ exists c r a, p y = POk (c :: r) a /\ is_space c = false /\ c <> 44%N /\ c <> N_of_ascii close) ->
    separated_terminated p comma_sep (ws_then close) (concat (map (fun x => txt x ++ '", ") xs) ++ y) = PErr.
  Proof.
    intros Hp Hw Hwy Hy.
    assert (L : forall n c r, is_space c = false -> c <> 44%N -> c <> N_of_ascii close ->
      sep_loop (S n) p comma_sep (ws_then close) (c :: r) = PErr).
    { intros n c r H1 H2 H3. cbn [sep_loop].
      assert (E1 : ws_then close (c :: r) = PErr).
      { unfold ws_then, pvalue, pmap, pand. rewrite ms0. cbn [pbind]. rewrite strip_char by exact H1. rewrite pchar_not by congruence. reflexivity. }
      assert (E2 : comma_sep (c :: r) = PErr).
      { unfold comma_sep, pvalue, pmap, pand. rewrite ms0. cbn [pbind]. rewrite strip_char by exact H1.
        rewrite pchar_not by (change (N_of_ascii ",") with 44%N in *; congruence). reflexivity. }
      now rewrite E1, E2. }
    assert (G : forall ys n, (forall y, In y ys -> In y xs) -> S (List.length ys) < n ->
      sep_loop n p comma_sep (ws_then close) ('", " ++ concat (map (fun x => txt x ++ '", ") ys) ++ y) = PErr).
    { induction ys as [|x ys IH]; intros n Hys Hn; (destruct n as [|n]; [cbn [List.length] in Hn; lia|]).
      - cbn [map concat app].
        assert (E1 : ws_then close ('", " ++ y) = PErr).
        { unfold ws_then, pvalue, pmap, pand. rewrite ms0. cbn [pbind of_string app]. rewrite strip_char by reflexivity.
          rewrite pchar_not; [reflexivity|]. intros H. apply Hclose. now rewrite <- H. }
        assert (E2 : comma_sep ('", " ++ y) = POk y tt).
        { unfold comma_sep, pvalue, pmap, pand. rewrite ms0. cbn [pbind]. change ('", ") with ([44; 32]%N).
          cbn [app]. rewrite strip_char by reflexivity. change 44%N with (N_of_ascii ","). rewrite pchar_eq. cbn [pbind].
          rewrite ms0. cbn [pbind]. rewrite strip_space, strip_id by exact Hwy. reflexivity. }
        cbn [sep_loop]. rewrite E1, E2. cbn [pbind].
        destruct Hy as [->|(c & r & a & -> & H1 & H2 & H3)]; [reflexivity|]. cbn [pbind].
        destruct n as [|n]; [cbn [List.length] in Hn; lia|]. now rewrite (L n c r H1 H2 H3).
      - cbn [map concat]. rewrite <- !app_assoc. remember (concat (map (fun x => txt x ++ '", ") ys) ++ y) as f eqn:Ef.
        assert (E1 : ws_then close ('", " ++ txt x ++ '", " ++ f) = PErr).
        { unfold ws_then, pvalue, pmap, pand. rewrite ms0. cbn [pbind of_string app]. rewrite strip_char by reflexivity.
          rewrite pchar_not; [reflexivity|]. intros H. apply Hclose. now rewrite <- H. }
        assert (E2 : comma_sep ('", " ++ txt x ++ '", " ++ f) = POk (txt x ++ '", " ++ f) tt).
        { unfold comma_sep, pvalue, pmap, pand. rewrite ms0. cbn [pbind]. change ('", ") with ([44; 32]%N).
          cbn [app]. rewrite strip_char by reflexivity. change 44%N with (N_of_ascii ","). rewrite pchar_eq. cbn [pbind].
          rewrite ms0. cbn [pbind]. change (44%N :: 32%N :: f) with ('", " ++ f).
          rewrite strip_space, strip_id by (apply Hw, Hys; now left). reflexivity. }
        cbn [sep_loop]. rewrite E1, E2. cbn [pbind]. rewrite Hp by (apply Hys; now left). cbn [pbind].
        rewrite (IH n); [reflexivity|intros z Hz; apply Hys; now right|cbn [List.length] in Hn; lia]. }
    unfold separated_terminated. destruct xs as [|x xs].
    - cbn [map concat app]. destruct Hy as [->|(c & r & a & -> & H1 & H2 & H3)]; [reflexivity|]. cbn [pbind]. now rewrite L.
    - cbn [map concat]. rewrite <- !app_assoc. rewrite Hp by now left. cbn [pbind]. rewrite G; [reflexivity|intros z Hz; now right|].
      rewrite !app_length. change (List.length '", ") with 2.
      assert (Len : List.length xs <= List.length (concat (map (fun x : X => txt x ++ '", ") xs))).
      { clear. induction xs as [|x xs IH]; [cbn; lia|]. cbn [map concat List.length]. rewrite !app_length. change (List.length '", ") with 2. lia. }
      lia.
  Qed.
End Separated.

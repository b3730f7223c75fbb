(** Qualifiers, legacy type names, literals. *)
From Coq Require Import Ascii String Permutation DecimalN DecimalPos DecimalFacts.
From Verif Require Import Base Cpp_Lex_Model Cpp_Lex_Spec Cpp_Display_Spec Cpp_Parse_Spec
  Cpp_Parse_Proofs Cpp_Parse_Proofs2 Cpp_Lex_Proofs.
Local Open Scope nat_scope.
Local Open Scope bool_scope.
Local Open Scope list_scope.

(** ** C25 *)

Definition cv_words : list string := ["const"; "volatile"]%string.

Lemma word_chars w : forallb is_id_continue (of_string w) = true ->
  Forall can_continue_word (of_string w).
Proof. apply (forallb_of_Forall _ _ _ id_continue_iff). Qed.

Lemma all_words_b {O} (kws : list (string * O)) :
  forallb (fun k => forallb is_id_continue (of_string (fst k))) kws = true -> all_words kws.
Proof.
  rewrite forallb_forall. intros H. apply Forall_forall. intros k Hk. apply word_chars. now apply H.
Qed.
Lemma vocabulary_b (ws : list string) :
  forallb (fun w => negb (str_eqb (of_string w) []) && forallb is_id_continue (of_string w)) ws = true ->
  Forall (fun w => of_string w <> [] /\ Forall can_continue_word (of_string w)) ws.
Proof.
  rewrite forallb_forall. intros H. apply Forall_forall. intros w Hw. apply H in Hw.
  apply andb_true_iff in Hw as [H1 H2]. split; [|now apply word_chars].
  intros E. rewrite E in H1. discriminate.
Qed.

Lemma fold_cv l : forall acc,
  is_const (fold_left cv_or l acc) = is_const acc || existsb is_const l /\
  is_volatile (fold_left cv_or l acc) = is_volatile acc || existsb is_volatile l.
Proof.
  induction l as [|c l IH]; intros acc; cbn [fold_left existsb].
  - now rewrite !orb_false_r.
  - destruct (IH (cv_or acc c)) as [-> ->]. unfold cv_or. cbn. now rewrite !orb_assoc.
Qed.

Lemma cv_meaning ws s r : words_then cv_words ws s r ->
  exists c, parse_cv s = POk r c /\
    (is_const c = true <-> In "const"%string ws) /\
    (is_volatile c = true <-> In "volatile"%string ws).
Proof.
  intros H.
  set (kws := [("const"%string, cv_const); ("volatile"%string, cv_volatile)]).
  destruct (words_loop kws) with (ws := ws) (s := s) (r := r) (n := S (len s)) as (l & E & Hl).
  - now apply all_words_b.
  - constructor; [cbn; intuition discriminate|]. constructor; [cbn; tauto|constructor].
  - cbn. intuition discriminate.
  - exact H.
  - lia.
  - exists (fold_left cv_or l cv_default). unfold parse_cv, pmap, many0. fold kws. rewrite E.
    cbn [pbind]. split; [reflexivity|].
    destruct (fold_cv l cv_default) as [-> ->]. cbn [cv_default is_const is_volatile orb].
    clear - Hl. induction Hl as [|w v ws l Hw Hl IH]; cbn [existsb In].
    + split; split; (discriminate || easy).
    + rewrite !orb_true_iff. destruct IH as [-> ->].
      destruct Hw as [[= <- <-]|[[= <- <-]|[]]]; cbn; intuition (congruence || discriminate).
Qed.

Lemma ends_start_no_word w r : of_string w <> [] -> Forall can_continue_word (of_string w) ->
  word_ends r -> ~ starts_with_word w r.
Proof.
  intros Hne Hw He (r' & -> & _). destruct (of_string w) as [|c x]; [congruence|].
  inversion Hw; subst. now apply (He c (x ++ r')).
Qed.

Lemma words_none vocabulary r :
  Forall (fun w => of_string w <> [] /\ Forall can_continue_word (of_string w)) vocabulary ->
  word_ends r -> words_then vocabulary [] r r.
Proof.
  intros Hv He. constructor. intros w Hw. rewrite Forall_forall in Hv. destruct (Hv w Hw).
  now apply ends_start_no_word.
Qed.

Lemma ends_white sp s : Forall white sp -> sp <> [] -> word_ends (sp ++ s).
Proof.
  intros H Hne. destruct sp as [|c sp]; [congruence|]. apply word_ends_iff. cbn.
  inversion H as [|? ? Hc _]; subst. unfold white in Hc. cbn in Hc.
  destruct Hc as [<-|[<-|[<-|[<-|[]]]]]; reflexivity.
Qed.

Lemma not_white_letter w s : of_string w <> [] -> Forall can_continue_word (of_string w) ->
  not_white (of_string w ++ s).
Proof.
  intros Hne Hw. destruct (of_string w) as [|c x]; [congruence|]. cbn [app].
  intros ? ? [= <- <-] Hc. inversion Hw as [|? ? H1 _]; subst. apply id_continue_iff in H1.
  unfold white in Hc. cbn in Hc. destruct Hc as [<-|[<-|[<-|[<-|[]]]]]; discriminate.
Qed.

(** words separated by single spaces *)
Fixpoint spaced (ws : list string) : str :=
  match ws with
  | [] => []
  | [w] => of_string w
  | w :: ws => of_string w ++ [32%N] ++ spaced ws
  end.

Lemma spaced_then vocabulary ws r :
  Forall (fun w => of_string w <> [] /\ Forall can_continue_word (of_string w)) vocabulary ->
  Forall (fun w => In w vocabulary) ws -> word_ends r -> not_white r ->
  words_then vocabulary ws (spaced ws ++ r) r.
Proof.
  intros Hv Hw He Hr. induction Hw as [|w ws Hw Hws IH]; [now apply words_none|].
  destruct ws as [|w' ws].
  - cbn [spaced]. apply (words_next vocabulary w [] [] r r); auto using words_none.
  - change (spaced (w :: w' :: ws)) with (of_string w ++ [32%N] ++ spaced (w' :: ws)).
    rewrite <- !app_assoc. assert (Hsp : Forall white [32%N]) by (constructor; [now left|constructor]).
    apply words_next; auto.
    + apply (ends_white [32%N]); auto. discriminate.
    + inversion Hws as [|? ? Hw' _]; subst. rewrite Forall_forall in Hv. destruct (Hv w' Hw') as [H1 H2].
      destruct ws; cbn [spaced]; rewrite <- ?app_assoc; now apply not_white_letter.
Qed.

Lemma cv_vocabulary :
  Forall (fun w => of_string w <> [] /\ Forall can_continue_word (of_string w)) cv_words.
Proof. now apply vocabulary_b. Qed.

Lemma cv_round_trip c r : word_ends r -> not_white r -> parse_cv (show_cv c ++ r) = POk r c.
Proof.
  intros He Hw.
  set (ws := (if is_const c then ["const"%string] else []) ++
             (if is_volatile c then ["volatile"%string] else [])).
  assert (E : show_cv c = spaced ws) by (destruct c as [[] []]; reflexivity).
  rewrite E. destruct (cv_meaning ws (spaced ws ++ r) r) as (c' & -> & H1 & H2).
  - apply spaced_then; auto using cv_vocabulary.
    apply Forall_forall. subst ws. destruct c as [[] []]; cbn; tauto.
  - f_equal. subst ws. destruct c as [[] []], c' as [[] []]; cbn in *; try reflexivity; exfalso; intuition (congruence || discriminate).
Qed.

Lemma reference_meaning k r :
  (forall r', r <> 38%N :: r') ->
  parse_reference (repeat 38%N k ++ r) =
  match k with 0 => POk r RNone | 1 => POk r RLValue | 2 => POk r RRValue | _ => PErr end.
Proof.
  intros Hr. unfold parse_reference, map_opt, many0.
  assert (E : forall n, k < n -> many_loop n (pchar "&") (repeat 38%N k ++ r) = POk r (repeat 38%N k)).
  { induction k as [|k IH]; intros n Hn; (destruct n as [|n]; [lia|]).
    - cbn [repeat app many_loop]. unfold pchar, satisfy. destruct r as [|c r]; [reflexivity|].
      change (N_of_ascii "&") with 38%N. destruct (N.eqb_spec 38 c) as [<-|H]; [|reflexivity].
      now destruct (Hr r).
    - cbn [repeat app many_loop]. unfold pchar at 1, satisfy at 1. change (N_of_ascii "&") with 38%N.
      rewrite N.eqb_refl. cbn [List.length]. replace (Nat.eqb _ _) with false.
      + rewrite IH by lia. reflexivity.
      + symmetry. apply Nat.eqb_neq. lia. }
  rewrite E; [|rewrite app_length, repeat_length; lia]. cbn [pbind]. rewrite repeat_length.
  destruct k as [|[|[|k]]]; reflexivity.
Qed.

(** ** C26 *)

Definition sign_words (s : option signedness) : list string :=
  match s with None => [] | Some Signed => ["signed"] | Some Unsigned => ["unsigned"] end%string.
Definition size_words (s : option size) : list string :=
  match s with None => [] | Some Short => ["short"] | Some Long => ["long"]
             | Some LongLong => ["long"; "long"] end%string.
Definition base_words (b : option base) : list string :=
  match b with None => [] | Some BInt => ["int"] | Some BChar => ["char"]
             | Some BInt128 => ["__int128"] | Some BFloat => ["float"] | Some BDouble => ["double"] end%string.
Definition words_of (b : builder) : list string :=
  sign_words (b_sign b) ++ size_words (b_size b) ++ base_words (b_base b) ++
  (if b_complex b then ["_Complex"%string] else []).
Definition all_builders : list builder :=
  flat_map (fun ba => flat_map (fun sg => flat_map (fun sz => map (mk_builder ba sg sz) [false; true])
      [None; Some Short; Some Long; Some LongLong]) [None; Some Signed; Some Unsigned])
    [None; Some BInt; Some BChar; Some BInt128; Some BFloat; Some BDouble].
Lemma all_builders_all b : In b all_builders.
Proof.
  destruct b as [ba sg sz cx]. unfold all_builders. rewrite in_flat_map. exists ba.
  split; [destruct ba as [[]|]; cbn; tauto|]. rewrite in_flat_map. exists sg.
  split; [destruct sg as [[]|]; cbn; tauto|]. rewrite in_flat_map. exists sz.
  split; [destruct sz as [[]|]; cbn; tauto|]. destruct cx; cbn; auto.
Qed.

Definition kw_value (w : string) : builder :=
  match find (fun k => String.eqb (fst k) w) legacy_keywords with Some k => snd k | None => b_default end.
Lemma kw_value_In w v : In (w, v) legacy_keywords -> v = kw_value w /\ In w legacy_words.
Proof.
  cbn [legacy_keywords In]. intros H.
  repeat (destruct H as [H|H]; [injection H as <- <-; split; [reflexivity|cbn; tauto]|]). easy.
Qed.

Definition perm_b (l l' : list string) : bool :=
  forallb (fun w => Nat.eqb (count_occ string_dec l w) (count_occ string_dec l' w)) legacy_words
  && forallb (fun w => existsb (String.eqb w) legacy_words) (l ++ l').
Lemma perm_b_ok l l' : perm_b l l' = true -> Permutation l l'.
Proof.
  unfold perm_b. rewrite andb_true_iff, !forallb_forall. intros [H1 H2].
  rewrite (Permutation_count_occ string_dec). intros x.
  destruct (in_dec string_dec x legacy_words) as [H|H]; [now apply Nat.eqb_eq, H1|].
  assert (N : forall m, (forall y, In y m -> In y (l ++ l')) -> ~ In x m).
  { intros m Hm Hx. apply H. apply Hm, H2, existsb_exists in Hx as (y & Hy & E).
    apply String.eqb_eq in E. now subst. }
  rewrite (proj1 (count_occ_not_In string_dec l x)), (proj1 (count_occ_not_In string_dec l' x)); auto.
  - apply N. intros; apply in_or_app; now right.
  - apply N. intros; apply in_or_app; now left.
Qed.

Definition builder_eqb (a b : builder) : bool :=
  match a, b with
  | mk_builder ba sg sz cx, mk_builder ba' sg' sz' cx' =>
      (match ba, ba' with
       | None, None | Some BInt, Some BInt | Some BChar, Some BChar | Some BInt128, Some BInt128
       | Some BFloat, Some BFloat | Some BDouble, Some BDouble => true
       | _, _ => false
       end) &&
      (match sg, sg' with None, None | Some Signed, Some Signed | Some Unsigned, Some Unsigned => true
                     | _, _ => false end) &&
      (match sz, sz' with None, None | Some Short, Some Short | Some Long, Some Long
                     | Some LongLong, Some LongLong => true | _, _ => false end) && Bool.eqb cx cx'
  end.
Lemma builder_eqb_eq a b : builder_eqb a b = true -> a = b.
Proof.
  destruct a as [ba sg sz cx], b as [ba' sg' sz' cx']. cbn. rewrite !andb_true_iff.
  intros [[[H1 H2] H3] H4]. apply Bool.eqb_prop in H4. subst.
  f_equal; [destruct ba as [[]|], ba' as [[]|]|destruct sg as [[]|], sg' as [[]|]
           |destruct sz as [[]|], sz' as [[]|]]; (reflexivity || discriminate).
Qed.
Definition ob_eqb (a b : option builder) : bool :=
  match a, b with Some a, Some b => builder_eqb a b | None, None => true | _, _ => false end.
Lemma ob_eqb_eq a b : ob_eqb a b = true -> a = b.
Proof.
  destruct a, b; cbn; try discriminate; auto. intros H. f_equal. now apply builder_eqb_eq.
Qed.

Lemma step_words acc w b : In w legacy_words ->
  legacy_step (Some acc) (kw_value w) = Some b -> Permutation (words_of acc ++ [w]) (words_of b).
Proof.
  intros Hw.
  assert (C : forallb (fun acc => forallb (fun w =>
      match legacy_step (Some acc) (kw_value w) with
      | Some b => perm_b (words_of acc ++ [w]) (words_of b) | None => true end) legacy_words)
      all_builders = true) by (vm_compute; reflexivity).
  rewrite forallb_forall in C. specialize (C acc (all_builders_all acc)). cbv beta in C.
  rewrite forallb_forall in C. specialize (C w Hw). cbv beta in C. intros E. rewrite E in C.
  now apply perm_b_ok.
Qed.
Lemma step_comm acc x y : In x legacy_words -> In y legacy_words ->
  legacy_step (legacy_step acc (kw_value x)) (kw_value y) =
  legacy_step (legacy_step acc (kw_value y)) (kw_value x).
Proof.
  intros Hx Hy. destruct acc as [acc|]; [|reflexivity].
  assert (C : forallb (fun acc => forallb (fun x => forallb (fun y =>
      ob_eqb (legacy_step (legacy_step (Some acc) (kw_value x)) (kw_value y))
             (legacy_step (legacy_step (Some acc) (kw_value y)) (kw_value x)))
      legacy_words) legacy_words) all_builders = true) by (vm_compute; reflexivity).
  rewrite forallb_forall in C. specialize (C acc (all_builders_all acc)). cbv beta in C.
  rewrite forallb_forall in C. specialize (C x Hx). cbv beta in C.
  rewrite forallb_forall in C. specialize (C y Hy). now apply ob_eqb_eq.
Qed.

Lemma fold_words ws : Forall (fun w => In w legacy_words) ws -> forall acc b,
  fold_left legacy_step (map kw_value ws) (Some acc) = Some b ->
  Permutation (words_of acc ++ ws) (words_of b).
Proof.
  induction 1 as [|w ws Hw Hws IH]; intros acc b; cbn [map fold_left].
  - intros [= <-]. now rewrite app_nil_r.
  - destruct (legacy_step (Some acc) (kw_value w)) as [acc'|] eqn:E.
    + intros H. apply IH in H. apply step_words in E; [|exact Hw]. rewrite <- H, <- E.
      rewrite <- app_assoc. reflexivity.
    + intros H. exfalso. clear - H. induction ws; [discriminate|auto].
Qed.
Lemma fold_perm ws ws' : Permutation ws ws' -> Forall (fun w => In w legacy_words) ws -> forall acc,
  fold_left legacy_step (map kw_value ws) acc = fold_left legacy_step (map kw_value ws') acc.
Proof.
  induction 1 as [|w ws ws' _ IH|x y ws|a b c H1 IH1 H2 IH2]; intros Hw acc; cbn [map fold_left].
  - reflexivity.
  - inversion Hw; subst. now apply IH.
  - inversion Hw as [|? ? Hy Hr]; subst. inversion Hr; subst. now rewrite step_comm.
  - rewrite IH1 by exact Hw. apply IH2. eapply Permutation_Forall; eassumption.
Qed.

Lemma build_in_table b n : legacy_build b = BOk n -> In (words_of b, n) legacy_table.
Proof.
  assert (C : forallb (fun b => match legacy_build b with
       | BOk n => existsb (fun row => (if list_eq_dec string_dec (fst row) (words_of b) then true else false)
                    && str_eqb (show_legacy (snd row)) (show_legacy n)) legacy_table
       | _ => true end) all_builders = true) by (vm_compute; reflexivity).
  rewrite forallb_forall in C. specialize (C b (all_builders_all b)). cbv beta in C.
  intros E. rewrite E in C. apply existsb_exists in C as ([row m] & Hi & C).
  apply andb_true_iff in C as [C1 C2]. cbn [fst snd] in *.
  destruct (list_eq_dec string_dec row (words_of b)) as [->|]; [|discriminate].
  replace n with m; [exact Hi|]. apply str_eqb_eq in C2.
  destruct m, n; (reflexivity || discriminate).
Qed.
Lemma table_builds row n : In (row, n) legacy_table ->
  Forall (fun w => In w legacy_words) row /\
  exists b, fold_left legacy_step (map kw_value row) (Some b_default) = Some b /\ legacy_build b = BOk n.
Proof.
  cbn [legacy_table In]. intros H.
  repeat (destruct H as [H|H];
    [injection H as <- <-; split; [apply Forall_forall; cbn; intuition|eexists; split; reflexivity]|]).
  easy.
Qed.

Lemma legacy_vocabulary : map fst legacy_keywords = legacy_words.
Proof. reflexivity. Qed.

Lemma legacy_words_ok :
  Forall (fun w => of_string w <> [] /\ Forall can_continue_word (of_string w)) legacy_words.
Proof. now apply vocabulary_b. Qed.

Lemma words_then_vocabulary v ws s r : words_then v ws s r -> Forall (fun w => In w v) ws.
Proof. induction 1; constructor; auto. Qed.

Lemma legacy_run ws s r : words_then legacy_words ws s r ->
  parse_legacy_name s =
  match ws with
  | [] => PErr
  | _ => match fold_left legacy_step (map kw_value ws) (Some b_default) with
         | None => PErr
         | Some b => match legacy_build b with
                     | BOk n => POk r n | BErr => PErr | BUnreachable => PPanic PRImpossible end
         end
  end.
Proof.
  intros H. rewrite <- legacy_vocabulary in H.
  assert (Ha : all_words legacy_keywords) by (now apply all_words_b).
  assert (Hd : NoDup (map fst legacy_keywords)).
  { apply (NoDup_count_occ' string_dec). intros w Hw. cbn [legacy_keywords map fst In] in Hw.
    repeat (destruct Hw as [<-|Hw]; [reflexivity|]). easy. }
  assert (Hn : ~ In ""%string (map fst legacy_keywords)) by (cbn; intuition discriminate).
  unfold parse_legacy_name, many1.
  assert (V : forall ws l, values_of legacy_keywords ws l -> l = map kw_value ws).
  { induction 1 as [|w v ws' l Hw _ IH]; [reflexivity|]. cbn [map]. apply kw_value_In in Hw as [-> _].
    now rewrite IH. }
  inversion H as [r0 Hr|w ws' sp s' r0 Hw Hsp He Hs Hws]; subst.
  - unfold terminated, pmap, pand. rewrite keywords_err; [reflexivity|].
    intros k Hk. apply Hr. now apply in_map.
  - apply in_map_iff in Hw as ([w' v] & E & Hi). cbn [fst] in E. subst w'.
    unfold terminated at 1, pmap at 1, pand at 1. rewrite (keywords_ok legacy_keywords w v) by assumption.
    cbn [pbind]. rewrite multispace0_app by assumption. cbn [pbind fst].
    destruct (words_loop legacy_keywords Ha Hd Hn ws' s' r Hws (S (len s'))) as (l & El & Hl); [lia|].
    unfold many0. rewrite El. cbn [pbind]. apply V in Hl. subst l.
    apply kw_value_In in Hi as [-> _]. reflexivity.
Qed.

Lemma legacy_meaning ws s r : words_then legacy_words ws s r ->
  (exists row n, In (row, n) legacy_table /\ Permutation row ws /\ parse_legacy_name s = POk r n) \/
  ((forall row n, In (row, n) legacy_table -> ~ Permutation row ws) /\ parse_legacy_name s = PErr).
Proof.
  intros H. pose proof (words_then_vocabulary _ _ _ _ H) as Hv.
  rewrite (legacy_run ws s r H).
  assert (T : forall row n, In (row, n) legacy_table -> Permutation row ws ->
     exists b, fold_left legacy_step (map kw_value ws) (Some b_default) = Some b /\ legacy_build b = BOk n).
  { intros row n Hi Hp. destruct (table_builds row n Hi) as (Hr & b & Hf & Hb).
    exists b. split; [|exact Hb]. now rewrite <- (fold_perm row ws Hp Hr). }
  destruct ws as [|w ws].
  - right. split; [|reflexivity]. intros row n Hi Hp. apply Permutation_sym, Permutation_nil in Hp. subst row.
    cbn [legacy_table In] in Hi. repeat (destruct Hi as [Hi|Hi]; [discriminate|]). easy.
  - destruct (fold_left legacy_step (map kw_value (w :: ws)) (Some b_default)) as [b|] eqn:Ef.
    + pose proof (fold_words _ Hv _ _ Ef) as Hp.
      change (words_of b_default ++ w :: ws) with (w :: ws) in Hp.
      destruct (legacy_build b) as [n| |] eqn:Eb.
      * left. exists (words_of b), n. split; [now apply build_in_table|]. split; [now symmetry|reflexivity].
      * right. split; [|reflexivity]. intros row n Hi Hq. destruct (T row n Hi Hq) as (b' & E1 & E2). congruence.
      * exfalso. assert (D : b = b_default).
        { assert (C : forallb (fun b => match legacy_build b with BUnreachable => builder_eqb b b_default
              | _ => true end) all_builders = true) by (vm_compute; reflexivity).
          rewrite forallb_forall in C. specialize (C b (all_builders_all b)). cbv beta in C.
          rewrite Eb in C. now apply builder_eqb_eq. }
        subst b. apply Permutation_sym, Permutation_nil in Hp. discriminate.
    + right. split; [|reflexivity]. intros row n Hi Hq. destruct (T row n Hi Hq) as (b' & E1 & E2). congruence.
Qed.

Lemma legacy_round_trip n r : word_ends r -> not_white r ->
  parse_legacy_name (show_legacy n ++ r) = POk r n.
Proof.
  intros He Hw.
  assert (X : exists ws, show_legacy n = spaced ws /\ Forall (fun w => In w legacy_words) ws /\
    ws <> [] /\ exists b, fold_left legacy_step (map kw_value ws) (Some b_default) = Some b /\ legacy_build b = BOk n).
  { destruct n;
    [exists ["short"]%string|exists ["unsigned"; "short"]%string|exists ["int"]%string|exists ["unsigned"; "int"]%string|exists ["long"]%string
    |exists ["unsigned"; "long"]%string|exists ["long"; "long"]%string|exists ["unsigned"; "long"; "long"]%string
    |exists ["__int128"]%string|exists ["unsigned"; "__int128"]%string|exists ["char"]%string|exists ["signed"; "char"]%string
    |exists ["unsigned"; "char"]%string|exists ["float"]%string|exists ["double"]%string|exists ["long"; "double"]%string
    |exists ["float"; "_Complex"]%string|exists ["double"; "_Complex"]%string|exists ["long"; "double"; "_Complex"]%string];
    (split; [reflexivity|]; split; [apply Forall_forall; cbn; intuition|]; split; [discriminate|];
     eexists; split; reflexivity). }
  destruct X as (ws & -> & Hws & Hne & b & Ef & Eb).
  rewrite (legacy_run ws _ r) by (apply spaced_then; auto using legacy_words_ok).
  destruct ws as [|w ws]; [congruence|]. now rewrite Ef, Eb.
Qed.

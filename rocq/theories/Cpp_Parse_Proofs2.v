(** The lexical parsers satisfy [ok]. *)
From Coq Require Import Ascii String.
From Verif Require Import Base Cpp_Lex_Model Cpp_Ast_Model Cpp_Display_Spec Cpp_Parse_Spec Cpp_Parse_Proofs.
Local Open Scope nat_scope.
Local Open Scope bool_scope.
Local Open Scope list_scope.

Notation T := (fun _ => True).

Lemma ok_valueT {A B} n l (P : A -> Prop) (b : B) p p' :
  ok n l P p p' -> ok n l T (pvalue b p) (pvalue b p').
Proof. intros H. eapply ok_value; [exact H|exact I]. Qed.

(** weaken to the goal *)
Ltac wk t := eapply ok_weaken; [t | first [apply le_n | lia] | try (cbn; lia) | try (intros; exact I)].

Lemma ok_identifier n : ok n 1 (fun i => is_identifier i = true) identifier identifier.
Proof.
  intros s _. split; [reflexivity|]. destruct s as [|c s]; cbn [identifier]; auto.
  destruct (is_id_start c) eqn:E; auto.
  pose proof (span_spec is_id_continue s) as (H & Hf & _).
  destruct (span is_id_continue s) as [a r]. cbn in H, Hf. subst.
  split; [now exists (c :: a)|]. split.
  - cbn. rewrite app_length. lia.
  - cbn. now rewrite E, Hf.
Qed.

Lemma ok_end_of_identifier n : ok n 0 T end_of_identifier end_of_identifier.
Proof.
  intros s _. split; [reflexivity|]. destruct s as [|c s]; cbn.
  - split; [now exists []|auto].
  - destruct (is_id_continue c); auto. split; [now exists []|auto].
Qed.

Lemma ok_keyword n w : ok n (str_level (of_string w)) T (keyword_parser w) (keyword_parser w).
Proof.
  unfold keyword_parser. eapply ok_level.
  - eapply ok_valueT, ok_terminated; [apply ok_tag|apply ok_end_of_identifier].
  - lia.
Qed.

Lemma ok_keywords {O} n (kws : list (string * O)) :
  forallb (fun k => Nat.leb 1 (str_level (of_string (fst k)))) kws = true ->
  ok n 1 (fun v => In v (map snd kws)) (keywords_parser kws) (keywords_parser kws).
Proof.
  induction kws as [|[k v] kws IH]; cbn [forallb keywords_parser]; intros H.
  - intros s _. split; [reflexivity|exact I].
  - apply andb_true_iff in H as [Hk Hr]. apply Nat.leb_le in Hk. cbn [fst] in Hk.
    apply ok_or.
    + eapply ok_weaken; [eapply ok_value; [apply ok_keyword|]|reflexivity|exact Hk|].
      * instantiate (1 := fun x => x = v). reflexivity.
      * intros a ->. now left.
    + eapply ok_post; [apply IH; exact Hr|]. intros a Ha. now right.
Qed.

Lemma digits_ok in_type neg s : forall value pos,
  match digits_loop in_type neg value pos s with
  | POk r a => (exists u, s = u ++ r) /\ (pos = false -> len r < len s)
  | PErr => True
  | _ => False
  end.
Proof.
  induction s as [|c s IH]; intros value pos; cbn [digits_loop].
  - destruct pos; auto. split; [now exists []|discriminate].
  - destruct (is_digit c).
    + match goal with |- context [if ?b then _ else _] => destruct b end; auto.
      specialize (IH (if neg then value * 10 - digit_value c else value * 10 + digit_value c)%Z true).
      destruct (digits_loop _ _ _ _ s) as [r a| | |]; auto.
      destruct IH as [[u ->] _]. split; [now exists (c :: u)|]. intros _. cbn. rewrite app_length. lia.
    + destruct pos; auto. split; [now exists []|discriminate].
Qed.

Lemma ok_digits n in_type neg :
  ok n 1 T (digits_loop in_type neg 0 false) (digits_loop in_type neg 0 false).
Proof.
  intros s _. split; [reflexivity|]. pose proof (digits_ok in_type neg s 0%Z false) as H.
  destruct (digits_loop in_type neg 0 false s) as [r a| | |]; auto; try easy.
  destruct H as [Hu Hl]. split; [exact Hu|]. split; [now apply Hl|exact I].
Qed.
Lemma ok_u32 n : ok n 1 T parse_u32 parse_u32. Proof. apply ok_digits. Qed.
Lemma ok_u64 n : ok n 1 T parse_u64 parse_u64. Proof. apply ok_digits. Qed.

Lemma ok_sign n : ok n 0 T parse_sign parse_sign.
Proof.
  eapply ok_map; [|auto]. eapply ok_opt with (P := T) (l := 0).
  apply ok_or; wk ltac:(eapply ok_valueT, ok_char).
Qed.

Lemma ok_i64 n : ok n 1 T parse_i64 parse_i64.
Proof.
  unfold parse_i64. eapply okr_bind; [apply ok_sign|]. intros u r neg Hn _.
  destruct (ok_digits (S (len r)) in_i64 neg r) as [_ H]; [lia|]. split; [reflexivity|].
  destruct (digits_loop in_i64 neg 0 false r) as [r' z| |w|]; auto.
  - destruct H as [[v ->] [L _]]. split; [eauto|]. split; [|exact I]. cbn in *.
    rewrite !app_length in *. lia.
  - now apply may_panic_suffix.
Qed.

Lemma ok_integer n : ok n 1 T integer integer.
Proof.
  unfold integer. eapply ok_level.
  - eapply ok_terminated with (P := T) (l := 1).
    + apply ok_or; eapply ok_map; [apply ok_i64|auto|apply ok_u64|auto].
    + eapply ok_many0. apply (ok_satisfy n 1); [discriminate|lia].
  - lia.
Qed.

Lemma ok_digit1 n f : ok n 1 T (digit1 f) (digit1 f).
Proof.
  intros s _. split; [reflexivity|]. unfold digit1.
  pose proof (span_spec f s) as (H & _). destruct (span f s) as [[|c a] r]; auto.
  cbn in H. subst. split; [now exists (c :: a)|]. split; [|exact I]. cbn. rewrite app_length. lia.
Qed.

Lemma ok_escape n : ok n 1 T escape_sequence escape_sequence.
Proof.
  unfold escape_sequence. repeat apply ok_or.
  - wk ltac:(eapply ok_valueT, ok_char).
  - wk ltac:(eapply ok_valueT, ok_char).
  - wk ltac:(eapply ok_valueT, ok_char).
  - wk ltac:(apply ok_char).
  - wk ltac:(eapply (ok_satisfy n 1); [discriminate|lia]).
  - wk ltac:(apply ok_char).
  - eapply ok_map_opt; [apply ok_digit1|auto].
  - wk ltac:(eapply ok_preceded with (P := T) (Q := T) (l := 0) (l' := 1)).
    + repeat apply ok_or; wk ltac:(apply ok_char).
    + eapply ok_map_opt with (P := T); [eapply ok_map_opt; [apply ok_digit1|auto]|auto].
Qed.

Lemma ok_anychar n : ok n 1 T anychar anychar.
Proof. wk ltac:(eapply (ok_satisfy n 1); [discriminate|lia]). Qed.

Lemma ok_character n : ok n 1 T character character.
Proof.
  unfold character.
  wk ltac:(eapply ok_delimited with (P := T) (Q := T) (R := T) (l := 0) (l' := 1) (l'' := 0)).
  - wk ltac:(eapply ok_and with (P := opt_post T) (Q := T) (l := 0) (l' := 0)).
    + eapply ok_opt with (P := T) (l := 0).
      repeat apply ok_or; try (wk ltac:(apply ok_char)).
      wk ltac:(eapply ok_valueT, ok_tag).
    + wk ltac:(apply ok_char).
  - apply ok_or; [|apply ok_anychar].
    wk ltac:(eapply ok_preceded; [apply ok_char|apply ok_escape]).
  - wk ltac:(apply ok_char).
Qed.

Lemma ok_literal n : ok n 1 T parse_literal parse_literal.
Proof.
  unfold parse_literal. eapply ok_map; [|auto].
  eapply ok_level; [eapply ok_and with (l := 1)|lia].
  - instantiate (1 := T). apply ok_or; [apply ok_integer|].
    eapply ok_map; [apply ok_character|auto].
  - eapply ok_opt, ok_identifier.
Qed.

(** *** Qualifiers *)

Definition cv_kw : parser cv :=
  keywords_parser [("const"%string, cv_const); ("volatile"%string, cv_volatile)].

Lemma ok_cv_kw n : ok n 1 (fun c => c = cv_const \/ c = cv_volatile) cv_kw cv_kw.
Proof.
  eapply ok_post; [apply ok_keywords; reflexivity|]. cbn. intros a [<-|[<-|[]]]; auto.
Qed.

Lemma cv_fold_nonempty c l :
  c = cv_const \/ c = cv_volatile -> cv_is_default (fold_left cv_or l c) = false.
Proof.
  assert (G : forall l c, cv_is_default c = false -> cv_is_default (fold_left cv_or l c) = false).
  { clear. induction l as [|x l IH]; intros c H; cbn; [exact H|]. apply IH.
    destruct c as [[] []], x as [[] []]; cbn in *; auto. }
  intros [-> | ->]; now apply G.
Qed.

(** where the qualifiers stop *)
Definition cv_stop (s : str) : Prop := cv_kw s = PErr.
Definition no_space (s : str) : Prop := match s with c :: _ => is_space c = false | [] => True end.

Lemma okr_cv n : okr n (fun s r c =>
    cv_stop r /\ (cv_stop s -> c = cv_default) /\
    (cv_is_default c = true -> r = s) /\
    (cv_is_default c = false -> no_space r /\ len r < len s)) parse_cv parse_cv.
Proof.
  unfold parse_cv.
  eapply okr_bind with (P := fun s r (l : list cv) =>
    cv_stop r /\ (cv_stop s -> l = []) /\ (l = [] -> r = s) /\
    (l <> [] -> no_space r /\ len r < len s /\ cv_is_default (fold_left cv_or l cv_default) = false)).
  - eapply okr_many0 with (P := fun s r c => lev 1 s r /\ (c = cv_const \/ c = cv_volatile)).
    + eapply ok_level; [eapply ok_terminated; [apply ok_cv_kw|apply ok_multispace0]|lia].
    + intros s H. repeat split; try congruence; auto.
      unfold cv_stop, terminated, pmap, pand, cv_kw in *.
      destruct (keywords_parser _ s) as [r a| |w|]; cbn in *; congruence.
    + intros u v r a l E Hu [L HP] (H1 & H2 & H3 & H4).
      assert (Hs : ~ cv_stop (u ++ v ++ r) /\ no_space (v ++ r)).
      { unfold cv_stop. unfold terminated, pmap, pand, cv_kw in *.
        destruct (keywords_parser _ (u ++ v ++ r)) as [r1 a1| |w|]; cbn in *; try discriminate.
        split; [discriminate|]. injection E as E <-.
        pose proof (span_spec is_space r1) as (_ & _ & Hsp). rewrite <- E.
        unfold no_space. now destruct (snd (span is_space r1)). }
      destruct Hs as [Hs Hsp].
      split; [exact H1|]. split; [intros; contradiction|]. split; [discriminate|]. intros _.
      cbn [fold_left]. assert (E0 : cv_or cv_default a = a) by (destruct a; reflexivity).
      rewrite E0. rewrite (cv_fold_nonempty _ _ HP).
      destruct l as [|x l].
      * pose proof (H3 eq_refl) as Er. rewrite <- Er in L, Hsp |- *. cbn in L. auto.
      * destruct H4 as [H4 [H5 _]]; [discriminate|]. cbn in L. repeat split; auto. lia.
  - intros u r l _ (H1 & H2 & H3 & H4). split; [reflexivity|]. split; [now exists []|].
    split; [exact H1|]. split; [intros Hs; now rewrite (H2 Hs)|].
    destruct l as [|x l].
    + split; [intros _; now apply H3|discriminate].
    + destruct H4 as (H4 & H5 & H6); [discriminate|]. rewrite H6. split; [discriminate|auto].
Qed.

Lemma ok_cv n : ok n 0 T parse_cv parse_cv.
Proof. eapply okr_weaken; [apply okr_cv|reflexivity|]. intros; split; exact I. Qed.

Lemma ok_cv_nonempty n :
  ok n 1 T (verify parse_cv (fun c => negb (cv_is_default c))) (verify parse_cv (fun c => negb (cv_is_default c))).
Proof.
  eapply okr_bind; [apply okr_cv|]. intros u r c _ (_ & _ & _ & H). split; [reflexivity|].
  destruct (cv_is_default c) eqn:E; cbn; [exact I|]. split; [now exists []|].
  destruct (H eq_refl). auto.
Qed.

Lemma okr_reference n : okr n (fun s r a =>
   (a = RNone -> match s with c :: _ => c <> N_of_ascii "&" | [] => True end) /\
   (a <> RNone -> pc r < pc s /\ len r < len s)) parse_reference parse_reference.
Proof.
  unfold parse_reference.
  eapply okr_bind with (P := fun s r (l : list chr) =>
     (l = [] -> match s with c :: _ => c <> N_of_ascii "&" | [] => True end) /\
     (l <> [] -> pc r < pc s /\ len r < len s)).
  - eapply okr_many0; [apply ok_char| |].
    + intros s H. split; [|congruence]. intros _. destruct s as [|c s]; [exact I|].
      unfold pchar, satisfy in H. destruct (N.eqb_spec (N_of_ascii "&") c); [discriminate|congruence].
    + intros u v r a l _ _ [L _] [H1 H2]. split; [discriminate|]. intros _.
      cbn in L. pose proof (suffix_len _ _ r (eq_refl (v ++ r))). lia.
  - intros u r l _ [H1 H2]. split; [reflexivity|].
    destruct l as [|a [|b [|c l]]]; cbn [List.length]; auto.
    + split; [now exists []|]. split; [intros _; exact (H1 eq_refl)|congruence].
    + split; [now exists []|]. split; [discriminate|]. intros _. apply H2. discriminate.
    + split; [now exists []|]. split; [discriminate|]. intros _. apply H2. discriminate.
Qed.

Lemma ok_reference n : ok n 0 T parse_reference parse_reference.
Proof. eapply okr_weaken; [apply okr_reference|reflexivity|]. intros; split; exact I. Qed.
Lemma ok_reference_nonempty n :
  ok n 2 T (verify parse_reference (fun r => negb (ref_is_none r)))
           (verify parse_reference (fun r => negb (ref_is_none r))).
Proof.
  eapply okr_bind; [apply okr_reference|]. intros u r c _ (_ & H). split; [reflexivity|].
  destruct c; cbn; [exact I| |]; (split; [now exists []|]); destruct H; try discriminate; auto.
Qed.

(** *** Legacy names *)

Definition b_is_default (b : builder) : bool :=
  match b with mk_builder None None None false => true | _ => false end.

Lemma legacy_step_default acc item b :
  legacy_step (Some acc) item = Some b ->
  b_is_default acc = false \/ b_is_default item = false -> b_is_default b = false.
Proof.
  destruct acc as [[ab|] [asg|] [asz|] []], item as [[ib|] [isg|] [isz|] []];
    cbn; intros E H; try discriminate;
    try destruct asz; try destruct isz; cbn in *; try discriminate; try (injection E as <-; auto);
    destruct H; discriminate.
Qed.

Lemma legacy_fold_none l : fold_left legacy_step l None = None.
Proof. induction l; auto. Qed.

Lemma legacy_fold_default l acc b :
  fold_left legacy_step l (Some acc) = Some b ->
  b_is_default acc = false -> b_is_default b = false.
Proof.
  revert acc. induction l as [|x l IH]; cbn; intros acc E H; [congruence|].
  destruct (legacy_step (Some acc) x) as [acc'|] eqn:Es.
  - change (fold_left legacy_step l (legacy_step (Some acc) x) = Some b) in E. rewrite Es in E.
    eapply IH; [exact E|]. eapply legacy_step_default; eauto.
  - change (fold_left legacy_step l (legacy_step (Some acc) x) = Some b) in E.
    rewrite Es, legacy_fold_none in E. discriminate.
Qed.

Lemma legacy_not_unreachable l b :
  l <> [] -> Forall (fun x => In x (map snd legacy_keywords)) l ->
  fold_left legacy_step l (Some b_default) = Some b -> legacy_build b <> BUnreachable.
Proof.
  intros Hl Hf E. destruct l as [|x l]; [congruence|].
  assert (Hx : b_is_default x = false).
  { inversion Hf as [|? ? H _]; subst. cbn in H.
    repeat (destruct H as [<-|H]; [reflexivity|]). contradiction. }
  change (fold_left legacy_step l (legacy_step (Some b_default) x) = Some b) in E.
  destruct (legacy_step (Some b_default) x) as [acc|] eqn:Es;
    [|rewrite legacy_fold_none in E; discriminate].
  assert (Hd : b_is_default b = false).
  { eapply legacy_fold_default; [exact E|]. eapply legacy_step_default; [exact Es|auto]. }
  destruct b as [[[]|] [[]|] [[]|] []]; cbn in *; congruence.
Qed.

Lemma ok_legacy n : ok n 1 T parse_legacy_name parse_legacy_name.
Proof.
  unfold parse_legacy_name.
  assert (Hk : ok n 1 (fun x => In x (map snd legacy_keywords))
     (terminated (keywords_parser legacy_keywords) multispace0)
     (terminated (keywords_parser legacy_keywords) multispace0)).
  { eapply ok_level; [eapply ok_terminated; [apply ok_keywords; reflexivity|apply ok_multispace0]|lia]. }
  eapply okr_bind with (P := fun s r l => lev 1 s r /\ l <> [] /\ Forall (fun x => In x (map snd legacy_keywords)) l).
  - unfold many1. eapply okr_bind; [exact Hk|]. intros u r a Hn [L HP].
    assert (Hn' : len r < n) by (rewrite app_length in Hn; lia).
    destruct (ok_many0 n 1 _ _ _ Hk r Hn') as [_ H]. split; [reflexivity|].
    destruct (many0 (terminated (keywords_parser legacy_keywords) multispace0) r) as [r' l| |w|]; cbn [pbind]; auto.
    + destruct H as [[v ->] [_ HF]]. split; [eauto|]. split; [|split; [discriminate|now constructor]].
      cbn in *. rewrite !app_length in *. lia.
    + now apply may_panic_suffix.
  - intros u r l _ (L & Hl & HF). split; [reflexivity|].
    destruct (fold_left legacy_step l (Some b_default)) as [b|] eqn:E; auto.
    pose proof (legacy_not_unreachable l b Hl HF E) as Hb.
    destruct (legacy_build b); [|exact I|congruence]. split; [now exists []|auto].
Qed.

(** *** Operators *)

Lemma sym_of_chr_punct c s : N.ltb c 128 = true -> sym_of_chr c = Some s -> is_punctuation c = true.
Proof.
  intros Hlt H. apply N.ltb_lt in Hlt. unfold sym_of_chr in H.
  assert (E : c = N_of_ascii (ascii_of_N c)) by (symmetry; apply N_ascii_embedding; lia).
  destruct (ascii_of_N c) as [[] [] [] [] [] [] [] []]; try discriminate; rewrite E; reflexivity.
Qed.

Lemma show_sym_of_chr c s : N.ltb c 128 = true -> sym_of_chr c = Some s -> show_sym s = [c].
Proof.
  intros Hlt H. apply N.ltb_lt in Hlt. unfold sym_of_chr in H.
  assert (E : c = N_of_ascii (ascii_of_N c)) by (symmetry; apply N_ascii_embedding; lia).
  destruct (ascii_of_N c) as [[] [] [] [] [] [] [] []]; try discriminate; rewrite E;
    injection H as <-; reflexivity.
Qed.

Lemma symbol_spec s :
  match symbol s with
  | POk r a => s = show_sym a ++ r
  | PErr => True
  | _ => False
  end.
Proof.
  destruct s as [|c s]; cbn; auto. unfold symbol, map_opt, anychar, satisfy. cbn [pbind].
  destruct (N.ltb c 128) eqn:L; auto. destruct (sym_of_chr c) as [x|] eqn:E; auto.
  now rewrite (show_sym_of_chr c x L E).
Qed.

Lemma show_sym_level x : lev 2 (show_sym x ++ []) [] /\ (forall r, lev 2 (show_sym x ++ r) r).
Proof.
  split; [destruct x; cbn; lia|]. intros r. destruct x; cbn; lia.
Qed.

Lemma okr_symbol n : okr n (fun s r a => s = show_sym a ++ r /\ lev 2 s r) symbol symbol.
Proof.
  intros s _. split; [reflexivity|]. pose proof (symbol_spec s) as H.
  destruct (symbol s) as [r a| | |]; auto; try easy. split; [eauto|]. split; [exact H|].
  subst. apply show_sym_level.
Qed.
Lemma ok_symbol n : ok n 2 T symbol symbol.
Proof. eapply okr_weaken; [apply okr_symbol|reflexivity|]. intros u r a [_ H]. auto. Qed.

Lemma ok_arith1 {X} (Q : operator X -> Prop) n :
  (forall s a b, Q (OBasic s a b)) -> ok n 2 Q arithmetic_or_comparison1 arithmetic_or_comparison1.
Proof. intros HQ. eapply ok_map; [apply ok_symbol|auto]. Qed.

Lemma ok_arith2 {X} (Q : operator X -> Prop) n :
  (forall s a b, Q (OBasic s a b)) -> (forall b, Q (ODeref b)) ->
  ok n 2 Q arithmetic_or_comparison2 arithmetic_or_comparison2.
Proof.
  intros H1 H2. eapply ok_map_opt; [eapply ok_level; [eapply ok_and; apply ok_symbol|cbn; lia]|].
  intros [s1 s2] b _. destruct s2; try (intros [= <-]; auto).
  all: cbn [sym_eqb]; destruct s1; cbn; intros E; try discriminate; injection E as <-; auto.
Qed.

Lemma ok_arith3 {X} (Q : operator X -> Prop) n :
  (forall s a b, Q (OBasic s a b)) -> (forall b, Q (ODeref b)) -> Q OSpaceship ->
  ok n 2 Q arithmetic_or_comparison3 arithmetic_or_comparison3.
Proof.
  intros H1 H2 H3.
  eapply ok_map_opt;
    [eapply ok_level; [eapply ok_and; [apply ok_symbol|eapply ok_and; apply ok_symbol]|cbn; lia]|].
  intros [s1 [s2 s3]] b _. destruct (sym_eqb s3 AssignEq && sym_eqb s2 s1); [intros [= <-]; auto|].
  destruct s1; try discriminate; destruct s2; try discriminate; destruct s3; try discriminate;
    intros [= <-]; auto.
Qed.

Lemma ok_binary1 {X} (Q : operator X -> Prop) n c g :
  (forall s a b, Q (OBasic s a b)) -> ok n 2 Q (binary1 c g) (binary1 c g).
Proof.
  intros HQ. eapply okr_bind with (P := fun s r op => lev 2 s r /\ exists x, op = OBasic x false false).
  - eapply ok_map; [apply ok_symbol|]. intros a _. now exists a.
  - intros u r op _ [L [x ->]]. split; [reflexivity|].
    destruct x; cbn; auto; try destruct c; try destruct g; cbn; auto;
      (split; [now exists []|split; [exact L|apply HQ]]).
Qed.

Lemma ok_binary2 {X} (Q : operator X -> Prop) n g :
  (forall s a b, Q (OBasic s a b)) -> (forall b, Q (ODeref b)) -> ok n 2 Q (binary2 g) (binary2 g).
Proof.
  intros HQ HD.
  eapply okr_bind with (P := fun s r op => lev 2 s r /\ Q op /\
    match op with OBasic x true false => s = show_sym x ++ show_sym x ++ r | _ => True end).
  - unfold arithmetic_or_comparison2, map_opt.
    eapply okr_bind with (P := fun s r p => lev 2 s r /\ s = show_sym (fst p) ++ show_sym (snd p) ++ r).
    + eapply okr_and with (m := n); [apply okr_symbol|apply okr_symbol| |].
      * intros u r a H _. rewrite app_length in H. lia.
      * intros u v r a b [E1 L1] [E2 L2]. split; [now apply (lev_and 2 2)|].
        cbn [fst snd]. now rewrite E1, E2 at 1.
    + intros u r [s1 s2] _ [L E]. split; [reflexivity|]. cbn [fst snd] in E.
      destruct s2; try (destruct s1; cbn; auto; (split; [now exists []|]); split; auto; fail).
  - intros u r op _ (L & HQ' & E). split; [reflexivity|].
    destruct op as [x tw eq|st| |ix|id|nd ar| |t];
      try (split; [now exists []|split; [exact L|exact HQ']]).
    destruct tw; [|split; [now exists []|split; [exact L|exact HQ']]].
    destruct eq; [split; [now exists []|split; [exact L|exact HQ']]|].
    destruct x; cbn; auto; try destruct g; cbn; auto;
      try (split; [now exists []|split; [exact L|exact HQ']]);
      match goal with |- has_doubled_operator _ => idtac end;
      rewrite E; eexists; (split; [|exists [], r; reflexivity]); cbn; tauto.
Qed.

Lemma ok_middle {X} (Q : operator X -> Prop) n c g :
  (forall s a b, Q (OBasic s a b)) -> (forall b, Q (ODeref b)) -> Q OSpaceship ->
  ok n 2 Q (parse_binary_expr_middle c g) (parse_binary_expr_middle c g).
Proof.
  intros. unfold parse_binary_expr_middle.
  apply ok_or; [now apply ok_arith3|]. apply ok_or; [now apply ok_binary2|now apply ok_binary1].
Qed.

Lemma ok_incdec {X} (Q : operator X -> Prop) n :
  (forall s a b, Q (OBasic s a b)) -> ok n 2 Q parse_increment_decrement parse_increment_decrement.
Proof.
  intros HQ. apply ok_or; eapply ok_value; try apply HQ;
  (eapply ok_level; [apply ok_tag|cbn; lia]).
Qed.

Lemma ok_delete {X} (Q : operator X -> Prop) n :
  (forall a b, Q (ONewDelete a b)) -> ok n 1 Q delete_op delete_op.
Proof.
  intros HQ. eapply ok_map; [|intros a _; apply HQ].
  eapply ok_level; [eapply ok_preceded; [apply ok_keyword|eapply ok_opt, ok_tag]|cbn; lia].
Qed.
Lemma ok_new {X} (Q : operator X -> Prop) n :
  (forall a b, Q (ONewDelete a b)) -> ok n 1 Q new_op new_op.
Proof.
  intros HQ. eapply ok_map; [|intros a _; apply HQ].
  eapply ok_level; [eapply ok_preceded; [apply ok_keyword|eapply ok_opt, ok_tag]|cbn; lia].
Qed.
Lemma ok_co_await {X} (Q : operator X -> Prop) n : Q OCoAwait -> ok n 1 Q co_await_op co_await_op.
Proof. intros HQ. eapply ok_level; [eapply ok_value; [apply ok_keyword|exact HQ]|cbn; lia]. Qed.
Lemma ok_call_index {X} (Q : operator X -> Prop) n :
  (forall b, Q (OCallIndex b)) -> ok n 2 Q call_or_index call_or_index.
Proof.
  intros HQ. eapply ok_map with (P := T); [|auto]. apply ok_or;
  (eapply ok_level; [eapply ok_valueT, ok_tag|cbn; lia]).
Qed.

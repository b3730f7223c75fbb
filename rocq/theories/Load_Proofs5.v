(** What the details of activities are taken for, and what is shown of them. *)
From Coq Require Import String.
From Verif Require Import Base Asylum_Model Asylum_Spec Tree_Model Tree_Spec Load_Model Load_Spec.
Local Open Scope nat_scope.
Local Open Scope bool_scope.
Local Open Scope list_scope.
Local Notation "' s" := (of_string s) (at level 0, s at level 0).

Lemma strip_prefix_iff p : forall s r, strip_prefix p s = Some r <-> s = p ++ r.
Proof.
  induction p as [|a p IH]; intros s r; cbn [strip_prefix app]; [split; congruence|].
  destruct s as [|b s]; [split; discriminate|]. destruct (N.eqb_spec a b) as [->|Hn].
  - rewrite IH. split; [now intros ->|congruence].
  - split; [discriminate|congruence].
Qed.
Lemma starts_with_iff p s : starts_with p s = true <-> exists r, s = p ++ r.
Proof.
  unfold starts_with. destruct (strip_prefix p s) as [r|] eqn:E.
  - apply strip_prefix_iff in E. split; [eauto|reflexivity].
  - split; [discriminate|]. intros [r H]. apply strip_prefix_iff in H. congruence.
Qed.

Lemma snoc_cases (d : str) : d = [] \/ exists (x : str) (z : chr), d = x ++ [z].
Proof.
  destruct (rev d) as [|z x] eqn:E.
  - left. rewrite <- (rev_involutive d), E. reflexivity.
  - right. exists (rev x), z. rewrite <- (rev_involutive d), E. reflexivity.
Qed.

Definition bare (d : str) : str :=
  match d with
  | 40%N :: r => match last_char d with Some 41%N => removelast r | _ => d end
  | _ => d
  end.
Lemma bare_cases d : (exists s, parenthesized d s /\ bare d = s) \/ (bare d = d /\ forall x, ~ parenthesized d x).
Proof.
  destruct d as [|c d]; [right; split; [reflexivity|discriminate]|].
  destruct (N.eq_dec c 40) as [->|Hc].
  2:{ right. split; [|intros x [= H _]; contradiction].
      unfold bare. destruct c as [|p]; [reflexivity|]. repeat (destruct p as [p|p|]; try reflexivity). contradiction. }
  destruct (snoc_cases d) as [->|(x & z & ->)].
  - right. split; [reflexivity|]. intros x H. injection H as H. destruct x; discriminate.
  - assert (L : last_char ((40%N : chr) :: x ++ [z]) = Some z).
    { unfold last_char. change ((40%N : chr) :: x ++ [z]) with (((40%N : chr) :: x) ++ [z]). now rewrite rev_app_distr. }
    assert (Eb : bare ((40%N : chr) :: x ++ [z]) = match Some z with Some 41%N => removelast (x ++ [z]) | _ => (40%N : chr) :: x ++ [z] end) by exact (f_equal (fun o : option chr => match o with Some 41%N => removelast (x ++ [z]) | _ => (40%N : chr) :: x ++ [z] end) L).
    rewrite Eb. destruct (N.eq_dec z 41) as [->|Hz].
    + left. exists x. split; [reflexivity|]. apply removelast_last.
    + right. split.
      * destruct z as [|p]; [reflexivity|]. repeat (destruct p as [p|p|]; try reflexivity). contradiction.
      * intros y H. unfold parenthesized in H. injection H as H. apply app_inj_tail in H as [_ H]. contradiction.
Qed.
Lemma bare_iff d s : without_parentheses d s <-> s = bare d.
Proof.
  destruct (bare_cases d) as [(x & Hx & Ex)|[Ex Hn]]; rewrite Ex.
  - split.
    + intros [H|[-> H]]; [|now elim (H x)]. unfold parenthesized in *. rewrite Hx in H. apply app_inv_head in H.
      now apply app_inj_tail in H as [H _].
    + intros ->. now left.
  - split; [intros [H|[-> _]]; [now elim (Hn s)|reflexivity]|]. intros ->. right. now split.
Qed.

Definition symbol_test (s : str) : bool :=
  starts_with '"_Z" s || str_eqb s '"main" || str_eqb s '"__clang_call_terminate" ||
  starts_with '"__cxx_global_var_init" s || starts_with '"_GLOBAL__sub_I_" s.
Lemma symbol_test_iff s : symbol_test s = true <-> linker_symbol s.
Proof.
  unfold symbol_test, linker_symbol. rewrite !orb_true_iff, !starts_with_iff, !str_eqb_eq. tauto.
Qed.
Lemma symbol_like_iff d : symbol_like d <-> symbol_test (bare d) = true.
Proof.
  rewrite symbol_test_iff. unfold symbol_like. split.
  - intros (s & H & Hs). apply bare_iff in H. now subst s.
  - intros H. exists (bare d). split; [now apply bare_iff|exact H].
Qed.
Lemma file_like_iff d : file_like d <-> path_has_root d || str_eqb d k_module = true.
Proof.
  unfold file_like. rewrite orb_true_iff, str_eqb_eq. change (of_string "[module]") with k_module.
  assert (H : (exists r, d = '"/" ++ r) <-> path_has_root d = true).
  { destruct d as [|c d]; cbn [path_has_root]; [split; [intros [r H]; discriminate|discriminate]|].
    rewrite N.eqb_eq. split; [intros [r H]; now injection H|intros ->; now exists d]. }
  tauto.
Qed.

Section Text.
  Variables up al : chr -> bool.

  Lemma middle_iff m : forall before dash caps,
    (dash = true <-> exists b x, before = b :: x ++ [45%N]) ->
    (caps = true <-> exists b x u, before = b :: x ++ [u] /\ up u = true) ->
    before <> [] ->
    (middle_ok up al dash caps m = true <-> forall x c y, m = x ++ c :: y -> inside up al (before ++ x) c).
  Proof.
    induction m as [|c m IH]; intros before dash caps Hd Hc Hb; cbn [middle_ok].
    - split; [intros _ x c y H; destruct x; discriminate|reflexivity].
    - rewrite andb_true_iff. rewrite (IH (before ++ [c])).
      + assert (A : (al c || N.eqb c 45 || (N.eqb c 62 && dash) || N.eqb c 47 || (N.eqb c 95 && caps) = true) <-> inside up al before c).
        { unfold inside. rewrite <- Hd, <- Hc, !orb_true_iff, !andb_true_iff, !N.eqb_eq. tauto. }
        rewrite A. split.
        * intros [H1 H2] x c' y E. destruct x as [|c0 x].
          -- injection E as <- _. now rewrite app_nil_r.
          -- injection E as <- E. rewrite <- (app_assoc before [c] x) in H2 || idtac. specialize (H2 x c' y E). now rewrite <- app_assoc in H2.
        * intros H. split; [specialize (H [] c m eq_refl); now rewrite app_nil_r in H|].
          intros x c' y E. specialize (H (c :: x) c' y). rewrite <- app_assoc. apply H. now rewrite E.
      + rewrite N.eqb_eq. split.
        * intros ->. destruct before as [|b x]; [congruence|]. exists b, x. reflexivity.
        * intros (b & x & E). change (b :: x ++ [45%N]) with ((b :: x) ++ [45%N]) in E. now apply app_inj_tail in E as [_ E].
      + split.
        * intros H. destruct before as [|b x]; [congruence|]. exists b, x, c. now split.
        * intros (b & x & u & E & Hu). change (b :: x ++ [u]) with ((b :: x) ++ [u]) in E. apply app_inj_tail in E as [_ ->]. exact Hu.
      + intros E. apply app_eq_nil in E as [_ E]. discriminate.
  Qed.
  Lemma word_iff w : word_ok up al w = true <-> text_word up al w.
  Proof.
    unfold word_ok, text_word. rewrite !orb_true_iff, !str_eqb_eq.
    assert (H : (match w with [] => true | [c] => al c
       | c :: (_ :: _) as rest => al c && al (last rest 0%N) && middle_ok up al false false (removelast rest) end = true) <->
       (w = [] \/ (exists c, w = [c] /\ al c = true) \/
        exists a m z, w = a :: m ++ [z] /\ al a = true /\ al z = true /\ forall x c y, m = x ++ c :: y -> inside up al (a :: x) c)).
    { destruct w as [|a [|b r]].
      - split; [now left|reflexivity].
      - split; [right; left; eauto|]. intros [H|[(c & [= ->] & H)|(a' & m & z & H & _)]]; [discriminate|exact H|].
        injection H as _ H. destruct m; discriminate.
      - destruct (snoc_cases (b :: r)) as [H|(m & z & E)]; [discriminate H|].
        rewrite E, last_last, removelast_last.
        rewrite !andb_true_iff, (middle_iff m [a] false false).
        + split.
          * intros [[H1 H2] H3]. right. right. exists a, m, z. repeat split; assumption.
          * intros [H|[(c & H & _)|(a' & m' & z' & H & H1 & H2 & H3)]]; [discriminate|destruct m; discriminate H|].
            injection H as <- H. apply app_inj_tail in H as [<- <-]. repeat split; assumption.
        + split; [discriminate|]. intros (x & y & H). injection H as _ H. destruct y; discriminate.
        + split; [discriminate|]. intros (x & y & u & H & _). injection H as _ H. destruct y; discriminate.
        + discriminate. }
    rewrite H. tauto.
  Qed.
  Lemma split_spaced w ws : ~ In 32%N w -> Forall (fun w => ~ In 32%N w) ws -> split_space (spaced (w :: ws)) = w :: ws.
  Proof.
    revert w. induction ws as [|w' ws IH]; intros w Hw Hws.
    - cbn [spaced]. induction w as [|c w IHw]; [reflexivity|]. cbn [split_space].
      destruct (N.eqb_spec c 32) as [->|_]; [elim Hw; now left|]. rewrite IHw; [reflexivity|]. intros H. apply Hw. now right.
    - inversion Hws as [|? ? Hw' Hws' E1]; subst. specialize (IH w' Hw' Hws').
      change (spaced (w :: w' :: ws)) with (w ++ '" " ++ spaced (w' :: ws)).
      induction w as [|c w IHw].
      + change (split_space (32%N :: spaced (w' :: ws)) = [] :: w' :: ws). cbn [split_space N.eqb Pos.eqb]. now rewrite IH.
      + cbn [app split_space]. destruct (N.eqb_spec c 32) as [->|_]; [elim Hw; now left|].
        cbn [app] in IHw. rewrite IHw; [reflexivity|]. intros H. apply Hw. now right.
  Qed.
  Lemma split_join d : exists w ws, split_space d = w :: ws /\ d = spaced (w :: ws) /\ Forall (fun w => ~ In 32%N w) (w :: ws).
  Proof.
    induction d as [|c d (w & ws & E & Ed & Hf)]; [exists [], []; repeat split; repeat constructor; tauto|].
    cbn [split_space]. destruct (N.eqb_spec c 32) as [->|Hc].
    - exists [], (w :: ws). rewrite E. split; [reflexivity|]. split; [now rewrite Ed|]. constructor; [tauto|exact Hf].
    - rewrite E. exists (c :: w), ws. split; [reflexivity|]. pose proof (Forall_inv Hf) as H1. pose proof (Forall_inv_tail Hf) as H2. split.
      + destruct ws; rewrite Ed at 1; reflexivity.
      + constructor; [intros [H|H]; [now subst|contradiction]|exact H2].
  Qed.
  Lemma words_iff d : forallb (word_ok up al) (split_space d) = true <->
    exists ws, d = spaced ws /\ Forall (fun w => text_word up al w /\ ~ In 32%N w) ws.
  Proof.
    destruct (split_join d) as (w & ws & E & Ed & Hf). rewrite E. split.
    - intros H. exists (w :: ws). split; [exact Ed|]. rewrite forallb_forall in H. rewrite Forall_forall in *.
      intros x Hx. split; [now apply word_iff, H|now apply Hf].
    - intros ([|w' ws'] & E' & H).
      + rewrite <- E, E'. reflexivity.
      + assert (R : w :: ws = w' :: ws').
        { rewrite <- E, E'. inversion H as [|? ? [H1 H2] H3 E1]; subst. apply split_spaced; [exact H2|].
          eapply Forall_impl; [|exact H3]. now intros ? [_ ?]. }
        rewrite R. apply forallb_forall. rewrite Forall_forall in H. intros x Hx. now apply word_iff, H.
  Qed.
  Lemma text_like_iff c r : text_like up al (c :: r) <-> up c = true /\ forallb (word_ok up al) (split_space (c :: r)) = true.
  Proof.
    unfold text_like. rewrite <- words_iff. split.
    - intros [(c' & r' & [= <- <-] & H) H']. now split.
    - intros [H H']. split; [now exists c, r|exact H'].
  Qed.

  Lemma infer_is d t : infer_from_detail up al d = Some t <-> taken_for up al d t.
  Proof.
    unfold infer_from_detail. fold (bare d). fold (symbol_test (bare d)).
    destruct (symbol_test (bare d)) eqn:Es.
    - apply symbol_like_iff in Es. split; [intros [= <-]; now constructor|].
      intros H. destruct H as [H|H|H|H1 H2 H3 H4|H1 H2 H3 H4 H5]; try contradiction; [reflexivity| |].
      + subst d. apply symbol_like_iff in Es. discriminate Es.
      + apply symbol_like_iff in Es. exfalso. destruct H as [[r ->]| ->]; discriminate Es.
    - assert (Hs : ~ symbol_like d) by (rewrite symbol_like_iff; congruence).
      destruct (str_eqb_spec d k_loop) as [El|El].
      + split; [intros [= <-]; now apply tf_loop|].
        intros H. destruct H as [H|H|H|H1 H2 H3 H4|H1 H2 H3 H4 H5]; try contradiction; [reflexivity|].
        exfalso. subst d. destruct H as [[r H]|H]; discriminate H.
      + destruct (path_has_root d || str_eqb d k_module) eqn:Ef.
        * apply file_like_iff in Ef. split; [intros [= <-]; now apply tf_file|].
          intros H. destruct H as [H|H|H|H1 H2 H3 H4|H1 H2 H3 H4 H5]; try contradiction. reflexivity.
        * assert (Hf : ~ file_like d) by (rewrite file_like_iff; congruence).
          assert (HS : forall (b : bool) x y, (if b then Some x else Some y) = Some t <-> (b = true /\ t = x) \/ (b = false /\ t = y)).
          { intros [] x y; split; [intros [= <-]; auto|intros [[_ ->]|[H _]]; [reflexivity|discriminate]|intros [= <-]; auto|intros [[H _]|[_ ->]]; [discriminate|reflexivity]]. }
          destruct d as [|c d].
          -- split; [discriminate|]. intros H. exfalso. destruct H as [H|H|H|H1 H2 H3 H4|H1 H2 H3 H4 H5]; try contradiction.
             destruct H4 as [(c & r & H & _) _]. discriminate.
          -- pose proof (text_like_iff c d) as Ht.
             assert (Hg : (if negb (up c) then Some TyCppEntity else if forallb (word_ok up al) (split_space (c :: d)) then Some TyString else Some TyCppEntity) = Some t <->
                          (text_like up al (c :: d) /\ t = TyString) \/ (~ text_like up al (c :: d) /\ t = TyCppEntity)).
             { rewrite Ht. destruct (up c), (forallb (word_ok up al) (split_space (c :: d))); cbn [negb];
                 (split; [intros [= <-]; intuition congruence|intros [[[H1 H2] ->]|[H1 ->]]; (reflexivity || discriminate || (elim H1; split; reflexivity))]). }
             rewrite Hg. split.
             ++ intros [[H ->]|[H ->]]; [now apply tf_text|apply tf_entity; try assumption; discriminate].
             ++ intros H. destruct H as [H|H|H|H1 H2 H3 H4|H1 H2 H3 H4 H5]; try contradiction; auto.
  Qed.
End Text.

Section Shown.
  Variable EK : Type.
  Variable pe : str -> outcome (option EK).
  Variable dm : str -> option str.
  Variable comp_hash : str -> N.
  Variable seq_hash : list key -> N.
  Variable probe : N -> N -> bool.
  Variables cw w lb : N.
  Let entity (s : str) (o : option EK) : Prop := pe s = Ret o.

  Lemma demangled_ok t p : parse_demangled EK pe t = Ok p <->
    (exists e, entity t (Some e) /\ p = PSParsed e) \/ (entity t None /\ p = PSDemangled t).
  Proof.
    unfold parse_demangled, entity. destruct (pe t) as [[e|]|].
    - split; [intros [= <-]; left; eauto|]. intros [(e' & [= ->] & ->)|[H _]]; [reflexivity|discriminate].
    - split; [intros [= <-]; auto|]. intros [(e' & H & _)|[_ ->]]; [discriminate|reflexivity].
    - split; [discriminate|]. intros [(e' & H & _)|[H _]]; discriminate.
  Qed.
  Lemma symbol_ok d p : parse_symbol EK pe dm d = Ok p <-> symbol_read entity dm d p.
  Proof.
    unfold parse_symbol. fold (bare d). cbv zeta.
    assert (B : without_parentheses d (bare d)) by now apply bare_iff.
    assert (R : forall t, named_by dm (bare d) t -> (forall t', named_by dm (bare d) t' -> t' = t) ->
      (parse_demangled EK pe t = Ok p <-> symbol_read entity dm d p)).
    { intros t Ht Hu. rewrite demangled_ok. split.
      - intros [(e & H & ->)|[H ->]]; [now apply (sr_parsed _ _ _ (bare d) t)|now apply (sr_text _ _ _ (bare d))].
      - intros H. destruct H as [s t' e H1 H2 H3|s t' H1 H2 H3|s H1 H2 H3 H4].
        + apply bare_iff in H1. subst s. apply Hu in H2. subst t'. left. eauto.
        + apply bare_iff in H1. subst s. apply Hu in H2. subst t'. auto.
        + exfalso. apply bare_iff in H1. subst s. destruct Ht as [Ht|(_ & _ & [Ht|Ht])]; congruence. }
    destruct (dm (bare d)) as [t|] eqn:Ed.
    - apply R; [now left|]. intros t' [H|(H & _)]; congruence.
    - destruct (str_eqb (bare d) '"main" || str_eqb (bare d) '"__clang_call_terminate") eqn:Em.
      + rewrite orb_true_iff, !str_eqb_eq in Em. apply R; [right; auto|]. intros t' [H|(_ & H & _)]; congruence.
      + assert (N1 : bare d <> '"main") by (intros H; apply str_eqb_eq in H; rewrite H in Em; discriminate).
        assert (N2 : bare d <> '"__clang_call_terminate").
        { intros H. apply str_eqb_eq in H. rewrite H, orb_true_r in Em. discriminate. }
        split.
        * intros [= <-]. now apply sr_raw.
        * intros H. destruct H as [s t' e H1 H2 H3|s t' H1 H2 H3|s H1 H2 H3 H4]; apply bare_iff in H1; subst s; [..|reflexivity];
            exfalso; destruct H2 as [H2|(_ & _ & [H2|H2])]; congruence.
  Qed.
  Lemma symbol_err d e : parse_symbol EK pe dm d <> Err e.
  Proof.
    unfold parse_symbol, parse_demangled. cbv zeta. fold (bare d).
    destruct (dm (bare d)) as [t|]; [destruct (pe t) as [[]|]; discriminate|].
    destruct (_ || _); [destruct (pe (bare d)) as [[]|]; discriminate|discriminate].
  Qed.

  Notation parse := (parse_arg EK pe dm comp_hash seq_hash probe cw w lb).
  Notation intern := (pi_intern comp_hash seq_hash probe cw w lb).
  Lemma arg_ok r st p : fst (parse r st) = Ok p <->
    argument_shown entity dm (fun d k => fst (intern st d) = Ret (PKey k)) r p.
  Proof.
    destruct r as [t [d|]].
    - unfold parse_arg. cbn [ra_type ra_detail]. destruct t; cbn [fst].
      + split; [discriminate|]. intros H. inversion H; subst; cbn in *; intuition discriminate.
      + split; [intros [= <-]; constructor|]. intros H. inversion H; subst; cbn in *; try reflexivity; intuition discriminate.
      + destruct (str_eqb_spec d k_module) as [->|Hn].
        * cbn [fst]. split; [intros [= <-]; constructor|]. intros H. inversion H; subst; cbn in *; try reflexivity; intuition discriminate.
        * unfold intern_path. destruct (intern st d) as [[[k|q]|] st'] eqn:Ei; cbn [fst].
          -- split; [intros [= <-]; apply as_file; [exact Hn|now rewrite Ei]|].
             intros H. inversion H; subst; cbn in *; try (intuition discriminate); rewrite Ei in *; cbn in *; congruence.
          -- split; [discriminate|]. intros H. inversion H; subst; cbn in *; try (intuition discriminate); rewrite Ei in *; discriminate.
          -- split; [discriminate|]. intros H. inversion H; subst; cbn in *; try (intuition discriminate); rewrite Ei in *; discriminate.
      + unfold parse_entity_arg. destruct (pe d) as [[e|]|] eqn:Ep.
        * split; [intros [= <-]; now apply as_entity|]. intros H. inversion H; subst; cbn in *; try (intuition discriminate). unfold entity in *. congruence.
        * split; [discriminate|]. intros H. inversion H; subst; cbn in *; try (intuition discriminate). unfold entity in *. congruence.
        * split; [discriminate|]. intros H. inversion H; subst; cbn in *; try (intuition discriminate). unfold entity in *. congruence.
      + pose proof (symbol_ok d) as Hs. pose proof (symbol_err d) as He. destruct (parse_symbol EK pe dm d) as [q|e|]; cbn [rbind fst].
        * split; [intros [= <-]; apply as_symbol; [now left|now apply Hs]|].
          intros H. inversion H; subst; cbn in *; try (intuition discriminate). match goal with H : symbol_read _ _ _ _ |- _ => apply Hs in H; congruence end.
        * now elim (He e).
        * split; [discriminate|]. intros H. inversion H; subst; cbn in *; try (intuition discriminate). match goal with H : symbol_read _ _ _ _ |- _ => apply Hs in H; discriminate end.
      + pose proof (symbol_ok d) as Hs. pose proof (symbol_err d) as He. destruct (parse_symbol EK pe dm d) as [q|e|]; cbn [rbind fst].
        * split; [intros [= <-]; apply as_symbol; [right; now left|now apply Hs]|].
          intros H. inversion H; subst; cbn in *; try (intuition discriminate). match goal with H : symbol_read _ _ _ _ |- _ => apply Hs in H; congruence end.
        * now elim (He e).
        * split; [discriminate|]. intros H. inversion H; subst; cbn in *; try (intuition discriminate). match goal with H : symbol_read _ _ _ _ |- _ => apply Hs in H; discriminate end.
      + unfold parse_unnamed_loop. destruct (str_eqb_spec d k_loop) as [->|Hn].
        * split; [intros [= <-]; apply as_loop; now left|]. intros H. inversion H; subst; cbn in *; try reflexivity; intuition discriminate.
        * split; [discriminate|]. intros H. inversion H; subst; cbn in *; intuition discriminate.
      + unfold parse_unnamed_loop. destruct (str_eqb_spec d k_loop) as [->|Hn].
        * split; [intros [= <-]; apply as_loop; right; now left|]. intros H. inversion H; subst; cbn in *; try reflexivity; intuition discriminate.
        * split; [discriminate|]. intros H. inversion H; subst; cbn in *; intuition discriminate.
    - unfold parse_arg. cbn [ra_type ra_detail].
      destruct t; cbn [fst]; (split; [try discriminate; intros [= <-]; apply as_nothing; cbn; tauto|]);
        intros H; inversion H; subst; cbn in *; try reflexivity; intuition discriminate.
  Qed.
  Lemma arg_err r st e : fst (parse r st) = Err e <-> argument_rejected entity r e.
  Proof.
    assert (Hsym : forall d x, rbind (parse_symbol EK pe dm d) (fun p => Ok (PSymbol p)) <> Err x).
    { intros d x H. pose proof (symbol_err d) as He. destruct (parse_symbol EK pe dm d); cbn [rbind] in H; try discriminate. now elim (He e0). }
    destruct r as [t [d|]].
    - unfold parse_arg. cbn [ra_type ra_detail]. destruct t; cbn [fst].
      + split; [discriminate|]. intros H. inversion H; subst; cbn in *; intuition discriminate.
      + split; [discriminate|]. intros H. inversion H; subst; cbn in *; intuition discriminate.
      + split; [|intros H; inversion H; subst; cbn in *; intuition discriminate].
        destruct (str_eqb d k_module); [discriminate|]. unfold intern_path. destruct (intern st d) as [[[k|q]|] st']; discriminate.
      + unfold parse_entity_arg. destruct (pe d) as [[x|]|] eqn:Ep.
        * split; [discriminate|]. intros H. inversion H; subst; cbn in *; try (intuition discriminate). unfold entity in *. congruence.
        * split; [intros [= <-]; now apply ar_entity|]. intros H. inversion H; subst; cbn in *; try reflexivity; intuition discriminate.
        * split; [discriminate|]. intros H. inversion H; subst; cbn in *; try (intuition discriminate). unfold entity in *. congruence.
      + split; [intros H; now elim (Hsym d e)|]. intros H. inversion H; subst; cbn in *; intuition discriminate.
      + split; [intros H; now elim (Hsym d e)|]. intros H. inversion H; subst; cbn in *; intuition discriminate.
      + unfold parse_unnamed_loop. destruct (str_eqb_spec d k_loop) as [->|Hn].
        * split; [discriminate|]. intros H. inversion H; subst; cbn in *; intuition discriminate.
        * split; [intros [= <-]; apply ar_loop; [now left|exact Hn]|]. intros H. inversion H; subst; cbn in *; try reflexivity; intuition discriminate.
      + unfold parse_unnamed_loop. destruct (str_eqb_spec d k_loop) as [->|Hn].
        * split; [discriminate|]. intros H. inversion H; subst; cbn in *; intuition discriminate.
        * split; [intros [= <-]; apply ar_loop; [right; now left|exact Hn]|]. intros H. inversion H; subst; cbn in *; try reflexivity; intuition discriminate.
    - unfold parse_arg. cbn [ra_type ra_detail].
      destruct t; cbn [fst]; (split; [discriminate|]); intros H; inversion H.
  Qed.
End Shown.

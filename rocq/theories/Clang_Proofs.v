(** Proofs about the detection of clang++. *)
From Coq Require Import String.
From Verif Require Import Base Clang_Model Clang_Spec.
Local Open Scope nat_scope.
Local Open Scope bool_scope.
Local Open Scope list_scope.

(** *** First line *)
Lemma until_feed_spec s : forall l fed, until_feed s = (l, fed) ->
  ~ In line_feed l /\ (fed = false /\ s = l \/ fed = true /\ exists rest, s = l ++ line_feed :: rest).
Proof.
  induction s as [|c r IH]; intros l fed H; simpl in H.
  - injection H as <- <-. split; [easy|left; easy].
  - destruct (N.eqb_spec c line_feed) as [->|Hne].
    + injection H as <- <-. split; [easy|]. right. split; [reflexivity|]. exists r. reflexivity.
    + destruct (until_feed r) as [l' fed'] eqn:E. injection H as <- <-.
      destruct (IH l' fed' eq_refl) as [H1 H2]. split.
      * intros [->|H]; [apply Hne; reflexivity|apply H1, H].
      * destruct H2 as [[-> ->]|[-> [rest ->]]]; [left; easy|right]. split; [reflexivity|].
        exists rest. reflexivity.
Qed.
Lemma drop_return_spec l :
  (exists l', l = l' ++ [carriage_return] /\ drop_return l = l') \/
  (forall l', l <> l' ++ [carriage_return]) /\ drop_return l = l.
Proof.
  unfold drop_return. destruct (rev l) as [|c r] eqn:E.
  - right. split; [|reflexivity]. intros l' ->. rewrite rev_app_distr in E. discriminate.
  - apply (f_equal (@rev chr)) in E. rewrite rev_involutive in E. simpl in E.
    destruct (N.eqb_spec c carriage_return) as [->|Hne].
    + left. exists (rev r). split; [exact E|reflexivity].
    + right. split; [|reflexivity]. intros l' H. rewrite E in H. apply app_inj_tail in H. easy.
Qed.
Lemma first_line_none s : first_line s = None <-> s = [].
Proof. destruct s; simpl; [easy|]. destruct (N.eqb c line_feed); [easy|]. destruct (until_feed s). easy. Qed.
Lemma first_line_sound s l : first_line s = Some l -> starts_with_line s l.
Proof.
  unfold first_line. destruct s as [|c r]; [discriminate|]. set (s := c :: r).
  destruct (until_feed s) as [l0 fed] eqn:E. intros H. injection H as <-.
  destruct (until_feed_spec s l0 fed E) as [H1 [[-> H2]|[-> [rest H2]]]].
  - rewrite H2. apply sl_only; [|exact H1]. rewrite <- H2. discriminate.
  - rewrite H2. destruct (drop_return_spec l0) as [(l' & -> & ->)|[H3 ->]].
    + rewrite <- app_assoc. apply sl_crlf. intros H. apply H1, in_or_app. left. exact H.
    + apply sl_lf; [exact H1|exact H3].
Qed.
Lemma until_only l : ~ In line_feed l -> until_feed l = (l, false).
Proof.
  induction l as [|c l IH]; intros H; simpl; [reflexivity|].
  destruct (N.eqb_spec c line_feed) as [->|_]; [exfalso; apply H; left; reflexivity|].
  rewrite IH; [reflexivity|]. intros X. apply H. right. exact X.
Qed.
Lemma until_fed l rest : ~ In line_feed l -> until_feed (l ++ line_feed :: rest) = (l, true).
Proof.
  induction l as [|c l IH]; intros H; simpl; [reflexivity|].
  destruct (N.eqb_spec c line_feed) as [->|_]; [exfalso; apply H; left; reflexivity|].
  rewrite IH; [reflexivity|]. intros X. apply H. right. exact X.
Qed.
Lemma first_line_some (s l : str) (q : str * bool) : s <> [] -> until_feed s = q ->
  (let '(l0, fed) := q in if fed then drop_return l0 else l0) = l -> first_line s = Some l.
Proof.
  intros Hs <- <-. destruct s as [|c r]; [easy|]. unfold first_line. destruct (until_feed (c :: r)). reflexivity.
Qed.
Lemma first_line_complete s l : starts_with_line s l -> first_line s = Some l.
Proof.
  intros H. destruct H as [l Hl Hn|l rest Hn Hr|l rest Hn].
  - eapply first_line_some; [exact Hl|apply until_only; exact Hn|reflexivity].
  - eapply first_line_some; [destruct l; discriminate|apply until_fed; exact Hn|]. cbv beta iota.
    destruct (drop_return_spec l) as [(l' & E & _)|[_ E]]; [exfalso; apply (Hr l'), E|exact E].
  - assert (Hn' : ~ In line_feed (l ++ [carriage_return])).
    { intros X. apply in_app_or in X. destruct X as [X|[X|[]]]; [apply Hn, X|discriminate]. }
    change (l ++ 13%N :: 10%N :: rest) with (l ++ [carriage_return] ++ line_feed :: rest).
    rewrite app_assoc. eapply first_line_some; [destruct l; discriminate|apply until_fed; exact Hn'|].
    cbv beta iota. destruct (drop_return_spec (l ++ [carriage_return])) as [(l' & E & E')|[X _]].
    + etransitivity; [exact E'|]. apply app_inj_tail in E. symmetry. apply E.
    + exfalso. apply (X l). reflexivity.
Qed.

(** *** The regular expression *)
Lemma strip_prefix_iff p : forall s r, strip_prefix p s = Some r <-> s = p ++ r.
Proof.
  induction p as [|a p IH]; intros s r; simpl.
  - split; congruence.
  - destruct s as [|b s]; [split; discriminate|]. destruct (N.eqb_spec a b) as [->|Hne].
    + rewrite IH. split; congruence.
    + split; [discriminate|]. intros H. injection H as H _. congruence.
Qed.

Section Regex.
  Variable is_digit : chr -> bool.
  Context (Hc : digit_class is_digit).

  Lemma digit_run_spec s : forall d rest, digit_run is_digit s = (d, rest) ->
    s = d ++ rest /\ Forall (fun c => is_digit c = true) d /\
    match rest with c :: _ => is_digit c = false | [] => True end.
  Proof.
    induction s as [|c r IH]; intros d rest H; simpl in H.
    - injection H as <- <-. easy.
    - destruct (is_digit c) eqn:E.
      + destruct (digit_run is_digit r) as [d' rest'] eqn:E'. injection H as <- <-.
        destruct (IH d' rest' eq_refl) as (-> & H2 & H3). split; [reflexivity|]. split; [constructor; easy|exact H3].
      + injection H as <- <-. split; [reflexivity|]. split; [constructor|exact E].
  Qed.
  Lemma digit_run_complete d c rest : Forall (fun c => is_digit c = true) d -> is_digit c = false ->
    digit_run is_digit (d ++ c :: rest) = (d, c :: rest).
  Proof.
    intros H Hcc. induction H as [|x d Hx _ IH]; simpl; [rewrite Hcc; reflexivity|]. rewrite Hx, IH. reflexivity.
  Qed.

  Lemma match_here_iff s major : match_here is_digit s = Some major <-> version_after is_digit s [] major.
  Proof.
    unfold match_here, version_after. split.
    - destruct (strip_prefix _ s) as [s'|] eqn:E; [|discriminate]. apply strip_prefix_iff in E.
      destruct (digit_run is_digit s') as [d rest] eqn:E2. destruct (digit_run_spec _ _ _ E2) as (-> & H2 & _).
      destruct d as [|x d]; [discriminate|]. destruct rest as [|c [|y rest]]; try discriminate.
      destruct (N.eqb_spec c dot) as [->|]; [|discriminate]. destruct (is_digit y) eqn:Ey; [|discriminate].
      intros H. injection H as <-. exists y, rest. split; [exact E|]. split; [discriminate|]. split; [exact H2|exact Ey].
    - intros (y & rest & E & H1 & H2 & H3). change ([] ++ ?x) with x in E.
      rewrite (proj2 (strip_prefix_iff _ s _) E).
      rewrite (digit_run_complete major dot (y :: rest) H2 (dc_dot _ Hc)).
      destruct major as [|x major]; [easy|]. rewrite N.eqb_refl, H3. reflexivity.
  Qed.

  Lemma version_after_cons c s before major :
    version_after is_digit (c :: s) (c :: before) major <-> version_after is_digit s before major.
  Proof.
    unfold version_after. split; intros (d & rest & E & H); exists d, rest; (split; [|exact H]).
    - injection E as E. exact E.
    - rewrite E. reflexivity.
  Qed.
  Lemma version_before c s b before major :
    version_after is_digit (c :: s) (b :: before) major -> b = c.
  Proof. intros (d & rest & E & _). injection E as -> _. reflexivity. Qed.

  Lemma captures_sound s : forall major, captures is_digit s = Some major -> version is_digit s major.
  Proof.
    induction s as [|c s IH]; intros major H.
    - cbn [captures] in H. destruct (match_here is_digit []) eqn:E; [|discriminate]. injection H as ->.
      apply match_here_iff in E. exists []. split; [exact E|]. intros. simpl. lia.
    - cbn [captures] in H. destruct (match_here is_digit (c :: s)) eqn:E.
      + injection H as ->. apply match_here_iff in E. exists []. split; [exact E|]. intros. simpl. lia.
      + destruct (IH major H) as (before & H1 & H2). exists (c :: before).
        split; [apply version_after_cons; exact H1|]. intros before' major' V. destruct before' as [|b before'].
        * apply match_here_iff in V. congruence.
        * pose proof (version_before _ _ _ _ _ V) as Eb. subst b. apply (proj1 (version_after_cons _ _ _ _)) in V.
          specialize (H2 before' major' V). simpl. lia.
  Qed.
  Lemma captures_none s : captures is_digit s = None -> forall before major, ~ version_after is_digit s before major.
  Proof.
    induction s as [|c s IH]; intros H before major V; cbn [captures] in H;
      destruct (match_here is_digit _) eqn:E in H; try discriminate.
    - destruct before as [|b before].
      + apply match_here_iff in V. congruence.
      + destruct V as (d & rest & X & _). discriminate.
    - destruct before as [|b before].
      + apply match_here_iff in V. congruence.
      + pose proof (version_before _ _ _ _ _ V) as Eb. subst b. apply (proj1 (version_after_cons _ _ _ _)) in V. apply (IH H _ _ V).
  Qed.
  Lemma version_unique s m1 m2 : version is_digit s m1 -> version is_digit s m2 -> m1 = m2.
  Proof.
    intros (b1 & V1 & L1) (b2 & V2 & L2).
    assert (L : length b1 = length b2) by (apply Nat.le_antisymm; [apply (L1 _ _ V2)|apply (L2 _ _ V1)]).
    destruct V1 as (d1 & r1 & E1 & N1 & F1 & _), V2 as (d2 & r2 & E2 & N2 & F2 & _).
    rewrite E1 in E2.
    assert (A : forall (a b c e : str), length a = length b -> a ++ c = b ++ e -> a = b /\ c = e).
    { induction a as [|x a IHa]; destruct b as [|y b]; intros c e Hl Hab; try discriminate; [easy|].
      injection Hab as -> Hab. injection Hl as Hl. destruct (IHa b c e Hl Hab) as [-> ->]. easy. }
    destruct (A _ _ _ _ L E2) as [_ E3]. apply app_inv_head in E3.
    assert (D1 := digit_run_complete m1 dot (d1 :: r1) F1 (dc_dot _ Hc)).
    assert (D2 := digit_run_complete m2 dot (d2 :: r2) F2 (dc_dot _ Hc)).
    rewrite E3 in D1. congruence.
  Qed.
End Regex.

(** *** Numbers *)
Local Open Scope N_scope.
Lemma parse_snoc s : forall acc c, parse_digits (s ++ [c]) acc =
  match parse_digits s acc with
  | Some n => parse_digits [c] n
  | None => None
  end.
Proof.
  induction s as [|x s IH]; intros acc c; [reflexivity|]. cbn [parse_digits app].
  destruct (N.leb 48 x && N.leb x 57)%bool; [|reflexivity].
  destruct (N.leb (10 * acc + (x - 48)) usize_max); [|reflexivity]. apply IH.
Qed.
Lemma parse_one c acc n : parse_digits [c] acc = Some n <->
  48 <= c <= 57 /\ n = 10 * acc + (c - 48) /\ n < 2 ^ 64.
Proof.
  change (2 ^ 64) with (usize_max + 1). unfold usize_max. cbn [parse_digits].
  destruct (N.leb_spec 48 c), (N.leb_spec c 57); cbn [andb]; try (split; [discriminate|intros (X & _); lia]).
  destruct (N.leb_spec (10 * acc + (c - 48)) usize_max) as [H1|H1]; unfold usize_max in H1.
  - split; [intros E; assert (En : n = 10 * acc + (c - 48)) by congruence; split; [easy|split; [exact En|lia]]|intros (_ & -> & _); reflexivity].
  - split; [discriminate|intros (_ & -> & X); lia].
Qed.
Lemma numeral_nonempty s n : numeral s n -> s <> [].
Proof. intros H. destruct H; [discriminate|]. destruct s; discriminate. Qed.
Lemma parse_iff s n : parse_usize s = Some n <-> number_of s n.
Proof.
  unfold number_of. revert n. induction s as [|c s IH] using rev_ind; intros n.
  - split; [discriminate|]. intros [H _]. apply numeral_nonempty in H. easy.
  - assert (E : parse_usize (s ++ [c]) = parse_digits (s ++ [c]) 0) by (destruct s; reflexivity).
    rewrite E, parse_snoc. destruct s as [|x s].
    + cbn [parse_digits]. fold (parse_digits [c] 0). change (parse_digits [] 0) with (Some 0).
      cbv beta iota. rewrite parse_one. cbn [app]. split.
      * intros (H1 & -> & H2). replace (10 * 0 + (c - 48)) with (c - 48) in * by lia.
        split; [constructor; exact H1|exact H2].
      * intros [H H2]. inversion H as [c' Hc' E1|s' n' c' Hs Hc' E1]; subst.
        -- split; [exact Hc'|]. split; [lia|exact H2].
        -- apply numeral_nonempty in Hs. destruct s'; [easy|]. injection E1 as _ E1.
           destruct s'; discriminate.
    + change (parse_digits (x :: s) 0) with (parse_usize (x :: s)).
      destruct (parse_usize (x :: s)) as [m|] eqn:Em.
      * rewrite parse_one. pose proof (proj1 (IH m) eq_refl) as [Hm Hm2]. split.
        -- intros (H1 & -> & H2). split; [apply num_more; [exact Hm|exact H1]|exact H2].
        -- intros [H H2]. inversion H as [c' Hc' E1|s' n' c' Hs Hc' E1].
           ++ destruct s; discriminate.
           ++ change (x :: s ++ [c]) with ((x :: s) ++ [c]) in E1. apply app_inj_tail in E1. destruct E1 as [-> ->].
              assert (X : Some m = Some n').
              { apply IH. split; [exact Hs|]. lia. }
              injection X as ->. split; [exact Hc'|]. split; [reflexivity|lia].
      * split; [discriminate|]. intros [H H2]. exfalso.
        inversion H as [c' Hc' E1|s' n' c' Hs Hc' E1].
        -- destruct s; discriminate.
        -- change (x :: s ++ [c]) with ((x :: s) ++ [c]) in E1. apply app_inj_tail in E1. destruct E1 as [-> ->].
           assert (X : None = Some n'); [|discriminate]. apply IH. split; [exact Hs|lia].
Qed.

(** *** The decision *)
Lemma find_sound is_digit p : digit_class is_digit -> decides is_digit p (find_clangpp is_digit p).
Proof.
  intros Hc. destruct p as [| |success stdout]; cbn [find_clangpp]; try constructor.
  destruct success; cbn [negb]; [|constructor]. destruct stdout as [text|]; [|constructor].
  destruct (first_line text) as [line|] eqn:El.
  - apply first_line_sound in El. destruct (captures is_digit line) as [major|] eqn:Ec.
    + apply captures_sound in Ec; [|exact Hc]. destruct (parse_usize major) as [n|] eqn:En.
      * apply parse_iff in En. destruct (N.leb_spec min_version n) as [H|H]; unfold min_version in H.
        -- eapply de_found; eassumption.
        -- eapply de_ancient; eassumption.
      * apply de_unexpected; [exact El|]. intros major' n V Hn.
        rewrite <- (version_unique is_digit Hc line _ _ Ec V) in Hn. apply parse_iff in Hn. congruence.
    + apply de_unexpected; [exact El|]. intros major' n (before & V & _) _.
      exact (captures_none is_digit Hc line Ec before major' V).
  - apply first_line_none in El. subst text. constructor.
Qed.
Lemma decides_fun is_digit p a b : digit_class is_digit -> decides is_digit p a -> decides is_digit p b -> a = b.
Proof.
  intros Hc Ha Hb.
  assert (L : forall t l1 l2, starts_with_line t l1 -> starts_with_line t l2 -> l1 = l2).
  { intros t l1 l2 H1 H2. apply first_line_complete in H1. apply first_line_complete in H2. congruence. }
  assert (Hne : forall l, ~ starts_with_line [] l).
  { intros l H. apply first_line_complete in H. discriminate. }
  assert (P : forall t n m, number_of t n -> number_of t m -> n = m).
  { intros t n m H1 H2. apply parse_iff in H1. apply parse_iff in H2. congruence. }
  destruct Ha as [| | | | |t l m n S V N0 C|t l m n S V N0 C|t l S V];
    inversion Hb as [| | | | |t' l' m' n' S' V' N' C'|t' l' m' n' S' V' N' C'|t' l' S' V']; subst;
    try reflexivity; try (exfalso; eapply Hne; eassumption);
    pose proof (L _ _ _ S S') as El; subst l';
    try (rewrite <- (version_unique is_digit Hc _ _ _ V V') in N'; pose proof (P _ _ _ N0 N') as En; subst n');
    try reflexivity; try lia; exfalso.
  - apply (V' m n V N0).
  - apply (V' m n V N0).
  - apply (V m' n' V' N').
  - apply (V m' n' V' N').
Qed.
Lemma find_iff is_digit : digit_class is_digit -> forall p a,
  find_clangpp is_digit p = a <-> decides is_digit p a.
Proof.
  intros Hc p a. split.
  - intros <-. apply find_sound, Hc.
  - intros H. eapply decides_fun; [exact Hc|apply find_sound, Hc|exact H].
Qed.

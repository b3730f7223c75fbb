(** Character literals. *)
From Coq Require Import Ascii String.
From Verif Require Import Base Cpp_Lex_Model Cpp_Lex_Spec Cpp_Display_Spec Cpp_Parse_Spec
  Cpp_Parse_Proofs Cpp_Parse_Proofs2 Cpp_Lex_Proofs Cpp_Lex_Proofs3 Cpp_Lex_Proofs4.
Local Open Scope nat_scope.
Local Open Scope bool_scope.
Local Open Scope list_scope.

Definition value_in (base v : N) (ds : list N) : N := fold_left (fun v d => base * v + d)%N ds v.

Lemma value_in_ge base ds : (1 <= base)%N -> forall v, (v <= value_in base v ds)%N.
Proof.
  intros Hb. induction ds as [|d ds IH]; intros v; [cbn; lia|].
  change (v <= value_in base (base * v + d) ds)%N. specialize (IH (base * v + d)%N). nia.
Qed.

Lemma from_radix_value base limit hs ds : (1 <= base)%N -> Forall2 (fun c d => hex_value c = d) hs ds ->
  forall v, (v < limit)%N ->
  fold_left (fun acc c =>
    match acc with
    | Some v => let v' := (v * base + hex_value c)%N in if N.ltb v' limit then Some v' else None
    | None => None
    end) hs (Some v) = if N.ltb (value_in base v ds) limit then Some (value_in base v ds) else None.
Proof.
  intros Hb. induction 1 as [|c d hs ds <- _ IH]; intros v Hv.
  - cbn [fold_left value_in]. apply N.ltb_lt in Hv. now rewrite Hv.
  - cbn [fold_left]. change (value_in base v (hex_value c :: ds)) with (value_in base (base * v + hex_value c) ds).
    rewrite (N.mul_comm v base). destruct (N.ltb_spec (base * v + hex_value c) limit) as [H|H].
    + now apply IH.
    + pose proof (value_in_ge base ds Hb (base * v + hex_value c)%N) as Hge.
      replace (N.ltb (value_in base (base * v + hex_value c) ds) limit) with false by (symmetry; apply N.ltb_ge; lia).
      clear. induction hs as [|h hs IHh]; [reflexivity|exact IHh].
Qed.

(** digits as characters *)
Lemma oct_cases c : is_oct c = true <-> exists d, c = (48 + d)%N /\ (d < 8)%N.
Proof.
  unfold is_oct, in_range. change (N_of_ascii "0") with 48%N. change (N_of_ascii "7") with 55%N.
  rewrite andb_true_iff, !N.leb_le. split; [intros H; exists (c - 48)%N; lia|intros (d & -> & H); lia].
Qed.
Lemma hex_value_digit d : (d < 10)%N -> hex_value (48 + d)%N = d.
Proof. intros H. unfold hex_value. rewrite digit_char by exact H. lia. Qed.

Definition hex_digits_b : bool :=
  forallb (fun d => N.eqb (hex_value (nth (N.to_nat d) (of_string "0123456789abcdef") 0%N)) d &&
                    is_hex (nth (N.to_nat d) (of_string "0123456789abcdef") 0%N) &&
                    N.eqb (hex_value (nth (N.to_nat d) (of_string "0123456789ABCDEF") 0%N)) d &&
                    is_hex (nth (N.to_nat d) (of_string "0123456789ABCDEF") 0%N))
    [0;1;2;3;4;5;6;7;8;9;10;11;12;13;14;15]%N.
Lemma hex_digit_value c d : hex_digit c d -> is_hex c = true /\ hex_value c = d.
Proof.
  intros H.
  assert (Hd : In d [0;1;2;3;4;5;6;7;8;9;10;11;12;13;14;15]%N).
  { assert (Hlt : N.to_nat d < 16).
    { destruct H as [H|H]; (assert (Hx : nth_error _ (N.to_nat d) <> None) by (rewrite H; discriminate));
        apply nth_error_Some in Hx; exact Hx. }
    assert (d = 0 \/ d = 1 \/ d = 2 \/ d = 3 \/ d = 4 \/ d = 5 \/ d = 6 \/ d = 7 \/ d = 8 \/ d = 9 \/ d = 10
            \/ d = 11 \/ d = 12 \/ d = 13 \/ d = 14 \/ d = 15)%N by lia.
    cbn [In]. intuition. }
  assert (B : hex_digits_b = true) by reflexivity. unfold hex_digits_b in B.
  rewrite forallb_forall in B. specialize (B d Hd). rewrite !andb_true_iff, !N.eqb_eq in B.
  destruct B as (((B1 & B2) & B3) & B4).
  destruct H as [H|H]; apply (nth_error_nth _ _ 0%N) in H.
  - split; [rewrite <- H; exact B2|rewrite <- H; exact B1].
  - split; [rewrite <- H; exact B4|rewrite <- H; exact B3].
Qed.
Lemma hex_cases c : is_hex c = true -> hex_digit c (hex_value c).
Proof.
  intros H. unfold is_hex in H. rewrite !orb_true_iff in H. destruct H as [[H|H]|H].
  - apply is_digit_cases in H as (d & -> & Hd). rewrite hex_value_digit by exact Hd.
    assert (d = 0 \/ d = 1 \/ d = 2 \/ d = 3 \/ d = 4 \/ d = 5 \/ d = 6 \/ d = 7 \/ d = 8 \/ d = 9)%N as Hc by lia.
    left. repeat destruct Hc as [->|Hc]; try reflexivity. now subst.
  - unfold in_range in H. rewrite andb_true_iff, !N.leb_le in H.
    change (N_of_ascii "a") with 97%N in H. change (N_of_ascii "f") with 102%N in H.
    assert (c = 97 \/ c = 98 \/ c = 99 \/ c = 100 \/ c = 101 \/ c = 102)%N as Hc by lia.
    left. repeat destruct Hc as [->|Hc]; try reflexivity. now subst.
  - unfold in_range in H. rewrite andb_true_iff, !N.leb_le in H.
    change (N_of_ascii "A") with 65%N in H. change (N_of_ascii "F") with 70%N in H.
    assert (c = 65 \/ c = 66 \/ c = 67 \/ c = 68 \/ c = 69 \/ c = 70)%N as Hc by lia.
    right. repeat destruct Hc as [->|Hc]; try reflexivity. now subst.
Qed.

Lemma digit1_app f a q r : forallb f a = true -> a <> [] -> f q = false ->
  digit1 f (a ++ q :: r) = POk (q :: r) a.
Proof.
  intros Ha Hne Hq. unfold digit1. rewrite span_app; [|exact Ha|exact Hq]. now destruct a.
Qed.
Lemma digit1_cases f s r a : digit1 f s = POk r a ->
  s = a ++ r /\ a <> [] /\ Forall (fun c => f c = true) a.
Proof.
  unfold digit1. destruct (span_parts f s) as (E & H & _). destruct (span f s) as [x y]. cbn [fst snd] in *.
  destruct x as [|c x]; [discriminate|]. intros [= <- <-]. now split.
Qed.

Lemma scalar_iff n : char_from_u32 n = Some n <-> scalar n.
Proof.
  unfold char_from_u32, scalar. destruct (N.ltb_spec n 55296), (N.leb_spec 57344 n), (N.ltb_spec n 1114112);
    cbn [orb andb]; split; intros; try reflexivity; try discriminate; lia.
Qed.
Lemma scalar_cases n c : char_from_u32 n = Some c -> c = n /\ scalar n.
Proof.
  intros H. assert (c = n) as ->.
  { unfold char_from_u32 in H. destruct (_ || _); [congruence|discriminate]. }
  split; [reflexivity|now apply scalar_iff].
Qed.

(** ** Escapes *)

Lemma preceded_eq {A B} (p : parser A) (q : parser B) s r a : p s = POk r a -> preceded p q s = q r.
Proof. intros H. unfold preceded, pmap, pand. rewrite H. cbn [pbind]. now destruct (q r). Qed.

Lemma pchar_eq a s : pchar a (N_of_ascii a :: s) = POk s (N_of_ascii a).
Proof. unfold pchar, satisfy. now rewrite N.eqb_refl. Qed.
Lemma pchar_cases a s r c : pchar a s = POk r c -> s = N_of_ascii a :: r /\ c = N_of_ascii a.
Proof.
  unfold pchar, satisfy. destruct s as [|x s]; [discriminate|].
  destruct (N.eqb_spec (N_of_ascii a) x) as [<-|]; [|discriminate]. intros [= <- <-]. now split.
Qed.
Lemma pchar_not a x s : x <> N_of_ascii a -> pchar a (x :: s) = PErr.
Proof. intros H. unfold pchar, satisfy. destruct (N.eqb_spec (N_of_ascii a) x); [congruence|reflexivity]. Qed.

Lemma map_opt_cases {A B} (p : parser A) (f : A -> option B) s r b : map_opt p f s = POk r b ->
  exists a, p s = POk r a /\ f a = Some b.
Proof.
  unfold map_opt. destruct (p s) as [r' a| | |]; cbn [pbind]; try discriminate.
  destruct (f a) eqn:E; [|discriminate]. intros [= <- <-]. eauto.
Qed.

Lemma oct_escape ds rest : ds <> [] -> Forall (fun d => (d < 8)%N) ds -> (positional 8 ds < 256)%N ->
  map_opt (digit1 is_oct) (from_radix 8 256) (digits_text ds ++ 39%N :: rest) =
    POk (39%N :: rest) (positional 8 ds).
Proof.
  intros Hne Hds Hv. unfold map_opt. rewrite digit1_app.
  - cbn [pbind]. unfold from_radix.
    rewrite (from_radix_value 8 256 (digits_text ds) ds); [|lia| |lia].
    + change (value_in 8 0 ds) with (positional 8 ds). apply N.ltb_lt in Hv. now rewrite Hv.
    + clear Hne Hv. induction Hds as [|d ds Hd _ IH]; cbn [digits_text map]; constructor; [|exact IH].
      apply hex_value_digit. lia.
  - apply forallb_forall. intros c Hc. unfold digits_text in Hc. apply in_map_iff in Hc as (d & <- & Hd).
    rewrite Forall_forall in Hds. apply oct_cases. eauto.
  - now destruct ds.
  - reflexivity.
Qed.

Lemma hex_escape hs ds rest : ds <> [] -> Forall2 hex_digit hs ds -> scalar (positional 16 ds) ->
  map_opt (map_opt (digit1 is_hex) (from_radix 16 (2 ^ 32))) char_from_u32 (hs ++ 39%N :: rest) =
    POk (39%N :: rest) (positional 16 ds).
Proof.
  intros Hne Hh Hs. unfold map_opt. rewrite digit1_app.
  - cbn [pbind]. unfold from_radix.
    rewrite (from_radix_value 16 (2 ^ 32) hs ds); [|lia| |reflexivity].
    + change (value_in 16 0 ds) with (positional 16 ds).
      assert (Hlt : (positional 16 ds <? 2 ^ 32)%N = true).
      { apply N.ltb_lt. change (2 ^ 32)%N with 4294967296%N. unfold scalar in Hs. lia. }
      rewrite Hlt. cbn [pbind]. apply scalar_iff in Hs. now rewrite Hs.
    + clear Hne Hs. induction Hh as [|c d hs ds Hd _ IH]; constructor; [|exact IH].
      now apply hex_digit_value.
  - clear Hne Hs. induction Hh as [|c d hs ds Hd _ IH]; [reflexivity|]. cbn [forallb].
    rewrite IH. now rewrite (proj1 (hex_digit_value c d Hd)).
  - destruct Hh; congruence.
  - reflexivity.
Qed.

Lemma oct_not_special d : (d < 8)%N ->
  (48 + d <> 116 /\ 48 + d <> 114 /\ 48 + d <> 110 /\ 48 + d <> 39 /\ 48 + d <> 34 /\ 48 + d <> 92)%N.
Proof. lia. Qed.

Lemma escape_meaning body c rest : denotes (92%N :: body) c ->
  escape_sequence (body ++ 39%N :: rest) = POk (39%N :: rest) c.
Proof.
  intros H. remember (92%N :: body) as t eqn:Et. destruct H as [c0 H|e c0 H|ds Hne Hds Hv|letter hs ds Hl Hne Hh Hs].
  - congruence.
  - cbn in Et. injection Et as <-.
    cbn in H. repeat destruct H as [[= <- <-]|H]; try reflexivity. destruct H.
  - cbn [of_string app] in Et. injection Et as <-.
    destruct ds as [|d ds]; [congruence|]. inversion Hds as [|? ? Hd _]; subst.
    destruct (oct_not_special d Hd) as (N1 & N2 & N3 & N4 & N5 & N6).
    pose proof (oct_escape (d :: ds) rest Hne Hds Hv) as H.
    cbn [digits_text map app] in *.
    unfold escape_sequence, por, pvalue, pmap at 1 2 3. rewrite !pchar_not by assumption. cbn [pbind].
    assert (E : satisfy (N.eqb 34) ((48 + d)%N :: map (fun d => (48 + d)%N) ds ++ 39%N :: rest) = PErr).
    { unfold satisfy. destruct (N.eqb_spec 34 (48 + d)); [congruence|reflexivity]. }
    rewrite E.
    match goal with |- context [map_opt (digit1 is_oct) ?f ?x] =>
      assert (E' : map_opt (digit1 is_oct) f x = POk (39%N :: rest) (positional 8 (d :: ds))) by exact H;
      now rewrite E' end.
  - cbn [of_string app] in Et. injection Et as <-.
    pose proof (hex_escape hs ds rest Hne Hh Hs) as H.
    assert (G : forall a, In a ["x"; "u"; "U"]%char ->
              escape_sequence (N_of_ascii a :: hs ++ 39%N :: rest) = POk (39%N :: rest) (positional 16 ds)).
    { intros a Ha. rewrite <- H.
      transitivity (preceded (por (pchar "x") (por (pchar "u") (pchar "U")))
          (map_opt (map_opt (digit1 is_hex) (from_radix 16 (2 ^ 32))) char_from_u32)
          (N_of_ascii a :: hs ++ 39%N :: rest)).
      - cbn [In] in Ha. destruct Ha as [<-|[<-|[<-|[]]]]; reflexivity.
      - apply preceded_eq with (a := N_of_ascii a).
        cbn [In] in Ha. destruct Ha as [<-|[<-|[<-|[]]]]; reflexivity. }
    cbn [In] in Hl. destruct Hl as [<-|[<-|[<-|[]]]]; cbn [of_string app]; apply G; cbn [In]; auto.
Qed.

(** ** The whole character literal *)

Lemma char_prefix p s : In p char_prefixes ->
  pand (opt (por (pvalue 56%N (tag "u8")) (por (pchar "u") (por (pchar "U") (pchar "L"))))) (pchar "'")
    (of_string p ++ 39%N :: s) = POk s (match of_string p with [] => None | c :: _ => Some (match of_string p with [_] => c | _ => 56%N end) end, 39%N).
Proof.
  cbn [In char_prefixes]. intros [<-|[<-|[<-|[<-|[<-|[]]]]]]; reflexivity.
Qed.

Lemma character_meaning p body c rest : In p char_prefixes -> denotes body c ->
  character (of_string p ++ of_string "'" ++ body ++ of_string "'" ++ rest) = POk rest c.
Proof.
  intros Hp Hd. cbn [of_string]. change (N_of_ascii "'") with 39%N. cbn [app].
  unfold character, delimited. erewrite preceded_eq; [|apply char_prefix; exact Hp].
  unfold terminated, pmap, pand.
  assert (E : por (preceded (pchar "\") escape_sequence) anychar (body ++ 39%N :: rest) = POk (39%N :: rest) c).
  { destruct body as [|b body]; [inversion Hd|]. cbn [app].
    destruct (N.eq_dec b 92) as [->|Hb].
    - unfold por. erewrite preceded_eq; [|reflexivity].
      match goal with |- context [escape_sequence ?x] =>
        assert (X : escape_sequence x = POk (39%N :: rest) c) by exact (escape_meaning body c rest Hd);
        now rewrite X end.
    - assert (E : preceded (pchar "\") escape_sequence (b :: body ++ 39%N :: rest) = PErr).
      { unfold preceded, pmap, pand. rewrite pchar_not by exact Hb. reflexivity. }
      unfold por. rewrite E. inversion Hd; subst; try congruence. reflexivity. }
  match goal with |- context [por _ anychar ?x] =>
    assert (X : por (preceded (pchar "\") escape_sequence) anychar x = POk (39%N :: rest) c) by exact E;
    rewrite X end.
  reflexivity.
Qed.

(** The converse *)

Lemma radix_cases base limit hs v : (1 <= base)%N -> (0 < limit)%N -> from_radix base limit hs = Some v ->
  v = positional base (map hex_value hs).
Proof.
  intros Hb Hl H. unfold from_radix in H.
  rewrite (from_radix_value base limit hs (map hex_value hs)) in H; [|exact Hb| |exact Hl].
  - destruct (N.ltb _ _); [|discriminate]. injection H as <-. reflexivity.
  - clear. induction hs; constructor; auto.
Qed.

Lemma escape_cases s r c : escape_sequence s = POk r c -> exists body,
  s = body ++ r /\ (exists b, body <> [] /\ b = body) /\ denotes (92%N :: body) c.
Proof.
  unfold escape_sequence. intros H.
  assert (S : forall e, In (e, c) simple_escapes -> s = of_string e ++ r -> of_string e <> [] ->
     exists body, s = body ++ r /\ (exists b, body <> [] /\ b = body) /\ denotes (92%N :: body) c).
  { intros e He -> Hne. exists (of_string e). repeat split; eauto. exact (denotes_escape e c He). }
  apply por_cases in H as [H|[_ H]].
  { apply pmap_cases in H as (x & H & ->). apply pchar_cases in H as (-> & _).
    apply (S "t"%string); cbn; auto; discriminate. }
  apply por_cases in H as [H|[_ H]].
  { apply pmap_cases in H as (x & H & ->). apply pchar_cases in H as (-> & _).
    apply (S "r"%string); cbn; auto; discriminate. }
  apply por_cases in H as [H|[_ H]].
  { apply pmap_cases in H as (x & H & ->). apply pchar_cases in H as (-> & _).
    apply (S "n"%string); cbn; auto; discriminate. }
  apply por_cases in H as [H|[_ H]].
  { apply pchar_cases in H as (-> & ->). apply (S "'"%string); cbn; auto; discriminate. }
  apply por_cases in H as [H|[_ H]].
  { unfold satisfy in H. destruct s as [|x s]; [discriminate|].
    destruct (N.eqb_spec 34 x) as [<-|]; [|discriminate]. injection H as <- <-.
    apply (S """"%string); cbn; auto; [|discriminate]. do 4 right. now left. }
  apply por_cases in H as [H|[_ H]].
  { apply pchar_cases in H as (-> & ->). apply (S "\"%string); cbn; auto; [|discriminate]. do 5 right. now left. }
  apply por_cases in H as [H|[_ H]].
  - apply map_opt_cases in H as (hs & H & Hv). apply digit1_cases in H as (-> & Hne & Hall).
    assert (G : exists ds, hs = digits_text ds /\ map hex_value hs = ds /\ Forall (fun d => (d < 8)%N) ds).
    { clear Hv Hne S. induction Hall as [|x hs Hx _ (ds & -> & E & Hds)]; [now exists []|].
      apply oct_cases in Hx as (d & -> & Hd). exists (d :: ds). cbn [digits_text map] in *.
      rewrite hex_value_digit by lia. repeat split; [now f_equal|now constructor]. }
    destruct G as (ds & -> & E & Hds). pose proof (radix_cases 8 256 _ _ ltac:(lia) ltac:(lia) Hv) as Ec.
    rewrite E in Ec. subst c. exists (digits_text ds). repeat split; eauto.
    apply (denotes_octal ds); [now intros ->|exact Hds|].
    unfold from_radix in Hv. rewrite (from_radix_value 8 256 (digits_text ds) ds) in Hv; [|lia| |lia].
    + change (value_in 8 0 ds) with (positional 8 ds) in Hv. now destruct (N.ltb_spec (positional 8 ds) 256).
    + rewrite <- E at 2. clear. induction (digits_text ds); constructor; auto.
  - unfold preceded in H. apply pmap_cases in H as ([x y] & H & ->).
    apply pand_cases in H as (r' & Hl & H). cbn [fst snd] in *.
    apply map_opt_cases in H as (n & H & Hc). apply map_opt_cases in H as (hs & H & Hv).
    apply digit1_cases in H as (-> & Hne & Hall).
    apply scalar_cases in Hc as (-> & Hsc). pose proof (radix_cases 16 (2 ^ 32) _ _ ltac:(lia) ltac:(reflexivity) Hv) as En.
    subst n.
    assert (L : exists letter, In letter ["x"; "u"; "U"]%string /\ s = of_string letter ++ hs ++ r /\ of_string letter <> []).
    { apply por_cases in Hl as [Hl|[_ Hl]]; [|apply por_cases in Hl as [Hl|[_ Hl]]];
        apply pchar_cases in Hl as (-> & _).
      - exists "x"%string. cbn. repeat split; auto. discriminate.
      - exists "u"%string. cbn. repeat split; auto. discriminate.
      - exists "U"%string. cbn. repeat split; auto. discriminate. }
    destruct L as (letter & Hl' & -> & Hlne). exists (of_string letter ++ hs).
    rewrite <- app_assoc. repeat split.
    + exists (of_string letter ++ hs). split; [|reflexivity]. destruct hs; [congruence|]. destruct (of_string letter); discriminate.
    + apply (denotes_hex letter hs (map hex_value hs) Hl'); [destruct hs; [congruence|discriminate]| |exact Hsc].
      clear - Hall. induction Hall; constructor; [now apply hex_cases|assumption].
Qed.

Lemma tag_cases t s r : tag t s = POk r tt -> s = of_string t ++ r.
Proof.
  unfold tag. generalize (of_string t). intros l. revert s.
  assert (G : forall l s r, strip_tag l s = Some r -> s = l ++ r).
  { clear. induction l as [|a l IH]; cbn [strip_tag]; intros s r H; [now injection H as ->|].
    destruct s as [|b s]; [discriminate|]. destruct (N.eqb_spec a b) as [->|]; [|discriminate].
    cbn. f_equal. now apply IH. }
  intros s H. destruct (strip_tag l s) eqn:E; [|discriminate]. injection H as <-. now apply G.
Qed.

Lemma character_cases s r c : character s = POk r c -> exists p body,
  In p char_prefixes /\ denotes body c /\
  s = of_string p ++ of_string "'" ++ body ++ of_string "'" ++ r.
Proof.
  unfold character, delimited, preceded. intros H.
  apply pmap_cases in H as ([[x q] y] & H & E). cbn [snd] in E. subst y.
  apply pand_cases in H as (r1 & H1 & H2). cbn [fst snd] in *.
  unfold terminated in H2. apply pmap_cases in H2 as ([c' q'] & H2 & E). cbn [fst] in E. subst c'.
  apply pand_cases in H2 as (r2 & H2 & H3). cbn [fst snd] in *.
  apply pchar_cases in H3 as (-> & _). apply pand_cases in H1 as (r0 & H0 & H1). cbn [fst snd] in *.
  apply pchar_cases in H1 as (-> & _).
  assert (P : exists p, In p char_prefixes /\ s = of_string p ++ 39%N :: r1).
  { unfold opt in H0.
    destruct (por _ _ s) as [r' a| | |] eqn:E; inversion H0; subst.
    - apply por_cases in E as [E|[_ E]].
      + apply pmap_cases in E as ([] & E & _). apply tag_cases in E. exists "u8"%string. split; [cbn; auto|exact E].
      + apply por_cases in E as [E|[_ E]]; [|apply por_cases in E as [E|[_ E]]]; apply pchar_cases in E as (-> & _).
        * exists "u"%string. split; [cbn; auto|reflexivity].
        * exists "U"%string. split; [cbn; auto|reflexivity].
        * exists "L"%string. split; [cbn; auto 6|reflexivity].
    - exists ""%string. split; [cbn; auto|reflexivity]. }
  destruct P as (p & Hp & ->).
  apply por_cases in H2 as [H2|[Hno H2]].
  - unfold preceded in H2. apply pmap_cases in H2 as ([x' y'] & H2 & E). cbn [snd] in E. subst y'.
    apply pand_cases in H2 as (r3 & H4 & H5). cbn [fst snd] in *. apply pchar_cases in H4 as (-> & _).
    apply escape_cases in H5 as (body & -> & _ & Hd). exists p, (92%N :: body).
    split; [exact Hp|]. split; [exact Hd|]. reflexivity.
  - unfold anychar, satisfy in H2. destruct r1 as [|b r1]; [discriminate|]. injection H2 as -> ->.
    exists p, [c]. split; [exact Hp|]. split; [|reflexivity]. constructor. intros ->.
    discriminate Hno.
Qed.

Lemma quoted_not_number p s : In p char_prefixes -> integer (of_string p ++ 39%N :: s) = PErr.
Proof.
  intros Hp. cbn [In char_prefixes] in Hp.
  repeat destruct Hp as [<-|Hp]; try reflexivity. destruct Hp.
Qed.

(** C24: what is accepted as a character literal, and its value *)
Lemma char_literal_iff s r c o :
  (o = None -> forall x t, r = x :: t -> ~ can_start_word x) ->
  (o <> None -> word_ends r) -> suffix_ok o ->
  parse_literal s = POk r (mk_literal (LChar c) o) <->
  exists p body, In p char_prefixes /\ denotes body c /\
    s = of_string p ++ of_string "'" ++ body ++ of_string "'" ++ suffix_text o ++ r.
Proof.
  intros Hr1 Hr2 Ho. split.
  - intros H. unfold parse_literal in H. apply pmap_cases in H as ([v o'] & H & E).
    cbn [fst snd] in E. injection E as <- <-. apply pand_cases in H as (r' & Hv & Hs). cbn [fst snd] in *.
    apply opt_identifier in Hs as (-> & _).
    unfold parse_literal_value in Hv. apply por_cases in Hv as [Hv|[_ Hv]].
    + exfalso. unfold integer, terminated in Hv. apply pmap_cases in Hv as ([v x] & Hv & E). cbn in E. subst v.
      apply pand_cases in Hv as (r1 & Hv & _). cbn [fst] in Hv.
      apply por_cases in Hv as [Hv|[_ Hv]]; apply pmap_cases in Hv as (z & _ & E); discriminate.
    + apply pmap_cases in Hv as (c' & Hv & [= <-]). exact (character_cases _ _ _ Hv).
  - intros (p & body & Hp & Hd & ->).
    assert (EC := character_meaning p body c (suffix_text o ++ r) Hp Hd).
    unfold parse_literal, pmap, pand, parse_literal_value, por, pmap.
    assert (EI : integer (of_string p ++ of_string "'" ++ body ++ of_string "'" ++ suffix_text o ++ r) = PErr)
      by exact (quoted_not_number p _ Hp).
    rewrite EI, EC. cbn [pbind].
    assert (ES : opt identifier (suffix_text o ++ r) = POk r o).
    { unfold opt. destruct o as [w|]; cbn [suffix_text].
      - assert (E : identifier (w ++ r) = POk r w).
        { apply identifier_iff. repeat split; [now apply Ho|apply Hr2; discriminate]. }
        now rewrite E.
      - cbn [app]. assert (E : identifier r = PErr) by (apply identifier_none; exact (Hr1 eq_refl)). now rewrite E. }
    rewrite ES. reflexivity.
Qed.

(** C24: display and parse again *)
Lemma char_round_trip verbatim c o rest : suffix_ok o -> word_ends rest ->
  (escaped_alike c \/ verbatim c = true ->
   parse_literal (show_literal verbatim (mk_literal (LChar c) o) ++ rest) =
     POk rest (mk_literal (LChar c) o)) /\
  (~ escaped_alike c -> verbatim c = false ->
   parse_literal (show_literal verbatim (mk_literal (LChar c) o) ++ rest) = PErr).
Proof.
  intros Ho Hr.
  unfold show_literal. cbn [lit_value lit_suffix show_literal_value].
  change (match o with Some s => s | None => [] end) with (suffix_text o).
  unfold debug_char. cbv zeta. rewrite <- !app_assoc.
  assert (G : forall body, denotes body c ->
    parse_literal (of_string "'" ++ body ++ of_string "'" ++ suffix_text o ++ rest) =
    POk rest (mk_literal (LChar c) o)).
  { intros body Hd. apply char_literal_iff; auto.
    - intros _ x t -> Hx. apply (Hr x t eq_refl). unfold can_continue_word. apply in_or_app. now left.
    - exists ""%string, body. split; [cbn; auto|]. split; [exact Hd|reflexivity]. }
  unfold escaped_alike. cbn [In].
  destruct (N.eqb_spec c 0) as [->|N0]; [split; [intros _|tauto]; apply G; apply (denotes_octal [0%N]); [discriminate|repeat constructor|reflexivity]|].
  destruct (N.eqb_spec c 9) as [->|N1]; [split; [intros _|tauto]; apply G; apply (denotes_escape "t"); cbn; tauto|].
  destruct (N.eqb_spec c 13) as [->|N2]; [split; [intros _|tauto]; apply G; apply (denotes_escape "r"); cbn; tauto|].
  destruct (N.eqb_spec c 10) as [->|N3]; [split; [intros _|tauto]; apply G; apply (denotes_escape "n"); cbn; tauto|].
  destruct (N.eqb_spec c 92) as [->|N4]; [split; [intros _|tauto]; apply G; apply (denotes_escape "\"); cbn; tauto|].
  destruct (N.eqb_spec c 39) as [->|N5]; [split; [intros _|tauto]; apply G; apply (denotes_escape "'"); cbn; tauto|].
  split; intros H.
  - assert (V : verbatim c = true) by (destruct H as [H|H]; [exfalso; intuition|exact H]).
    rewrite V. apply G. now constructor.
  - intros V. rewrite V. rewrite <- !app_assoc.
    match goal with |- parse_literal ?x = _ => destruct (parse_literal x) as [r l| | |] eqn:E end; [|reflexivity|discriminate E|discriminate E].
    discriminate E.
Qed.

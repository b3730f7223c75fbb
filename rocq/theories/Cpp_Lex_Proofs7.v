(** How character literals are displayed (C24). *)
From Coq Require Import Ascii String.
From Verif Require Import Base Cpp_Lex_Model Cpp_Lex_Spec.
Local Open Scope nat_scope.
Local Open Scope bool_scope.
Local Open Scope list_scope.

Lemma hex_char_digit (d : N) : (d < 16)%N ->
  nth_error (of_string "0123456789abcdef") (N.to_nat d) = Some (hex_char d).
Proof.
  intros H.
  assert (G : In d (map N.of_nat (seq 0 16))).
  { apply in_map_iff. exists (N.to_nat d). split; [lia|]. apply in_seq. lia. }
  cbn [seq map N.of_nat] in G. cbn in G.
  repeat (destruct G as [<-|G]; [reflexivity|]). destruct G.
Qed.

Lemma positional_app (ds es : list N) v : fold_left (fun v d => 16 * v + d)%N (ds ++ es) v =
  fold_left (fun v d => 16 * v + d)%N es (fold_left (fun v d => 16 * v + d)%N ds v).
Proof. apply fold_left_app. Qed.

Lemma show_hex_loop_spec : forall f (n : N) (acc : str) ads,
  (n < 16 ^ N.of_nat f)%N -> f <> 0 ->
  (n = 0%N -> acc = []) ->
  Forall2 (fun c d => nth_error (of_string "0123456789abcdef") (N.to_nat d) = Some c) acc ads ->
  exists ds, Forall2 (fun c d => nth_error (of_string "0123456789abcdef") (N.to_nat d) = Some c)
      (show_hex_loop f n acc) (ds ++ ads) /\
    ds <> [] /\ positional 16 ds = n /\ (forall d ds', ds ++ ads = 0%N :: d :: ds' -> False).
Proof.
  induction f as [|f IH]; intros n acc ads Hn Hf Hz HF; [now destruct Hf|]. cbn [show_hex_loop].
  destruct (N.ltb_spec n 16) as [L|L].
  - exists [n]. split; [constructor; [now apply hex_char_digit|exact HF]|]. split; [discriminate|].
    split; [unfold positional; cbn [fold_left]; lia|].
    intros d ds' E. cbn [app] in E. injection E as -> ->. specialize (Hz eq_refl). subst acc. inversion HF.
  - assert (E16 : (16 ^ N.of_nat (S f) = 16 * 16 ^ N.of_nat f)%N) by (rewrite Nat2N.inj_succ, N.pow_succ_r'; reflexivity).
    assert (Hm : (n mod 16 < 16)%N) by (apply N.mod_lt; discriminate).
    assert (Hd : (n = 16 * (n / 16) + n mod 16)%N) by (apply N.div_mod; discriminate).
    assert (Hq : (1 <= n / 16)%N) by (apply N.div_le_lower_bound; lia).
    assert (Hl : (n / 16 < 16 ^ N.of_nat f)%N) by (apply N.div_lt_upper_bound; lia).
    destruct (IH (n / 16)%N (hex_char (n mod 16) :: acc) ((n mod 16)%N :: ads) Hl) as (ds & F & NE & P & Z).
    + intros ->. cbn in Hl. lia.
    + intros X. rewrite X in Hq. lia.
    + constructor; [now apply hex_char_digit|exact HF].
    + exists (ds ++ [(n mod 16)%N]). rewrite <- app_assoc. cbn [app]. split; [exact F|].
      split; [now destruct ds|]. split; [|exact Z].
      unfold positional in *. rewrite positional_app, P. cbn [fold_left]. lia.
Qed.

Lemma show_hex_spec (n : N) : (n < 2 ^ 32)%N -> hexadecimal n (show_hex n).
Proof.
  intros H. destruct (show_hex_loop_spec 8 n [] []) as (ds & F & NE & P & Z); auto.
  rewrite app_nil_r in *. exists ds. auto.
Qed.

Lemma shown_characters verbatim (c : chr) o : scalar c ->
  exists body, show_literal verbatim (mk_literal (LChar c) o) =
      of_string "'" ++ body ++ of_string "'" ++ suffix_text o /\
    ((exists e, In (c, e) rust_escapes /\ body = of_string e) \/
     (forall e, ~ In (c, e) rust_escapes) /\
       (verbatim c = true /\ body = [c] \/
        verbatim c = false /\ exists h, hexadecimal c h /\ body = of_string "\u{" ++ h ++ of_string "}")).
Proof.
  intros Hs. unfold show_literal. cbn [lit_value lit_suffix show_literal_value].
  change (match o with Some s => s | None => [] end) with (suffix_text o).
  unfold debug_char. cbv zeta. rewrite <- !app_assoc.
  destruct (N.eqb_spec c 0) as [->|N0]; [eexists; split; [reflexivity|]; left; exists "\0"%string; split; [now left|reflexivity]|].
  destruct (N.eqb_spec c 9) as [->|N1]; [eexists; split; [reflexivity|]; left; exists "\t"%string; split; [cbn; tauto|reflexivity]|].
  destruct (N.eqb_spec c 13) as [->|N2]; [eexists; split; [reflexivity|]; left; exists "\r"%string; split; [cbn; tauto|reflexivity]|].
  destruct (N.eqb_spec c 10) as [->|N3]; [eexists; split; [reflexivity|]; left; exists "\n"%string; split; [cbn; tauto|reflexivity]|].
  destruct (N.eqb_spec c 92) as [->|N4]; [eexists; split; [reflexivity|]; left; exists "\\"%string; split; [cbn; tauto|reflexivity]|].
  destruct (N.eqb_spec c 39) as [->|N5]; [eexists; split; [reflexivity|]; left; exists "\'"%string; split; [cbn; tauto|reflexivity]|].
  assert (NI : forall e, ~ In (c, e) rust_escapes).
  { intros e I. unfold rust_escapes in I. cbn [In] in I.
    repeat (destruct I as [I|I]; [injection I; intros; subst; congruence|]). destruct I. }
  destruct (verbatim c) eqn:V; (eexists; split; [reflexivity|]; right; split; [exact NI|]).
  - left. split; reflexivity.
  - right. split; [reflexivity|]. exists (show_hex c). split; [|reflexivity].
    apply show_hex_spec. unfold scalar in Hs. change (2 ^ 32)%N with 4294967296%N. lia.
Qed.

(** Literals: canonical results, display and parse again. *)
From Coq Require Import Ascii String DecimalN.
From Verif Require Import Base Cpp_Lex_Model Cpp_Lex_Spec Cpp_Display_Spec Cpp_Parse_Spec
  Cpp_Parse_Proofs Cpp_Parse_Proofs2 Cpp_Lex_Proofs Cpp_Lex_Proofs3.
Local Open Scope nat_scope.
Local Open Scope bool_scope.
Local Open Scope list_scope.

(** ** User-defined suffixes *)

Lemma suffix_eq o rest : suffix_ok o -> word_ends rest ->
  opt identifier (suffix_text o ++ rest) = POk rest o.
Proof.
  intros Ho Hr. unfold opt. destruct o as [w|]; cbn [suffix_text].
  - assert (E : identifier (w ++ rest) = POk rest w) by (apply identifier_iff; auto).
    now rewrite E.
  - assert (E : identifier rest = PErr).
    { apply identifier_none. intros c r -> Hc. apply (Hr c r eq_refl). unfold can_continue_word.
      apply in_or_app. now left. }
    cbn [app]. now rewrite E.
Qed.

Lemma letter_not_digit c : can_start_word c -> ~ In c (of_string "0123456789").
Proof.
  intros H Hd. apply digit_iff in Hd. apply is_digit_cases in Hd as (d & -> & Hd).
  unfold can_start_word in H. apply id_start_iff in H.
  unfold is_id_start, is_alpha, in_range in H.
  rewrite !orb_true_iff, !andb_true_iff, !N.leb_le, !N.eqb_eq in H.
  change (N_of_ascii "A") with 65%N in H. change (N_of_ascii "a") with 97%N in H.
  change (N_of_ascii "_") with 95%N in H. change (N_of_ascii "$") with 36%N in H. lia.
Qed.

Lemma suffix_letter_continues c : int_suffix c -> can_continue_word c.
Proof.
  intros H. apply id_continue_iff. apply int_suffix_iff in H. unfold is_int_suffix in H.
  rewrite !orb_true_iff, !N.eqb_eq in H.
  repeat match goal with H : _ \/ _ |- _ => destruct H as [H|H] end; subst c; reflexivity.
Qed.

Lemma suffix_number_ends sfx o rest : number_suffix_ok o -> word_ends rest ->
  number_ends sfx (suffix_text o ++ rest).
Proof.
  intros Ho Hr c r E. destruct o as [w|]; cbn [suffix_text app] in E.
  - destruct (Ho w eq_refl) as [(c' & w' & -> & Hc' & _) Hn]. injection E as -> _.
    split; [exact (Hn c w' eq_refl)|intros _; exact (letter_not_digit c Hc')].
  - split; [|intros _]; intros H; apply (Hr c r E); [now apply suffix_letter_continues|].
    unfold can_continue_word. apply in_or_app. now right.
Qed.

Lemma number_suffix_word o : number_suffix_ok o -> suffix_ok o.
Proof. intros H w E. now destruct (H w E). Qed.

(** C23: the value of any number *)
Lemma literal_number sn ds sfx o rest :
  are_digits ds -> Forall int_suffix sfx -> number_suffix_ok o -> word_ends rest ->
  let v := (match sn with Minus => - digits_value ds | _ => digits_value ds end)%Z in
  ((- 2 ^ 63 <= v < 2 ^ 63)%Z ->
   parse_literal (sign_text sn ++ digits_text ds ++ sfx ++ suffix_text o ++ rest) =
     POk rest (mk_literal (LI64 v) o)) /\
  ((2 ^ 63 <= v < 2 ^ 64)%Z -> sn = NoSign ->
   parse_literal (sign_text sn ++ digits_text ds ++ sfx ++ suffix_text o ++ rest) =
     POk rest (mk_literal (LU64 v) o)) /\
  ((v < - 2 ^ 63 \/ 2 ^ 64 <= v \/ (2 ^ 63 <= v /\ sn <> NoSign))%Z ->
   parse_literal (sign_text sn ++ digits_text ds ++ sfx ++ suffix_text o ++ rest) = PErr).
Proof.
  intros Hds Hsfx Ho Hr v.
  pose proof (integer_meaning sn ds sfx (suffix_text o ++ rest) Hds Hsfx
                (suffix_number_ends sfx o rest Ho Hr)) as H. cbv zeta in H.
  assert (Ev : (if is_minus sn then - digits_value ds else digits_value ds)%Z = v)
    by (subst v; now destruct sn). rewrite Ev in H.
  assert (Hpos : sn = NoSign -> (0 <= v)%Z)
    by (intros E; subst v; rewrite E; apply (value_from_ge ds 0); lia).
  clearbody v. clear Ev.
  unfold parse_literal, pmap, pand. rewrite H. pose proof (suffix_eq o rest (number_suffix_word o Ho) Hr) as Hs.
  split; [|split]; intros Hv.
  - assert (E : ((- 2 ^ 63 <=? v)%Z && (v <? 2 ^ 63)%Z) = true)
      by (apply andb_true_iff; split; [apply Z.leb_le|apply Z.ltb_lt]; lia).
    rewrite E. cbn [pbind]. rewrite Hs. reflexivity.
  - intros ->. assert (E : ((- 2 ^ 63 <=? v)%Z && (v <? 2 ^ 63)%Z) = false)
      by (apply andb_false_iff; right; apply Z.ltb_ge; lia).
    rewrite E. assert (E2 : (v <? 2 ^ 64)%Z = true) by (apply Z.ltb_lt; lia). rewrite E2.
    cbn [pbind]. rewrite Hs. reflexivity.
  - assert (E : ((- 2 ^ 63 <=? v)%Z && (v <? 2 ^ 63)%Z) = false).
    { apply andb_false_iff. destruct Hv as [Hv|Hv]; [left; apply Z.leb_gt|right; apply Z.ltb_ge]; lia. }
    rewrite E. destruct sn; try reflexivity.
    destruct (Z.ltb_spec v (2 ^ 64)) as [Hlt|Hge]; [|reflexivity].
    (* negative without sign *)
    exfalso. destruct Hv as [Hv|[Hv|[_ Hv]]]; [|lia|congruence]. specialize (Hpos eq_refl). lia.
Qed.

(** ** Display of integers *)

Fixpoint uint_digits (u : Decimal.uint) : list N :=
  match u with
  | Decimal.Nil => []
  | Decimal.D0 u => 0%N :: uint_digits u
  | Decimal.D1 u => 1%N :: uint_digits u
  | Decimal.D2 u => 2%N :: uint_digits u
  | Decimal.D3 u => 3%N :: uint_digits u
  | Decimal.D4 u => 4%N :: uint_digits u
  | Decimal.D5 u => 5%N :: uint_digits u
  | Decimal.D6 u => 6%N :: uint_digits u
  | Decimal.D7 u => 7%N :: uint_digits u
  | Decimal.D8 u => 8%N :: uint_digits u
  | Decimal.D9 u => 9%N :: uint_digits u
  end.

Lemma uint_str_digits u : uint_str u = digits_text (uint_digits u).
Proof. induction u; cbn [uint_str uint_digits digits_text map]; [reflexivity|..]; now rewrite IHu. Qed.
Lemma uint_digits_small u : Forall (fun d => (d < 10)%N) (uint_digits u).
Proof. induction u; cbn [uint_digits]; constructor; (lia || assumption). Qed.

Lemma uint_acc_value u : forall acc,
  Z.pos (Pos.of_uint_acc u acc) = value_from (Z.pos acc) (uint_digits u).
Proof.
  induction u as [|u IH|u IH|u IH|u IH|u IH|u IH|u IH|u IH|u IH|u IH]; intros acc;
    cbn [Pos.of_uint_acc uint_digits]; [reflexivity|..];
    rewrite IH; unfold value_from; cbn [fold_left]; f_equal; lia.
Qed.
Lemma uint_value u : Z.of_N (N.of_uint u) = digits_value (uint_digits u).
Proof.
  unfold N.of_uint.
  induction u as [|u IH|u IH|u IH|u IH|u IH|u IH|u IH|u IH|u IH|u IH];
    cbn [Pos.of_uint uint_digits]; [reflexivity|exact IH|..];
    cbn [Z.of_N]; rewrite uint_acc_value; reflexivity.
Qed.

Lemma shown_digits n : exists ds, uint_str (N.to_uint n) = digits_text ds /\ are_digits ds /\
  digits_value ds = Z.of_N n.
Proof.
  exists (uint_digits (N.to_uint n)). split; [apply uint_str_digits|]. split; [split|].
  - intros E. assert (En : N.to_uint n = Decimal.Nil) by (destruct (N.to_uint n); [reflexivity|discriminate..]).
    pose proof (DecimalN.Unsigned.of_to n) as H. rewrite En in H. cbn in H. subst n. discriminate.
  - apply uint_digits_small.
  - rewrite <- uint_value. f_equal. apply DecimalN.Unsigned.of_to.
Qed.

Lemma shown_int z : exists sn ds, show_int z = sign_text sn ++ digits_text ds /\ are_digits ds /\
  (match sn with Minus => - digits_value ds | _ => digits_value ds end)%Z = z /\
  (sn = NoSign \/ (z < 0)%Z).
Proof.
  destruct (shown_digits (Z.abs_N z)) as (ds & E & Hds & Ev). unfold show_int. rewrite E.
  destruct (Z.ltb_spec z 0) as [H|H].
  - exists Minus, ds. repeat split; try apply Hds; [|now right]. lia.
  - exists NoSign, ds. repeat split; try apply Hds; [|now left]. lia.
Qed.

(** C23: display and parse again *)
Lemma integer_round_trip verbatim l rest :
  canonical_literal l -> (forall c, lit_value l <> LChar c) -> word_ends rest ->
  parse_literal (show_literal verbatim l ++ rest) = POk rest l.
Proof.
  intros [Hv Hs] Hc Hr. destruct l as [v o]. cbn [lit_value lit_suffix] in *.
  assert (Ho : number_suffix_ok o).
  { intros w ->. destruct v; try exact Hs. now destruct (Hc c). }
  unfold show_literal. cbn [lit_value lit_suffix].
  change (match o with Some s => s | None => [] end) with (suffix_text o).
  destruct v as [z|z|c]; [| |now destruct (Hc c)]; cbn [show_literal_value];
    destruct (shown_int z) as (sn & ds & E & Hds & Ez & Hsn); rewrite E, <- !app_assoc;
    pose proof (literal_number sn ds [] o rest Hds (Forall_nil _) Ho Hr) as H; cbv zeta in H;
    cbn [app] in H; rewrite Ez in H; destruct H as (H1 & H2 & _).
  - apply H1. lia.
  - apply H2; [lia|]. destruct Hsn; [assumption|lia].
Qed.


(** ** What is accepted as a number *)

Lemma span_parts f s : s = fst (span f s) ++ snd (span f s) /\
  Forall (fun c => f c = true) (fst (span f s)) /\
  (forall c r, snd (span f s) = c :: r -> f c = false).
Proof.
  induction s as [|c s (E & H1 & H2)]; cbn [span]; [repeat split; [constructor|discriminate]|].
  destruct (f c) eqn:Ec.
  - destruct (span f s) as [a b]. cbn [fst snd] in *. repeat split; [cbn; now f_equal|now constructor|exact H2].
  - repeat split; [constructor|]. intros c' r' E'. cbn in E'. congruence.
Qed.

Lemma digits_of l : Forall (fun c => is_digit c = true) l ->
  exists ds, l = digits_text ds /\ Forall (fun d => (d < 10)%N) ds.
Proof.
  induction 1 as [|c l Hc _ (ds & -> & Hds)]; [now exists []|].
  apply is_digit_cases in Hc as (d & -> & Hd). exists (d :: ds). now split; [|constructor].
Qed.

Lemma no_digit_err in_type neg s : (forall c r, s = c :: r -> is_digit c = false) ->
  digits_loop in_type neg 0 false s = PErr.
Proof. intros H. destruct s as [|c s]; cbn [digits_loop]; [reflexivity|]. now rewrite (H c s eq_refl). Qed.

Lemma signed s : exists sn t, s = sign_text sn ++ t /\ parse_sign s = POk t (is_minus sn) /\
  (sn <> NoSign -> parse_u64 s = PErr) /\ (sn = NoSign -> t = s).
Proof.
  destruct s as [|c s]; [exists NoSign, []; repeat split; congruence|].
  unfold parse_sign, pmap, opt, por, pvalue, pmap, pchar, satisfy.
  destruct (N.eqb_spec (N_of_ascii "-") c) as [<-|H1]; [exists Minus, s; repeat split; congruence|].
  cbn [pbind].
  destruct (N.eqb_spec (N_of_ascii "+") c) as [<-|H2]; [exists Plus, s; repeat split; congruence|].
  exists NoSign, (c :: s). repeat split; congruence.
Qed.

Lemma number_or_not s :
  (exists sn ds sfx rest, s = sign_text sn ++ digits_text ds ++ sfx ++ rest /\
     are_digits ds /\ Forall int_suffix sfx /\ number_ends sfx rest) \/
  integer s = PErr.
Proof.
  destruct (signed s) as (sn & t & -> & Hs & Hu & Ht).
  destruct (span_parts is_digit t) as (E & Hd & Hn).
  destruct (digits_of _ Hd) as (ds & Eds & Hds).
  destruct ds as [|d ds].
  - right. rewrite Eds in E. cbn [digits_text map app] in E. rewrite <- E in Hn.
    unfold integer, terminated, pmap at 1, pand, por, pmap at 1, parse_i64. rewrite Hs. cbn [pbind].
    rewrite no_digit_err by exact Hn. cbn [pbind]. unfold pmap.
    assert (EU : parse_u64 (sign_text sn ++ t) = PErr).
    { destruct sn; [|apply Hu; discriminate..]. cbn [sign_text app]. now apply no_digit_err. }
    now rewrite EU.
  - left. destruct (span_parts is_int_suffix (snd (span is_digit t))) as (E2 & Hsf & Hr).
    exists sn, (d :: ds), (fst (span is_int_suffix (snd (span is_digit t)))),
      (snd (span is_int_suffix (snd (span is_digit t)))).
    split; [now rewrite <- E2, <- Eds, <- E|]. split; [now split|]. split.
    + eapply Forall_impl; [|exact Hsf]. intros c. apply int_suffix_iff.
    + intros c r Ec. split.
      * intros H. apply int_suffix_iff in H. rewrite (Hr c r Ec) in H. discriminate.
      * intros E0 H. apply digit_iff in H. rewrite E0 in E2. cbn [app] in E2. rewrite <- E2 in Ec.
        rewrite (Hn c r Ec) in H. discriminate.
Qed.

Lemma opt_identifier s r o : opt identifier s = POk r o ->
  s = suffix_text o ++ r /\ suffix_ok o /\ (o <> None -> word_ends r).
Proof.
  unfold opt. destruct (identifier s) as [r' i| | |] eqn:E; intros H; inversion H; subst.
  - apply identifier_iff in E as (-> & Hw & He). repeat split; [|auto]. intros w [= <-]. exact Hw.
  - repeat split; [|congruence]. intros w. discriminate.
Qed.

Lemma por_cases {A} (p q : parser A) s r a : por p q s = POk r a ->
  p s = POk r a \/ (p s = PErr /\ q s = POk r a).
Proof. unfold por. destruct (p s); intros H; auto; discriminate. Qed.
Lemma pmap_cases {A B} (f : A -> B) p s r b : pmap f p s = POk r b -> exists a, p s = POk r a /\ b = f a.
Proof. unfold pmap. destruct (p s); cbn [pbind]; intros H; try discriminate. injection H as <- <-. eauto. Qed.
Lemma pand_cases {A B} (p : parser A) (q : parser B) s r x : pand p q s = POk r x ->
  exists r', p s = POk r' (fst x) /\ q r' = POk r (snd x).
Proof.
  unfold pand. destruct (p s) as [r' a| | |]; cbn [pbind]; intros H; try discriminate.
  destruct (q r') as [r'' b| | |] eqn:E; cbn [pbind] in H; try discriminate. injection H as <- <-. eauto.
Qed.

(** C23: what is parsed as an integer is a number, and its value is the one parsed *)
Lemma number_accepted s r l : parse_literal s = POk r l -> (forall c, lit_value l <> LChar c) ->
  exists sn ds sfx,
    s = sign_text sn ++ digits_text ds ++ sfx ++ suffix_text (lit_suffix l) ++ r /\
    are_digits ds /\ Forall int_suffix sfx /\ number_suffix_ok (lit_suffix l) /\
    let v := (match sn with Minus => - digits_value ds | _ => digits_value ds end)%Z in
    (lit_value l = LI64 v /\ (- 2 ^ 63 <= v < 2 ^ 63)%Z \/
     lit_value l = LU64 v /\ (2 ^ 63 <= v < 2 ^ 64)%Z /\ sn = NoSign).
Proof.
  intros H Hc. unfold parse_literal in H. apply pmap_cases in H as ([v o] & H & ->).
  apply pand_cases in H as (r' & Hv & Ho). cbn [fst snd lit_value lit_suffix] in *.
  apply opt_identifier in Ho as (-> & Ho & _).
  destruct (number_or_not s) as [(sn & ds & sfx & rest & -> & Hds & Hsfx & Hr)|E].
  - rewrite (integer_meaning sn ds sfx rest Hds Hsfx Hr) in Hv.
    exists sn, ds, sfx. destruct sn; cbn [is_minus] in Hv; cbv zeta.
    all: destruct ((- 2 ^ 63 <=? _)%Z && (_ <? 2 ^ 63)%Z) eqn:E1;
      [injection Hv as -> <-|try discriminate].
    all: try (destruct (_ <? 2 ^ 64)%Z eqn:E2; [|discriminate]; injection Hv as -> <-).
    all: split; [reflexivity|]; split; [exact Hds|]; split; [exact Hsfx|]; split.
    all: try (intros w ->; split; [now apply Ho|]; intros c t ->; exact (proj1 (Hr c (t ++ r) eq_refl))).
    all: try (left; split; [reflexivity|]; apply andb_true_iff in E1; rewrite Z.leb_le, Z.ltb_lt in E1; exact E1).
    right. repeat split; [|now apply Z.ltb_lt].
    assert (Hge : (0 <= digits_value ds)%Z) by (apply (value_from_ge ds 0); lia).
    apply andb_false_iff in E1. rewrite Z.leb_gt, Z.ltb_ge in E1. lia.
  - unfold parse_literal_value in Hv. apply por_cases in Hv as [Hv|[_ Hv]]; [congruence|].
    apply pmap_cases in Hv as (c & _ & ->). now destruct (Hc c).
Qed.

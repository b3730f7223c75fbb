(** Literals and operators. *)
From Coq Require Import Ascii String DecimalN.
From Verif Require Import Base Cpp_Lex_Model Cpp_Lex_Spec Cpp_Display_Spec Cpp_Parse_Spec
  Cpp_Parse_Proofs Cpp_Parse_Proofs2 Cpp_Lex_Proofs.
Local Open Scope nat_scope.
Local Open Scope bool_scope.
Local Open Scope list_scope.

(** ** C23: reading *)

Definition value_from (v : Z) (ds : list N) : Z :=
  fold_left (fun v d => 10 * v + Z.of_N d)%Z ds v.

Lemma value_from_ge ds : forall v, (0 <= v)%Z -> (v <= value_from v ds)%Z.
Proof.
  induction ds as [|d ds IH]; intros v Hv; [cbn; lia|].
  pose proof (N2Z.is_nonneg d) as Hd. specialize (IH (10 * v + Z.of_N d)%Z ltac:(lia)).
  change (v <= value_from (10 * v + Z.of_N d) ds)%Z. lia.
Qed.

Lemma digit_char d : (d < 10)%N -> is_digit (48 + d)%N = true.
Proof.
  intros H. unfold is_digit, in_range. change (N_of_ascii "0") with 48%N. change (N_of_ascii "9") with 57%N.
  apply andb_true_iff. split; apply N.leb_le; lia.
Qed.
Lemma is_digit_cases c : is_digit c = true -> exists d, c = (48 + d)%N /\ (d < 10)%N.
Proof.
  unfold is_digit, in_range. change (N_of_ascii "0") with 48%N. change (N_of_ascii "9") with 57%N.
  rewrite andb_true_iff, !N.leb_le. intros H. exists (c - 48)%N. lia.
Qed.

Section Digits.
  Variable in_type : Z -> bool.
  Variable lo hi : Z.
  Hypothesis Hin : forall z, in_type z = true <-> (lo <= z < hi)%Z.
  Hypothesis H0 : (lo <= 0 < hi)%Z.

  Definition sg (neg : bool) (z : Z) : Z := if neg then (- z)%Z else z.

  Lemma digits_loop_spec neg ds rest : Forall (fun d => (d < 10)%N) ds ->
    (forall c r, rest = c :: r -> is_digit c = false) ->
    forall v pos, (0 <= v)%Z -> in_type (sg neg v) = true ->
    digits_loop in_type neg (sg neg v) pos (digits_text ds ++ rest) =
    match ds, pos with
    | [], false => PErr
    | _, _ => if in_type (sg neg (value_from v ds)) then POk rest (sg neg (value_from v ds)) else PErr
    end.
  Proof.
    intros Hds Hr. induction Hds as [|d ds Hd Hds IH]; intros v pos Hv Hi.
    - cbn [digits_text map app value_from fold_left]. rewrite Hi.
      destruct rest as [|c rest]; cbn [digits_loop]; [reflexivity|].
      rewrite (Hr c rest eq_refl). reflexivity.
    - cbn [digits_text map app digits_loop]. rewrite digit_char by exact Hd.
      assert (Ed : digit_value (48 + d)%N = Z.of_N d) by (unfold digit_value; lia). rewrite Ed.
      assert (Ev : (if neg then sg neg v * 10 - Z.of_N d else sg neg v * 10 + Z.of_N d)%Z
                   = sg neg (10 * v + Z.of_N d)) by (unfold sg; destruct neg; lia). rewrite Ev.
      change (value_from v (d :: ds)) with (value_from (10 * v + Z.of_N d) ds).
      pose proof (value_from_ge ds (10 * v + Z.of_N d)%Z ltac:(lia)) as Hge.
      destruct (in_type (sg neg (10 * v + Z.of_N d))) eqn:E1.
      + replace (in_type (sg neg v * 10)%Z) with true.
        * cbn [andb]. change (map (fun d => (48 + d)%N) ds) with (digits_text ds).
          rewrite IH by (auto; lia). now destruct ds.
        * symmetry. apply Hin. apply Hin in E1, Hi. unfold sg in *. destruct neg; lia.
      + rewrite andb_false_r.
        replace (in_type (sg neg (value_from (10 * v + Z.of_N d) ds))) with false; [now destruct pos|].
        symmetry. destruct (in_type (sg neg (value_from (10 * v + Z.of_N d) ds))) eqn:E2; [|reflexivity].
        apply Hin in E2. assert (E3 : in_type (sg neg (10 * v + Z.of_N d)) = true); [|congruence].
        apply Hin. unfold sg in *. destruct neg; lia.
  Qed.
End Digits.

Lemma in_i64_iff z : in_i64 z = true <-> (- 2 ^ 63 <= z < 2 ^ 63)%Z.
Proof. unfold in_i64. rewrite andb_true_iff, Z.leb_le, Z.ltb_lt. lia. Qed.
Lemma in_u64_iff z : in_u64 z = true <-> (0 <= z < 2 ^ 64)%Z.
Proof. unfold in_u64. rewrite andb_true_iff, Z.leb_le, Z.ltb_lt. lia. Qed.

Lemma many0_satisfy f s : many0 (satisfy f) s = POk (snd (span f s)) (fst (span f s)).
Proof.
  unfold many0.
  assert (G : forall s n, len s < n -> many_loop n (satisfy f) s = POk (snd (span f s)) (fst (span f s))).
  { clear s. induction s as [|c s IH]; intros n Hn; (destruct n as [|n]; [lia|]); cbn [many_loop satisfy span].
    - reflexivity.
    - destruct (f c); [|reflexivity]. cbn [List.length] in *. replace (Nat.eqb _ _) with false.
      + rewrite IH by lia. now destruct (span f s).
      + symmetry. apply Nat.eqb_neq. lia. }
  apply G. lia.
Qed.

Definition is_minus (s : sign) : bool := match s with Minus => true | _ => false end.

Lemma parse_sign_eq sn ds rest : are_digits ds ->
  parse_sign (sign_text sn ++ digits_text ds ++ rest) = POk (digits_text ds ++ rest) (is_minus sn).
Proof.
  intros [Hne Hds]. destruct sn; try reflexivity.
  destruct ds as [|d ds]; [congruence|]. inversion Hds as [|? ? Hd _]; subst.
  cbn [sign_text digits_text map app]. unfold parse_sign, pmap, opt, por, pvalue, pmap, pchar, satisfy.
  assert (E1 : N.eqb (N_of_ascii "-") (48 + d)%N = false) by (apply N.eqb_neq; change (N_of_ascii "-") with 45%N; lia).
  assert (E2 : N.eqb (N_of_ascii "+") (48 + d)%N = false) by (apply N.eqb_neq; change (N_of_ascii "+") with 43%N; lia).
  rewrite E1. cbn [pbind]. rewrite E2. reflexivity.
Qed.

Lemma first_not_digit sfx rest : Forall int_suffix sfx -> number_ends sfx rest ->
  forall c r, sfx ++ rest = c :: r -> is_digit c = false.
Proof.
  intros Hs Hr c r E. destruct (is_digit c) eqn:Ed; [|reflexivity]. exfalso. apply digit_iff in Ed.
  destruct sfx as [|x sfx]; cbn [app] in E.
  - exact (proj2 (Hr c r E) eq_refl Ed).
  - injection E as -> _. inversion Hs as [|? ? Hc _]; subst. unfold int_suffix in Hc.
    cbn in Hc, Ed. intuition congruence.
Qed.

Lemma suffixes_eq sfx rest : Forall int_suffix sfx -> number_ends sfx rest ->
  many0 (satisfy is_int_suffix) (sfx ++ rest) = POk rest sfx.
Proof.
  intros Hs Hr. rewrite many0_satisfy, span_app; [reflexivity| |].
  - now apply (forallb_of_Forall _ _ _ int_suffix_iff).
  - destruct rest as [|c rest]; [exact I|]. destruct (is_int_suffix c) eqn:E; [|reflexivity].
    exfalso. apply (proj1 (Hr c rest eq_refl)). now apply int_suffix_iff.
Qed.

Lemma character_err s :
  (forall c r, s = c :: r -> ~ In c (of_string "uUL'")) -> character s = PErr.
Proof.
  intros H. unfold character, delimited, preceded, pmap, pand at 1.
  assert (E : pand (opt (por (pvalue 56%N (tag "u8")) (por (pchar "u") (por (pchar "U") (pchar "L"))))) (pchar "'") s = PErr).
  { destruct s as [|c s]; [reflexivity|]. specialize (H c s eq_refl). cbn in H.
    unfold pand, opt, por, pvalue, pmap, tag, pchar, satisfy.
    cbn [of_string strip_tag].
    assert (E1 : N.eqb (N_of_ascii "u") c = false) by (apply N.eqb_neq; cbn; intuition).
    assert (E2 : N.eqb (N_of_ascii "U") c = false) by (apply N.eqb_neq; cbn; intuition).
    assert (E3 : N.eqb (N_of_ascii "L") c = false) by (apply N.eqb_neq; cbn; intuition).
    assert (E4 : N.eqb (N_of_ascii "'") c = false) by (apply N.eqb_neq; cbn; intuition).
    rewrite E1. cbn [pbind]. rewrite E2, E3. cbn [pbind]. now rewrite E4. }
  rewrite E. reflexivity.
Qed.

Lemma number_first sn ds x : are_digits ds ->
  forall c r, sign_text sn ++ digits_text ds ++ x = c :: r -> ~ In c (of_string "uUL'").
Proof.
  intros [Hne Hds] c r E. destruct sn; cbn in E; try (injection E as <- _; cbn; intuition discriminate).
  destruct ds as [|d ds]; [congruence|]. inversion Hds as [|? ? Hd _]; subst.
  assert (Ec : c = (48 + d)%N) by (cbn [sign_text of_string digits_text map app] in E; congruence).
  change (~ In c [117; 85; 76; 39]%N). rewrite Ec. cbn [In]. lia.
Qed.

Lemma integer_meaning sn ds sfx rest :
  are_digits ds -> Forall int_suffix sfx -> number_ends sfx rest ->
  let v := (if is_minus sn then - digits_value ds else digits_value ds)%Z in
  parse_literal_value (sign_text sn ++ digits_text ds ++ sfx ++ rest) =
  if ((- 2 ^ 63 <=? v)%Z && (v <? 2 ^ 63)%Z) then POk rest (LI64 v)
  else match sn with
       | NoSign => if (v <? 2 ^ 64)%Z then POk rest (LU64 v) else PErr
       | _ => PErr
       end.
Proof.
  intros Hds Hsfx Hrest v. pose proof (first_not_digit sfx rest Hsfx Hrest) as Hnd.
  unfold parse_literal_value, por at 1, integer, terminated, pmap at 1, pand.
  assert (EI : parse_i64 (sign_text sn ++ digits_text ds ++ sfx ++ rest) =
               if in_i64 v then POk (sfx ++ rest) v else PErr).
  { unfold parse_i64. rewrite parse_sign_eq by exact Hds. cbn [pbind].
    pose proof (digits_loop_spec in_i64 _ _ in_i64_iff ltac:(lia) (is_minus sn) ds (sfx ++ rest)
                  (proj2 Hds) Hnd 0 false ltac:(lia) ltac:(destruct (is_minus sn); reflexivity)) as H.
    replace (sg (is_minus sn) 0) with 0%Z in H by (destruct (is_minus sn); reflexivity).
    rewrite H. destruct ds as [|d ds]; [now destruct Hds|]. reflexivity. }
  unfold por, pmap at 1. rewrite EI. fold (in_i64 v).
  destruct (in_i64 v) eqn:Ei; cbn [pbind].
  - rewrite suffixes_eq by assumption. reflexivity.
  - unfold pmap at 1.
    assert (EU : parse_u64 (sign_text sn ++ digits_text ds ++ sfx ++ rest) =
                 match sn with NoSign => if (v <? 2 ^ 64)%Z then POk (sfx ++ rest) v else PErr | _ => PErr end).
    { destruct sn; [|reflexivity|reflexivity]. cbn [sign_text app]. unfold parse_u64.
      pose proof (digits_loop_spec in_u64 _ _ in_u64_iff ltac:(lia) false ds (sfx ++ rest)
                  (proj2 Hds) Hnd 0 false ltac:(lia) ltac:(reflexivity)) as H.
      cbn [sg] in H. rewrite H. destruct ds as [|d ds]; [now destruct Hds|]. subst v.
      change (value_from 0 (d :: ds)) with (digits_value (d :: ds)). cbn [is_minus].
      assert (Hge : (0 <= digits_value (d :: ds))%Z) by (apply (value_from_ge (d :: ds) 0); lia).
      unfold in_u64. now replace (0 <=? digits_value (d :: ds))%Z with true by (symmetry; now apply Z.leb_le). }
    rewrite EU. clear EU. assert (EC := character_err _ (number_first sn ds (sfx ++ rest) Hds)).
    destruct sn; cbn [pbind]; try (unfold pmap; rewrite EC; reflexivity).
    destruct (v <? 2 ^ 64)%Z; cbn [pbind].
    + rewrite suffixes_eq by assumption. reflexivity.
    + unfold pmap; rewrite EC; reflexivity.
Qed.

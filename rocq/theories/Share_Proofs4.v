(** Computing with huge f64 numbers in units of 2^2038 *)
From Coq Require Import Sorted Permutation.
From Verif Require Import Base Tree_Model Tree_Spec Float_Model Float_Spec Float_Proofs Float_Proofs2 Float_Proofs3 Float_Proofs4 Float_Proofs5 Share_Model Share_Spec Share_Proofs.
Local Open Scope Z_scope.

Lemma round_abs_scale x k : 0 <= x -> 0 <= k -> round_abs (x * 2 ^ k) = round_abs x * 2 ^ k.
Proof.
  intros Hx Hk. assert (K : 0 < 2 ^ k) by (apply Z.pow_pos_nonneg; lia).
  destruct (Z.eq_dec x 0) as [->|N]; [reflexivity|].
  unfold round_abs. rewrite Z.log2_mul_pow2 by lia.
  destruct (Z.ltb_spec x (2 ^ 53)) as [L|L].
  - destruct (Z.ltb_spec (x * 2 ^ k) (2 ^ 53)) as [L2|L2]; [reflexivity|]. cbv zeta.
    assert (Hl : Z.log2 x < 53) by (apply Z.log2_lt_pow2; lia).
    assert (H53 : 53 <= k + Z.log2 x) by (rewrite <- Z.log2_mul_pow2 by lia; apply Z.log2_le_pow2; lia).
    set (p := 2 ^ (k + Z.log2 x - 52)). assert (Hp : 0 < p) by (apply Z.pow_pos_nonneg; lia).
    assert (E : x * 2 ^ k = (x * 2 ^ (52 - Z.log2 x)) * p).
    { unfold p. rewrite <- Z.mul_assoc, <- Z.pow_add_r by lia. do 2 f_equal. lia. }
    rewrite E, Z.mod_mul, Z.div_mul by lia. replace (2 * 0 <? p) with true by (symmetry; apply Z.ltb_lt; lia). reflexivity.
  - assert (L2 : 2 ^ 53 <= x * 2 ^ k) by nia.
    replace (x * 2 ^ k <? 2 ^ 53) with false by (symmetry; apply Z.ltb_ge; exact L2). cbv zeta.
    assert (Hl : 53 <= Z.log2 x) by (apply Z.log2_le_pow2; lia).
    set (p := 2 ^ (Z.log2 x - 52)). assert (Hp : 0 < p) by (apply Z.pow_pos_nonneg; lia).
    replace (2 ^ (k + Z.log2 x - 52)) with (p * 2 ^ k) by (unfold p; rewrite <- Z.pow_add_r by lia; f_equal; lia).
    rewrite Z.mul_mod_distr_r, Z.div_mul_cancel_r by lia.
    set (r := x mod p). set (q := x / p).
    replace (2 * (r * 2 ^ k) <? p * 2 ^ k) with (2 * r <? p) by (apply Bool.eq_true_iff_eq; rewrite !Z.ltb_lt; split; nia).
    replace (2 * (r * 2 ^ k) =? p * 2 ^ k) with (2 * r =? p) by (apply Bool.eq_true_iff_eq; rewrite !Z.eqb_eq; split; nia).
    destruct ((2 * r <? p) || ((2 * r =? p) && Z.even q))%bool; ring.
Qed.
Lemma round_scale x k : 0 <= k -> round (x * 2 ^ k) = round x * 2 ^ k.
Proof.
  intros Hk. assert (K : 0 < 2 ^ k) by (apply Z.pow_pos_nonneg; lia).
  unfold round. rewrite Z.abs_mul, Z.sgn_mul, (Z.abs_eq (2 ^ k)), (Z.sgn_pos (2 ^ k)) by lia.
  rewrite round_abs_scale by lia. ring.
Qed.

Definition unit_2038 : Z := 2 ^ 2038.
Lemma unit_pos : 0 < unit_2038. Proof. apply Z.pow_pos_nonneg; lia. Qed.
Lemma max_unit : max_finite = ((2 ^ 53 - 1) * 128) * unit_2038.
Proof.
  rewrite P_max, P_log. unfold unit_2038. replace (2 ^ 2044) with (64 * 2 ^ 2038) by (change 64 with (2 ^ 6); rewrite <- Z.pow_add_r by lia; reflexivity).
  rewrite Z.mul_assoc. reflexivity.
Qed.
Lemma round_unit x : round (x * unit_2038) = round x * unit_2038.
Proof. apply round_scale. lia. Qed.
Lemma unit_le x e : 0 <= e <= 60 -> x * 2 ^ (2038 + e) = (x * 2 ^ e) * unit_2038.
Proof. intros H. unfold unit_2038. rewrite (Z.add_comm 2038), Z.pow_add_r by lia. ring. Qed.
Global Opaque unit_2038.

(** The same operations on multiples of the unit *)
Definition up (a : f64) : f64 := match a with Num x => Num (x * unit_2038) | _ => a end.
Definition sadd (a b : f64) : f64 :=
  match a, b with
  | Num x, Num y =>
      if Z.abs (round (x + y)) <=? (2 ^ 53 - 1) * 128 then Num (round (x + y)) else Infinite (x + y <? 0)
  | NotANumber, _ | _, NotANumber => NotANumber
  | Infinite s, Infinite t => if Bool.eqb s t then Infinite s else NotANumber
  | Infinite s, Num _ => Infinite s
  | Num _, Infinite t => Infinite t
  end.
Lemma up_add a b : fadd (up a) (up b) = up (sadd a b).
Proof.
  pose proof unit_pos as U.
  destruct a as [x|s|], b as [y|t|]; try reflexivity; cbn [fadd up sadd].
  - unfold of_exact. rewrite <- Z.mul_add_distr_r, round_unit, max_unit, Z.abs_mul, (Z.abs_eq unit_2038) by lia.
    replace (Z.abs (round (x + y)) * unit_2038 <=? (2 ^ 53 - 1) * 128 * unit_2038)
      with (Z.abs (round (x + y)) <=? (2 ^ 53 - 1) * 128) by (apply Bool.eq_true_iff_eq; rewrite !Z.leb_le; split; nia).
    replace ((x + y) * unit_2038 <? 0) with (x + y <? 0) by (apply Bool.eq_true_iff_eq; rewrite !Z.ltb_lt; split; nia).
    destruct (Z.abs (round (x + y)) <=? (2 ^ 53 - 1) * 128); reflexivity.
  - destruct (Bool.eqb s t); reflexivity.
Qed.
Lemma up_sub a b : fsub (up a) (up b) = up (sadd a (fneg b)).
Proof.
  unfold fsub. rewrite <- up_add. f_equal. destruct b; try reflexivity. cbn [fneg up]. f_equal. ring.
Qed.
Lemma up_lt a b : flt (up a) (up b) = flt a b.
Proof.
  pose proof unit_pos as U. destruct a as [x|s|], b as [y|t|]; try reflexivity. cbn [flt up].
  apply Bool.eq_true_iff_eq; rewrite !Z.ltb_lt; split; nia.
Qed.
Lemma up_le a b : fle (up a) (up b) = fle a b.
Proof.
  pose proof unit_pos as U. destruct a as [x|s|], b as [y|t|]; try reflexivity. cbn [fle up].
  apply Bool.eq_true_iff_eq; rewrite !Z.leb_le; split; nia.
Qed.
Lemma up_zero : Num 0 = up (Num 0). Proof. reflexivity. Qed.
Lemma up_min : f64_min = up (Num (- ((2 ^ 53 - 1) * 128))).
Proof. unfold f64_min. rewrite max_unit. cbn [up]. f_equal; ring. Qed.
Lemma up_nan a : is_nan (up a) = is_nan a. Proof. destruct a; reflexivity. Qed.

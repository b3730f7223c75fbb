(** The wall time of a unit depends on the value of its f32 only. *)
From Coq Require Import NArith ZArith QArith Qpower Qround String.
From Verif Require Import Base.
From Verif Require Import Cmd_Model Cmd_Spec Cmd_Proofs2 Cmd_Proofs3 Csv_Model Csv_Spec.
Local Open Scope list_scope.
Local Open Scope N_scope.

Definition p2 (e : Z) : N := 2 ^ Z.to_N e.

Lemma p2_pos e : 0 < p2 e.
Proof. unfold p2. apply N.neq_0_lt_0, N.pow_nonzero. easy. Qed.
Lemma p2_add a b : (0 <= a)%Z -> (0 <= b)%Z -> p2 (a + b) = p2 a * p2 b.
Proof. intros Ha Hb. unfold p2. rewrite Z2N.inj_add by assumption. apply N.pow_add_r. Qed.

Lemma floor_nonneg m e : (0 <= e)%Z -> floor_of m e = m * p2 e.
Proof. intros H. destruct e; [| |lia]; unfold floor_of; apply N.shiftl_mul_pow2. Qed.
Lemma floor_neg m e : (e < 0)%Z -> floor_of m e = m / p2 (- e).
Proof. intros H. destruct e; [lia|lia|]. unfold floor_of. apply N.shiftr_div_pow2. Qed.

Lemma floor_scale m e j : (0 <= j)%Z -> floor_of (m * p2 j) (e - j) = floor_of m e.
Proof.
  intros Hj. pose proof (p2_pos j). destruct (Z_le_gt_dec 0 e) as [He|He].
  - destruct (Z_le_gt_dec 0 (e - j)) as [Hd|Hd].
    + rewrite !floor_nonneg by assumption. rewrite <- N.mul_assoc, <- p2_add by assumption. do 2 f_equal. lia.
    + rewrite floor_neg, floor_nonneg by lia. replace j with (e + (- (e - j)))%Z at 1 by lia.
      rewrite p2_add by lia. rewrite N.mul_assoc. apply N.div_mul. pose proof (p2_pos (- (e - j))). lia.
  - rewrite !floor_neg by lia. replace (- (e - j))%Z with (- e + j)%Z by lia. rewrite p2_add by lia.
    apply N.div_mul_cancel_r; [pose proof (p2_pos (- e))|]; lia.
Qed.

Lemma fract_spec m e : fract m e = ((if (e <? 0)%Z then m - (m / p2 (- e)) * p2 (- e) else 0), e).
Proof.
  destruct e; [reflexivity|reflexivity|]. unfold fract. cbn [Z.ltb Z.compare]. f_equal.
  rewrite N.shiftl_mul_pow2, N.shiftr_div_pow2. reflexivity.
Qed.

Lemma fract_scale m e j : (0 <= j)%Z -> fract (m * p2 j) (e - j) = (fst (fract m e) * p2 j, (e - j)%Z).
Proof.
  intros Hj. pose proof (p2_pos j). rewrite !fract_spec. cbn [fst]. f_equal.
  destruct (Z.ltb_spec e 0) as [He|He].
  - destruct (Z.ltb_spec (e - j) 0); [|lia]. replace (- (e - j))%Z with (- e + j)%Z by lia. rewrite p2_add by lia.
    rewrite N.div_mul_cancel_r; [|pose proof (p2_pos (- e)); lia|lia]. rewrite N.mul_assoc. symmetry. apply N.mul_sub_distr_r.
  - destruct (Z.ltb_spec (e - j) 0) as [Hd|Hd]; [|reflexivity].
    replace j with (e + (- (e - j)))%Z at 1 2 by lia. rewrite p2_add by lia. rewrite N.mul_assoc.
    rewrite N.div_mul by (pose proof (p2_pos (- (e - j))); lia). lia.
Qed.

Lemma size_scale n j : n <> 0 -> (0 <= j)%Z -> N.size (n * p2 j) = N.size n + Z.to_N j.
Proof.
  intros Hn Hj. rewrite !N.size_log2; [|exact Hn|].
  - unfold p2. rewrite N.log2_mul_pow2; [lia|lia|apply N.le_0_l].
  - pose proof (p2_pos j). lia.
Qed.

Lemma round_scale n e j : (0 <= j)%Z ->
  exists i, (0 <= i)%Z /\ round24 (n * p2 j) (e - j) = (fst (round24 n e) * p2 i, (snd (round24 n e) - i)%Z).
Proof.
  intros Hj. destruct (N.eq_dec n 0) as [->|Hn].
  { exists j. split; [exact Hj|]. rewrite N.mul_0_l.
    assert (E : forall z, round24 0 z = (0, (z + 0)%Z)) by reflexivity. rewrite !E. cbn [fst snd]. f_equal. lia. }
  pose proof (p2_pos j) as Hp. unfold round24. rewrite (size_scale n j Hn Hj).
  set (s := N.size n). destruct (N.le_gt_cases 24 s) as [Hs|Hs].
  - exists 0%Z. split; [lia|]. change (p2 0) with 1. rewrite N.mul_1_r, Z.sub_0_r.
    replace (s + Z.to_N j - 24) with (s - 24 + Z.to_N j) by lia. set (k := s - 24).
    rewrite !N.shiftr_div_pow2, !N.shiftl_mul_pow2, !N.pow_add_r. fold (p2 j).
    assert (H2 : 0 < 2 ^ k) by (apply N.neq_0_lt_0, N.pow_nonzero; easy).
    rewrite N.div_mul_cancel_r by lia. set (q := n / 2 ^ k).
    replace (n * p2 j - q * (2 ^ k * p2 j)) with ((n - q * 2 ^ k) * p2 j) by (rewrite N.mul_sub_distr_r; f_equal; lia).
    set (r := n - q * 2 ^ k). cbn [fst snd].
    replace (2 * (r * p2 j) ?= 2 ^ k * p2 j) with (2 * r ?= 2 ^ k).
    2:{ destruct (N.compare_spec (2 * r) (2 ^ k)) as [E|E|E]; symmetry.
        - apply N.compare_eq_iff. lia.
        - apply N.compare_lt_iff. nia.
        - apply N.compare_gt_iff. nia. }
    f_equal; [|lia].
    destruct (N.ltb_spec 0 k) as [Hk|Hk].
    + destruct (N.ltb_spec 0 (k + Z.to_N j)); [reflexivity|lia].
    + assert (k = 0) as Hk0 by lia. assert (r = 0) as Hr.
      { unfold r, q. rewrite Hk0. cbn [N.pow]. rewrite N.div_1_r. lia. }
      rewrite Hr, Hk0. reflexivity.
  - replace (s - 24) with 0 by lia. set (k := s + Z.to_N j - 24). exists (j - Z.of_N k)%Z.
    assert (Hk : (Z.of_N k <= j)%Z) by lia. split; [lia|].
    assert (E : n * p2 j = n * p2 (j - Z.of_N k) * 2 ^ k).
    { replace j with (j - Z.of_N k + Z.of_N k)%Z at 1 by lia. rewrite p2_add by lia. unfold p2 at 2.
      rewrite N2Z.id. lia. }
    assert (H2 : 2 ^ k <> 0) by (apply N.pow_nonzero; easy).
    assert (Eq : N.shiftr (n * p2 j) k = n * p2 (j - Z.of_N k)).
    { rewrite N.shiftr_div_pow2, E. now apply N.div_mul. }
    rewrite Eq. rewrite N.shiftl_mul_pow2, <- E, N.sub_diag.
    assert (E2 : (2 * 0 ?= 2 ^ k) = Lt) by (apply N.compare_lt_iff; lia). rewrite E2.
    rewrite N.shiftr_0_r, N.shiftl_0_r. rewrite andb_false_r. cbn [andb fst snd]. f_equal. lia.
Qed.

Lemma as_u64_scale m e j : (0 <= j)%Z -> as_u64 (m * p2 j) (e - j) = as_u64 m e.
Proof. intros H. unfold as_u64. now rewrite floor_scale. Qed.

(** Another way to give the same value *)
Lemma same_scale m e m' e' : (seconds m e == seconds m' e')%Q -> (e' <= e)%Z -> m' = m * p2 (e - e').
Proof.
  intros H He. rewrite !seconds_V in H. replace e with (e' + (e - e'))%Z in H at 1 by lia.
  rewrite V_scale in H by lia. unfold V in H. cbn [fst snd] in H.
  apply Qmult_inj_r in H.
  2:{ intros X. pose proof (two_pos e') as Y. rewrite X in Y. discriminate. }
  assert (H' : (Z.of_N m * 2 ^ (e - e') = Z.of_N m')%Z) by (unfold Qeq, inject_Z in H; cbn in H; lia).
  clear H. rename H' into H. unfold p2. apply N2Z.inj. rewrite <- H.
  rewrite N2Z.inj_mul, N2Z.inj_pow, Z2N.id by lia. reflexivity.
Qed.

Lemma wall_time_fin neg m e : wall_time (Some (FFin neg m e)) =
  if neg && negb (N.eqb m 0) then Some (inr (FFin neg m e))
  else if over_u64 m e then Some (inr (FFin neg m e))
  else Some (inl (saturating_add (as_u64 m e * giga)
        (as_u64 (fst (round24 (fst (fract m e) * giga) (snd (fract m e))))
                (snd (round24 (fst (fract m e) * giga) (snd (fract m e))))))).
Proof.
  unfold wall_time. destruct (fract m e) as [fm fe]. cbn [fst snd]. destruct (round24 (fm * giga) fe). reflexivity.
Qed.

Lemma wall_time_scaled neg m e j d : (0 <= j)%Z ->
  wall_time (Some (FFin neg (m * p2 j) (e - j))) = Some (inl d) <-> wall_time (Some (FFin neg m e)) = Some (inl d).
Proof.
  intros Hj. pose proof (p2_pos j) as Hp. rewrite !wall_time_fin.
  replace (N.eqb (m * p2 j) 0) with (N.eqb m 0).
  2:{ destruct (N.eqb_spec m 0) as [->|Hm]; symmetry; [reflexivity|]. apply N.eqb_neq. nia. }
  destruct (neg && negb (m =? 0)); [split; discriminate|].
  assert (Eo : over_u64 (m * p2 j) (e - j) = over_u64 m e).
  { assert (Es : (seconds (m * p2 j) (e - j) == seconds m e)%Q).
    { rewrite !seconds_V. replace e with (e - j + j)%Z at 2 by lia. rewrite V_scale by lia. unfold V. cbn [fst snd].
      unfold p2. rewrite N2Z.inj_mul, N2Z.inj_pow, Z2N.id by lia. reflexivity. }
    apply eq_true_iff_eq. rewrite !over_iff, Es. reflexivity. }
  rewrite Eo. destruct (over_u64 m e); [split; discriminate|].
  rewrite as_u64_scale by exact Hj. rewrite fract_scale by exact Hj. cbn [fst snd].
  assert (Ef : snd (fract m e) = e) by (rewrite fract_spec; reflexivity). rewrite Ef.
  replace (fst (fract m e) * p2 j * giga) with (fst (fract m e) * giga * p2 j) by lia.
  destruct (round_scale (fst (fract m e) * giga) e j Hj) as (i & Hi & Er). rewrite Er. cbn [fst snd].
  rewrite as_u64_scale by exact Hi. reflexivity.
Qed.

Theorem wall_time_same x y d : same_f32 x y ->
  wall_time (Some x) = Some (inl d) <-> wall_time (Some y) = Some (inl d).
Proof.
  destruct x as [|a|a m e], y as [|b|b m' e']; cbn [same_f32]; try contradiction; try (intros _; split; discriminate).
  intros [<- H]. destruct (Z_le_gt_dec e' e) as [He|He].
  - rewrite (same_scale _ _ _ _ H He). replace e' with (e - (e - e'))%Z at 2 by lia.
    symmetry. apply wall_time_scaled. lia.
  - symmetry in H. rewrite (same_scale _ _ _ _ H ltac:(lia)). replace e with (e' - (e' - e))%Z at 2 by lia.
    apply wall_time_scaled. lia.
Qed.

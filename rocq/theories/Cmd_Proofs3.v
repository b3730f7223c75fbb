(** Storing a duration in a build profile and reading it back. *)
From Coq Require Import NArith ZArith QArith Qpower Qabs Qround Lqa String.
From Verif Require Import Base Asylum_Model Cmd_Model Cmd_Spec Cmd_Proofs2.
Local Open Scope list_scope.
Local Open Scope Z_scope.

Definition V (a : N * Z) : Q := (inject_Z (Z.of_N (fst a)) * Qpower (2 # 1) (snd a))%Q.

Lemma two_pos e : (0 < Qpower (2 # 1) e)%Q.
Proof. apply Qpower_0_lt. easy. Qed.
Lemma two_Z k : 0 <= k -> (Qpower (2 # 1) k == inject_Z (2 ^ k))%Q.
Proof. intros H. rewrite Zpower_Qpower by easy. easy. Qed.
Lemma V_scale m e k : 0 <= k -> (V (m, (e + k)%Z) == inject_Z (Z.of_N m * 2 ^ k) * Qpower (2 # 1) e)%Q.
Proof.
  intros H. unfold V. cbn [fst snd]. rewrite Qpower_plus by easy. rewrite (two_Z k) by easy.
  rewrite inject_Z_mult. ring.
Qed.
Lemma seconds_V m e : (seconds m e == V (m, e))%Q.
Proof.
  destruct e as [|p|p].
  - rewrite (V_scale m 0 0) by lia. unfold seconds. change (Qpower (2 # 1) 0) with 1%Q. rewrite Qmult_1_r. reflexivity.
  - rewrite (V_scale m 0 (Zpos p)) by lia. unfold seconds. change (Qpower (2 # 1) 0) with 1%Q. rewrite Qmult_1_r. reflexivity.
  - rewrite seconds_neg. unfold V. cbn [fst snd]. change (Zneg p) with (- Zpos p).
    rewrite Qpower_opp, two_Z by lia. easy.
Qed.
Lemma V_nonneg a : (0 <= V a)%Q.
Proof.
  unfold V. apply Qmult_le_0_compat; [|apply Qlt_le_weak, two_pos].
  change 0%Q with (inject_Z 0). rewrite <- Zle_Qle. lia.
Qed.

Lemma rounded_rel n q k : 0 <= n -> rounded n q k -> 16777215 * n <= 16777216 * (q * 2 ^ k) <= 16777217 * n.
Proof.
  intros Hn [Hk Hq Herr H0 Hpos Hlt].
  destruct (Z.eq_dec k 0) as [->|Hne].
  - specialize (H0 eq_refl). subst q. change (2 ^ 0) with 1. lia.
  - specialize (Hpos ltac:(lia)). rewrite Z.pow_add_r in Hpos by lia. change (2 ^ 23) with 8388608 in Hpos. lia.
Qed.
Lemma round24_rel n e :
  ((16777215 # 16777216) * V (n, e) <= V (round24 n e) <= (16777217 # 16777216) * V (n, e))%Q.
Proof.
  pose proof (round24_rounded n e) as H. destruct (round24 n e) as [q e']. destruct H as [H ->].
  set (k := Z.of_N (N.size n - 24)) in *.
  assert (Hk : 0 <= k) by (unfold k; lia).
  rewrite V_scale by easy. unfold V. cbn [fst snd].
  apply rounded_rel in H; [|lia]. destruct H as [H1 H2]. rewrite Zle_Qle, !inject_Z_mult in H1, H2.
  rewrite inject_Z_mult. set (a := inject_Z (Z.of_N n)) in *. set (b := inject_Z (Z.of_N q)) in *.
  set (c := inject_Z (2 ^ k)) in *. pose proof (two_pos e) as Hp. set (t := Qpower (2#1) e) in *.
  set (bc := (b * c)%Q) in *.
  change (inject_Z 16777215) with (16777215 # 1)%Q in H1. change (inject_Z 16777216) with (16777216 # 1)%Q in *.
  change (inject_Z 16777217) with (16777217 # 1)%Q in H2.
  assert (Ha1 : ((16777215 # 16777216) * a <= bc)%Q) by lra.
  assert (Ha2 : (bc <= (16777217 # 16777216) * a)%Q) by lra.
  rewrite !Qmult_assoc. split; apply Qmult_le_compat_r; lra.
Qed.
Lemma round24_m n e : (fst (round24 n e) <= 2 ^ 24)%N.
Proof.
  pose proof (round24_rounded n e) as H. destruct (round24 n e) as [q e']. destruct H as [[_ Hq _ _ _ _] _]. cbn [fst].
  apply N2Z.inj_le. change (Z.of_N (2 ^ 24)) with (2 ^ 24). lia.
Qed.

Lemma size_small n b : (n < 2 ^ b)%N -> (N.size n <= b)%N.
Proof.
  intros H. destruct (N.eq_dec n 0) as [->|Hn]; [cbn [N.size]; lia|].
  rewrite N.size_log2 by easy. enough (N.log2 n < b)%N by lia. apply N.log2_lt_pow2; [lia|easy].
Qed.

(** division *)
Lemma div24_rel num den : (0 < den)%N -> (N.size num <= 25 + N.size den)%N ->
  ((16777215 # 16777216) * ((33554431 # 33554432) * (inject_Z (Z.of_N num) / inject_Z (Z.of_N den))) <= V (div24 num den)
   <= (16777217 # 16777216) * ((33554433 # 33554432) * (inject_Z (Z.of_N num) / inject_Z (Z.of_N den))))%Q.
Proof.
  intros Hd Hs. unfold div24. destruct (N.eqb_spec num 0) as [->|Hn].
  { unfold Qdiv, V. cbn [fst snd Z.of_N]. change (inject_Z 0) with 0%Q. rewrite !Qmult_0_l, !Qmult_0_r. split; apply Qle_refl. }
  set (k := (25 + N.size den - N.size num)%N). set (n := N.shiftl num k).
  set (q := (n / den)%N). cbv zeta.
  match goal with |- context [round24 ?t _] => set (T := t) end.
  set (x := (inject_Z (Z.of_N num) / inject_Z (Z.of_N den))%Q).
  assert (Hd' : 0 < Z.of_N den) by lia.
  pose proof (size_ge num ltac:(lia)) as Hnum. pose proof (size_lt den) as Hden.
  assert (HnZ : Z.of_N n = Z.of_N num * 2 ^ Z.of_N k) by apply shiftl_Z.
  assert (Hbig : 16777216 * Z.of_N den <= Z.of_N n).
  { rewrite HnZ.
    assert (Hp : 2 ^ (Z.of_N (N.size num) - 1) * 2 ^ Z.of_N k = 16777216 * 2 ^ Z.of_N (N.size den)).
    { assert (0 < N.size num)%N by (destruct num; [easy|reflexivity]).
      rewrite <- Z.pow_add_r by lia. change 16777216 with (2 ^ 24). rewrite <- Z.pow_add_r by lia. f_equal. unfold k. lia. }
    assert (0 < 2 ^ Z.of_N k) by (apply Z.pow_pos_nonneg; lia). nia. }
  assert (HT : Z.abs (Z.of_N T * Z.of_N den - 2 * Z.of_N n) <= Z.of_N den).
  { unfold T, q. pose proof (N.div_mod n den ltac:(lia)) as Hdm. pose proof (N.mod_lt n den ltac:(lia)) as Hml.
    apply (f_equal Z.of_N) in Hdm. rewrite N2Z.inj_add, N2Z.inj_mul in Hdm.
    set (qq := (n / den)%N) in *. set (rr := (n mod den)%N) in *.
    replace (Z.of_N (2 * qq + (if (rr =? 0)%N then 0 else 1)) * Z.of_N den)
      with (2 * (Z.of_N den * Z.of_N qq) + (if (rr =? 0)%N then 0 else Z.of_N den)) by (destruct (rr =? 0)%N; lia).
    destruct (N.eqb_spec rr 0) as [H0|H0]; lia. }
  assert (HT1 : 33554431 * (2 * Z.of_N n) <= 33554432 * (Z.of_N T * Z.of_N den)) by lia.
  assert (HT2 : 33554432 * (Z.of_N T * Z.of_N den) <= 33554433 * (2 * Z.of_N n)) by lia.
  pose proof (round24_rel T (- Z.of_N k - 1)) as HR.
  set (R := V (round24 T (- Z.of_N k - 1))) in *.
  assert (HV : ((33554431 # 33554432) * x <= V (T, (- Z.of_N k - 1)%Z) <= (33554433 # 33554432) * x)%Q).
  { unfold V. cbn [fst snd].
    assert (Hpw : (Qpower (2 # 1) (- Z.of_N k - 1) * inject_Z (2 * 2 ^ Z.of_N k) == 1)%Q).
    { replace (2 * 2 ^ Z.of_N k) with (2 ^ (Z.of_N k + 1)) by (rewrite Z.pow_add_r by lia; lia).
      rewrite <- two_Z by lia. rewrite <- Qpower_plus by easy.
      replace (- Z.of_N k - 1 + (Z.of_N k + 1)) with 0 by lia. easy. }
    pose proof (two_pos (- Z.of_N k - 1)) as Hpp. set (w := Qpower (2#1) (- Z.of_N k - 1)) in *.
    rewrite HnZ in HT1, HT2.
    replace (2 * (Z.of_N num * 2 ^ Z.of_N k)) with (Z.of_N num * (2 * 2 ^ Z.of_N k)) in HT1, HT2 by lia.
    rewrite Zle_Qle, (inject_Z_mult 33554432), (inject_Z_mult 33554431), (inject_Z_mult (Z.of_N T)), (inject_Z_mult (Z.of_N num)) in HT1.
    rewrite Zle_Qle, (inject_Z_mult 33554432), (inject_Z_mult 33554433), (inject_Z_mult (Z.of_N T)), (inject_Z_mult (Z.of_N num)) in HT2.
    set (K := inject_Z (2 * 2 ^ Z.of_N k)) in *.
    change (inject_Z 33554431) with (33554431 # 1)%Q in HT1. change (inject_Z 33554432) with (33554432 # 1)%Q in *.
    change (inject_Z 33554433) with (33554433 # 1)%Q in HT2.
    assert (Hdq : (0 < inject_Z (Z.of_N den))%Q) by (change 0%Q with (inject_Z 0); rewrite <- Zlt_Qlt; lia).
    set (dq := inject_Z (Z.of_N den)) in *. set (nq := inject_Z (Z.of_N num)) in *. set (tq := inject_Z (Z.of_N T)) in *.
    assert (Hx : (x * dq == nq)%Q) by (unfold x; field; lra).
    rewrite <- Hx in HT1, HT2.
    assert (Hi : (tq * dq * w == tq * w * dq)%Q) by ring.
    assert (Hj : (x * dq * K * w == x * dq)%Q).
    { setoid_replace (x * dq * K * w)%Q with (x * dq * (w * K))%Q by ring. rewrite Hpw. ring. }
    apply (Qmult_le_compat_r _ _ w) in HT1; [|lra]. apply (Qmult_le_compat_r _ _ w) in HT2; [|lra].
    rewrite <- !Qmult_assoc in HT1, HT2.
    setoid_replace (x * (dq * (K * w)))%Q with (x * dq)%Q in HT1 by (rewrite <- Hj; ring).
    setoid_replace (x * (dq * (K * w)))%Q with (x * dq)%Q in HT2 by (rewrite <- Hj; ring).
    setoid_replace (tq * (dq * w))%Q with ((tq * w) * dq)%Q in HT1 by ring.
    setoid_replace (tq * (dq * w))%Q with ((tq * w) * dq)%Q in HT2 by ring.
    split; apply (Qmult_le_r _ _ dq Hdq); lra. }
  destruct HR, HV. split; lra.
Qed.
Lemma div24_e num den : (N.size num <= N.size den + 1)%N -> (0 < den)%N -> -56 - Z.of_N (N.size den) <= snd (div24 num den) <= 0.
Proof.
  intros Hs Hd. unfold div24. destruct (N.eqb_spec num 0) as [->|Hn]; [cbn [snd]; lia|].
  set (k := (25 + N.size den - N.size num)%N). set (n := N.shiftl num k).
  set (q := (n / den)%N). cbv zeta.
  match goal with |- context [round24 ?t _] => set (T := t) end.
  unfold round24. cbn [snd].
  assert (HnZ : Z.of_N n = Z.of_N num * 2 ^ Z.of_N k) by apply shiftl_Z.
  pose proof (size_lt num) as Hnum. pose proof (size_ge den ltac:(lia)) as Hden.
  assert (Hsd : (0 < N.size den)%N) by (destruct den; [easy|reflexivity]).
  assert (Hq : Z.of_N q < 2 ^ 26).
  { unfold q. rewrite N2Z.inj_div. apply Z.div_lt_upper_bound; [lia|]. rewrite HnZ.
    assert (Hp : 2 ^ Z.of_N (N.size num) * 2 ^ Z.of_N k = 2 ^ (Z.of_N (N.size den) - 1) * 2 ^ 26).
    { rewrite <- !Z.pow_add_r by lia. f_equal. unfold k. lia. }
    assert (0 < 2 ^ Z.of_N k) by (apply Z.pow_pos_nonneg; lia). 
    assert (0 < 2 ^ 26) by easy. nia. }
  assert (HT : Z.of_N T < 2 ^ 28).
  { change (2 ^ 26) with 67108864 in Hq. change (2 ^ 28) with 268435456. unfold T. destruct (n mod den =? 0)%N; lia. }
  assert (HTs : (N.size T <= 28)%N).
  { apply size_small. change (2 ^ 28)%N with 268435456%N. change (2 ^ 28) with 268435456 in HT. clearbody T. lia. }
  unfold k. lia.
Qed.

Lemma add24_V a b : let '(m1, e1) := a in let '(m2, e2) := b in let e := Z.min e1 e2 in
  (V (N.shiftl m1 (Z.to_N (e1 - e)) + N.shiftl m2 (Z.to_N (e2 - e)), e)%N == V a + V b)%Q.
Proof.
  destruct a as [m1 e1], b as [m2 e2]. cbv zeta. set (e := Z.min e1 e2).
  assert (H : forall m e', e <= e' -> (inject_Z (Z.of_N (N.shiftl m (Z.to_N (e' - e)))) * Qpower (2#1) e == V (m, e'))%Q).
  { intros m e' He. replace e' with (e + (e' - e)) at 2 by lia. rewrite V_scale by lia.
    rewrite shiftl_Z, Z2N.id by lia. easy. }
  unfold V at 1. cbn [fst snd]. rewrite N2Z.inj_add, inject_Z_plus.
  rewrite Qmult_plus_distr_l, !H by lia. easy.
Qed.

Lemma round24_le n t : 25 <= t -> Z.of_N n <= 2 ^ t + 2 ^ (t - 25) -> 
  Z.of_N (fst (round24 n 0)) * 2 ^ Z.of_N (N.size n - 24) <= 2 ^ t.
Proof.
  intros Ht Hn. pose proof (round24_rounded n 0) as H. destruct (round24 n 0) as [q e']. cbn [fst].
  destruct H as [[Hk Hq Herr H0 Hpos Hlt] _]. set (k := Z.of_N (N.size n - 24)) in *.
  assert (Ht25 : 2 ^ t = 33554432 * 2 ^ (t - 25)).
  { change 33554432 with (2 ^ 25). rewrite <- Z.pow_add_r by lia. f_equal. lia. }
  assert (Hp25 : 0 < 2 ^ (t - 25)) by (apply Z.pow_pos_nonneg; lia).
  destruct (Z.eq_dec k 0) as [Ek|Ek].
  - specialize (Hlt). rewrite Ek in Hlt. rewrite Ek. specialize (H0 Ek). rewrite H0. change (2 ^ 0) with 1.
    assert (Hle : 2 ^ 25 <= 2 ^ t) by (apply Z.pow_le_mono_r; lia). change (2 ^ 25) with 33554432 in Hle.
    change (2 ^ (24 + 0)) with 16777216 in Hlt. lia.
  - specialize (Hpos ltac:(lia)).
    assert (H2k : 0 < 2 ^ k) by (apply Z.pow_pos_nonneg; lia).
    destruct (Z.le_gt_cases (24 + k) t) as [Hc|Hc].
    + assert (Hle : 2 ^ (24 + k) <= 2 ^ t) by (apply Z.pow_le_mono_r; lia).
      rewrite Z.pow_add_r in Hle by lia. nia.
    + (* n is at least 2^t *)
      assert (Hk' : 23 + k = t).
      { destruct (Z.le_gt_cases (23 + k) t) as [Hd|Hd]; [lia|]. exfalso.
        assert (Hle : 2 ^ (t + 1) <= 2 ^ (23 + k)) by (apply Z.pow_le_mono_r; lia).
        rewrite Z.pow_add_r in Hle by lia. change (2 ^ 1) with 2 in Hle. lia. }
      assert (E1 : 2 ^ t = 8388608 * 2 ^ k).
      { rewrite <- Hk'. rewrite Z.pow_add_r by lia. easy. }
      assert (E2 : 2 ^ k = 4 * 2 ^ (t - 25)).
      { replace k with (2 + (t - 25)) by lia. rewrite Z.pow_add_r by lia. easy. }
      rewrite E1. apply Z.mul_le_mono_nonneg_r; [lia|].
      destruct (Z.le_gt_cases (Z.of_N q) 8388608) as [Hle|Hgt]; [easy|]. exfalso. nia.
Qed.
Lemma round24_fst n e : fst (round24 n e) = fst (round24 n 0).
Proof. reflexivity. Qed.
Lemma round24_snd n e : snd (round24 n e) = e + Z.of_N (N.size n - 24).
Proof. reflexivity. Qed.

Theorem as_secs_ok d : (d <= max_duration)%N ->
  exists m e, as_secs_f32 d = FFin false m e /\ f32_ok (FFin false m e) /\
    (seconds m e <= inject_Z (2 ^ 64))%Q /\
    ((1 - (15 # 67108864)) * inject_Z (Z.of_N d) <= exact_ns m e <= (1 + (15 # 67108864)) * inject_Z (Z.of_N d))%Q.
Proof.
  intros Hd. unfold as_secs_f32.
  set (s := (d / giga)%N). set (f := (d mod giga)%N).
  assert (Hds : d = (giga * s + f)%N) by (apply N.div_mod; easy).
  assert (Hf : (f < giga)%N) by (apply N.mod_lt; easy).
  assert (Hs : (s <= 2 ^ 64 - 1)%N).
  { enough (s < 2 ^ 64)%N by lia. apply N.div_lt_upper_bound; [easy|]. 
    change (giga * 2 ^ 64)%N with 18446744073709551616000000000%N.
    change max_duration with 18446744073709551615999999999%N in Hd. lia. }
  pose proof (round24_rel f 0) as Hrf. pose proof (round24_m f 0) as Hmf. pose proof (round24_snd f 0) as Hsf.
  assert (Hszf : (N.size f <= 30)%N).
  { apply size_small. change (2 ^ 30)%N with 1073741824%N. unfold giga in Hf. lia. }
  destruct (round24 f 0) as [nm ne] eqn:Enm. cbn [fst snd] in *.
  set (num := N.shiftl nm (Z.to_N ne)).
  assert (Hne : 0 <= ne <= 6) by lia.
  assert (HnumV : (V (nm, ne) == inject_Z (Z.of_N num))%Q).
  { replace ne with (0 + ne) at 1 by lia. rewrite V_scale by lia. unfold num. rewrite shiftl_Z, Z2N.id by lia.
    change (Qpower (2#1) 0) with 1%Q. rewrite Qmult_1_r. reflexivity. }
  assert (Hnum : Z.of_N num <= 1073741824).
  { unfold num. rewrite shiftl_Z, Z2N.id by lia. apply N2Z.inj_le in Hmf. change (Z.of_N (2 ^ 24)) with 16777216 in Hmf.
    assert (2 ^ ne <= 2 ^ 6) by (apply Z.pow_le_mono_r; lia). assert (0 < 2 ^ ne) by (apply Z.pow_pos_nonneg; lia).
    change (2 ^ 6) with 64 in *. nia. }
  assert (Hsn : (N.size num <= 31)%N).
  { apply size_small. change (2 ^ 31)%N with 2147483648%N. lia. }
  assert (Hsg : N.size giga = 30%N) by reflexivity.
  pose proof (div24_rel num giga ltac:(easy) ltac:(rewrite Hsg; lia)) as Hdiv.
  pose proof (div24_e num giga ltac:(rewrite Hsg; lia) ltac:(easy)) as Hde. rewrite Hsg in Hde. 
  change (Z.of_N 30) with 30 in Hde.
  pose proof (round24_rel s 0) as Hrs. pose proof (round24_snd s 0) as Hss. pose proof (round24_m s 0) as Hms.
  pose proof (round24_le s 64 ltac:(lia)) as Hle64.
  assert (Hsz : Z.of_N s <= 2 ^ 64 - 1) by (apply N2Z.inj_le in Hs; exact Hs).
  specialize (Hle64 ltac:(change (2 ^ 64) with 18446744073709551616 in *; change (2 ^ (64 - 25)) with 549755813888; lia)).
  pose proof (size_small s 64 ltac:(lia)) as Hszs.
  destruct (round24 s 0) as [m1 e1] eqn:E1. cbn [fst snd] in *.
  rewrite Z.add_0_l in Hss. rewrite <- Hss in Hle64.
  assert (HV1 : (V (m1, e1) <= inject_Z (2 ^ 64))%Q).
  { replace e1 with (0 + e1) by lia. rewrite V_scale by lia. change (Qpower (2#1) 0) with 1%Q.
    rewrite Qmult_1_r. rewrite <- Zle_Qle. exact Hle64. }
  destruct (div24 num giga) as [m2 e2] eqn:E2. cbn [fst snd] in *.
  unfold add24.
  pose proof (add24_V (m1, e1) (m2, e2)) as Hsum. cbv beta iota zeta in Hsum. cbv zeta.
  set (e := Z.min e1 e2) in *.
  set (n := (N.shiftl m1 (Z.to_N (e1 - e)) + N.shiftl m2 (Z.to_N (e2 - e)))%N) in *.
  pose proof (round24_rel n e) as Hrn. pose proof (round24_m n e) as Hmn. pose proof (round24_snd n e) as Hsnn.
  pose proof (round24_fst n e) as Hfn.
  rewrite Hsum in Hrn. rewrite HnumV in Hrf.
  assert (HsV : (V (s, 0%Z) == inject_Z (Z.of_N s))%Q).
  { unfold V. cbn [fst snd]. change (Qpower (2#1) 0) with 1%Q. rewrite Qmult_1_r. reflexivity. }
  assert (HfV : (V (f, 0%Z) == inject_Z (Z.of_N f))%Q).
  { unfold V. cbn [fst snd]. change (Qpower (2#1) 0) with 1%Q. rewrite Qmult_1_r. reflexivity. }
  rewrite HsV in Hrs. rewrite HfV in Hrf.
  assert (HnumQ : (inject_Z (Z.of_N num) <= 1073741824 # 1)%Q).
  { change (1073741824 # 1)%Q with (inject_Z 1073741824). rewrite <- Zle_Qle. exact Hnum. }
  change (inject_Z (Z.of_N giga)) with (1000000000 # 1)%Q in Hdiv.
  assert (Hdv : forall x, (x / (1000000000 # 1) == x * (1 # 1000000000))%Q) by (intros x; field).
  rewrite Hdv in Hdiv.
  (* at most 2^64 *)
  assert (He56 : -86 <= e <= 0) by lia.
  assert (HV2 : (V (m2, e2) <= 2 # 1)%Q) by lra.
  assert (Hn64 : Z.of_N n <= 2 ^ (64 - e) + 2 ^ (64 - e - 25)).
  { assert (HVn : (V (n, e) <= inject_Z (2 ^ 64) + (2 # 1))%Q) by (rewrite Hsum; lra).
    assert (Hnp : (inject_Z (Z.of_N n) == V (n, e) * Qpower (2#1) (- e))%Q).
    { unfold V. cbn [fst snd]. rewrite <- Qmult_assoc, <- Qpower_plus by easy.
      replace (e + - e) with 0 by lia. change (Qpower (2#1) 0) with 1%Q. rewrite Qmult_1_r. reflexivity. }
    assert (Hnb : (inject_Z (Z.of_N n) <= (inject_Z (2 ^ 64) + inject_Z 2) * inject_Z (2 ^ (- e)))%Q).
    { rewrite Hnp. rewrite two_Z by lia. apply Qmult_le_compat_r; [exact HVn|].
      change 0%Q with (inject_Z 0). rewrite <- Zle_Qle. apply Z.pow_nonneg. lia. }
    rewrite <- inject_Z_plus, <- inject_Z_mult, <- Zle_Qle in Hnb.
    replace (64 - e) with (64 + - e) by lia. replace (64 + - e - 25) with (39 + - e) by lia.
    rewrite !(Z.pow_add_r 2 _ (- e)) by lia.
    assert (0 < 2 ^ (- e)) by (apply Z.pow_pos_nonneg; lia).
    change (2 ^ 64) with 18446744073709551616 in *. change (2 ^ 39) with 549755813888. lia. }
  pose proof (round24_le n (64 - e) ltac:(lia) Hn64) as HR64.
  destruct (round24 n e) as [m e'] eqn:Er. cbn [fst snd] in *. rewrite <- Hfn in HR64.
  exists m, e'. split; [easy|].
  set (k := Z.of_N (N.size n - 24)) in *.
  assert (Hk0 : 0 <= k) by (unfold k; lia).
  assert (HVm : (V (m, e') <= inject_Z (2 ^ 64))%Q).
  { rewrite Hsnn, V_scale by easy. 
    assert (Hp : (Qpower (2#1) (- e) * Qpower (2#1) e == 1)%Q).
    { rewrite <- Qpower_plus by easy. replace (- e + e) with 0 by lia. easy. }
    assert (HQ : (inject_Z (Z.of_N m * 2 ^ k) <= inject_Z (2 ^ 64) * Qpower (2#1) (- e))%Q).
    { rewrite two_Z by lia. rewrite <- inject_Z_mult, <- Zle_Qle, <- Z.pow_add_r by lia. exact HR64. }
    apply (Qmult_le_compat_r _ _ (Qpower (2#1) e)) in HQ; [|apply Qlt_le_weak, two_pos].
    rewrite <- Qmult_assoc in HQ. rewrite Hp, Qmult_1_r in HQ. exact HQ. }
  split; [split; [exact Hmn|]|].
  - assert (Hke : k <= 65 - e - 23).
    { destruct (Z.eq_dec k 0) as [->|Hk1]; [lia|].
      pose proof (round24_rounded n e) as Hrd. rewrite Er in Hrd. destruct Hrd as [[_ _ _ _ Hpos _] _].
      specialize (Hpos ltac:(fold k; lia)). fold k in Hpos.
      assert (H65 : 2 ^ (64 - e) + 2 ^ (64 - e - 25) < 2 ^ (65 - e)).
      { replace (65 - e) with (1 + (64 - e)) by lia. rewrite (Z.pow_add_r 2 1) by lia. change (2 ^ 1) with 2.
        assert (2 ^ (64 - e - 25) < 2 ^ (64 - e)) by (apply Z.pow_lt_mono_r; lia). lia. }
      assert (Hl : 2 ^ (23 + k) < 2 ^ (65 - e)) by lia.
      apply Z.pow_lt_mono_r_iff in Hl; lia. }
    lia.
  - rewrite seconds_V. split; [exact HVm|]. unfold exact_ns. rewrite seconds_V.
    assert (Hdq : (inject_Z (Z.of_N d) == (1000000000 # 1) * inject_Z (Z.of_N s) + inject_Z (Z.of_N f))%Q).
    { rewrite Hds at 1. rewrite N2Z.inj_add, N2Z.inj_mul, inject_Z_plus, inject_Z_mult. easy. }
    rewrite Hdq.
    assert (Hs0 : (0 <= inject_Z (Z.of_N s))%Q) by (change 0%Q with (inject_Z 0); rewrite <- Zle_Qle; lia).
    assert (Hf0 : (0 <= inject_Z (Z.of_N f))%Q) by (change 0%Q with (inject_Z 0); rewrite <- Zle_Qle; lia).
    change (inject_Z 1000000000) with (1000000000 # 1)%Q.
    split; lra.
Qed.

(** *** The round trip *)
Theorem reload_ok d : (d <= max_duration)%N ->
  exists d', wall_time (new_time (Some d)) = Some (inl d') /\
    (Qabs (inject_Z (Z.of_N d') - inject_Z (Z.of_N d)) <= inject_Z (Z.of_N d) * (1 # 4194304) + (33 # 1))%Q.
Proof.
  intros Hd. destruct (as_secs_ok d Hd) as (m & e & E & Hok & H64 & Hrel).
  unfold new_time. cbn [option_map]. rewrite E.
  destruct (wall_time_value false m e Hok) as (d' & Ew & Hmax & Hlt & Heq).
  { intros [[H _]|H]; [discriminate|]. exact (Qlt_not_le _ _ H H64). }
  exists d'. split; [exact Ew|].
  assert (Hd0 : (0 <= inject_Z (Z.of_N d))%Q) by (change 0%Q with (inject_Z 0); rewrite <- Zle_Qle; lia).
  apply Qle_lteq in H64. destruct H64 as [H64|H64].
  - destruct (Hlt H64) as [Ha _]. apply Qabs_Qle_condition in Ha. apply Qabs_Qle_condition. split; lra.
  - rewrite (Heq H64). unfold exact_ns in Hrel. rewrite H64 in Hrel.
    change (Z.of_N ((2 ^ 64 - 1) * giga)) with 18446744073709551615000000000.
    change (inject_Z 18446744073709551615000000000) with (18446744073709551615000000000 # 1)%Q.
    change (inject_Z (2 ^ 64)) with (18446744073709551616 # 1)%Q in Hrel.
    change (inject_Z 1000000000) with (1000000000 # 1)%Q in Hrel.
    apply Qabs_Qle_condition. split; lra.
Qed.

(** Shares of the total duration *)
From Coq Require Import Sorted Permutation.
From Verif Require Import Base Tree_Model Float_Model Float_Spec Float_Proofs Float_Proofs3 Float_Proofs4 Share_Model Share_Spec Share_Proofs.
Local Open Scope Z_scope.

Definition U : Z := 2 ^ 1074.
Definition G : Z := 2 ^ 970.
Lemma U_def : 2 ^ 1074 = U. Proof. reflexivity. Qed.
Lemma G_pos : 0 < G. Proof. apply Z.pow_pos_nonneg; lia. Qed.
Lemma U_G : U = 2 ^ 104 * G. Proof. reflexivity. Qed.
Lemma P_UG : P = G * U.
Proof. rewrite P_log. unfold G, U. rewrite <- Z.pow_add_r by lia. reflexivity. Qed.
Lemma U_2096 : 2 ^ 52 * 2 ^ 2096 = U * U.
Proof. unfold U. rewrite <- !Z.pow_add_r by lia. reflexivity. Qed.
Lemma U_1021 : U = 2 ^ 53 * 2 ^ 1021.
Proof. unfold U. rewrite <- !Z.pow_add_r by lia. reflexivity. Qed.
Global Opaque U G.
Lemma U_pos : 0 < U. Proof. rewrite U_G. pose proof G_pos. lia. Qed.

Lemma total_is_fold ds r : total ds r -> fold_left fadd ds (Num 0) = r.
Proof.
  induction 1 as [|ds t d r H IH Hr|ds s d H IH]; [reflexivity| |]; rewrite fold_left_app, IH; simpl.
  - apply (rounds_unique (t + d)); [apply of_exact_rounds|exact Hr].
  - reflexivity.
Qed.

(** The norm for a total of t *)
Lemma norm_value roots t : total roots (Num t) -> 2 ^ 52 <= t ->
  fduration_norm roots = Num (round_ratio (U * U) t).
Proof.
  intros Ht Hb. unfold fduration_norm, one. rewrite (total_is_fold _ _ Ht). cbn [fdiv].
  replace (t =? 0) with false by (symmetry; apply Z.eqb_neq; lia).
  rewrite Z.sgn_pos, Z.abs_eq, Z.mul_1_r by lia. rewrite !U_def.
  unfold of_ratio. pose proof U_pos as UP. pose proof G_pos as GP.
  replace (too_large * t <=? Z.abs (U * U)) with false.
  - rewrite Z.sgn_pos, Z.abs_eq, Z.mul_1_l by nia. reflexivity.
  - symmetry. apply Z.leb_gt. rewrite Z.abs_eq by nia. rewrite too_large_overflow, P_over, P_UG.
    assert (H : U * U = 2 ^ 104 * (G * U)) by (rewrite U_G at 1; ring). rewrite H.
    assert (0 < G * U) by nia. change (2 ^ 52) with 4503599627370496 in Hb.
    change (2 ^ 104) with 20282409603651670423947251286016. nia.
Qed.
Lemma share_value roots t x : total roots (Num t) -> 2 ^ 52 <= t ->
  share roots (Num x) = of_ratio (x * round_ratio (U * U) t) U.
Proof. intros Ht Hb. unfold share. rewrite (norm_value roots t Ht Hb). cbn [fmul]. rewrite U_def. reflexivity. Qed.

Lemma share_mono roots t x y : total roots (Num t) -> 2 ^ 52 <= t -> x <= y ->
  at_most (share roots (Num x)) (share roots (Num y)).
Proof.
  intros Ht Hb Hxy. rewrite !(share_value roots t) by assumption. pose proof U_pos.
  apply of_ratio_mono; [lia|]. pose proof (round_ratio_nonneg (U * U) t ltac:(nia) ltac:(lia)). nia.
Qed.

(** The next number after one *)
Lemma next_after_one : exists u, 0 < u /\ U = 2 ^ 52 * u /\ representable U /\
  forall z, U < z < U + u -> ~ representable z.
Proof.
  exists (2 ^ 1022). pose proof U_1021 as E.
  assert (Uu : U = 2 ^ 52 * 2 ^ 1022).
  { rewrite E. replace 1022 with (1 + 1021) by reflexivity. rewrite (Z.pow_add_r 2 1 1021) by lia.
    generalize (2 ^ 1021). intros h. change (2 ^ 53) with (2 ^ 52 * 2 ^ 1). ring. }
  split; [apply Z.pow_pos_nonneg; lia|]. split; [exact Uu|]. split.
  - rewrite E. apply representable_scaled; [lia|apply Z.le_refl|]. rewrite <- E. clear E Uu. pose proof U_pos as UP. rewrite Z.abs_eq by lia.
    rewrite P_1024, P_UG. pose proof G_pos. nia.
  - intros z Hz Rz. apply (no_representable_between 1022 (2 ^ 52) z); [lia|apply Z.le_refl| |exact Rz].
    rewrite Z.mul_add_distr_r, <- Uu, Z.mul_1_l. exact Hz.
Qed.

(** For hypotheses without big numbers: T is 2^2096 and h is 2^1021 *)
Section Share.
  Variables (t v T : Z).
  Hypothesis Ht : 2 ^ 52 <= t <= T.
  Hypothesis HT : 2 ^ 52 * T = U * U.
  Hypothesis Hv : v = round_ratio (U * U) t.

  Lemma norm_error : Z.abs (v * t - U * U) * 2 ^ 53 <= U * U.
  Proof.
    subst v. apply round_ratio_error; [lia|]. rewrite <- HT.
    apply Z.mul_le_mono_nonneg_l; lia.
  Qed.
  Lemma norm_pos : 0 <= v.
  Proof. subst v. pose proof U_pos. apply round_ratio_nonneg; [nia|lia]. Qed.

  (** A share of nothing more than the total is not above one *)
  Lemma share_bound x : 0 <= x <= t -> x * v * 2 ^ 53 <= U * (U * 2 ^ 53 + U).
  Proof.
    intros Hx. pose proof norm_error as E. pose proof norm_pos as V.
    assert (x * v <= t * v) by nia.
    assert ((t * v - U * U) * 2 ^ 53 <= U * U) by lia.
    change (2 ^ 53) with 9007199254740992 in *. nia.
  Qed.
  Lemma share_finite x : 0 <= x <= t -> x * v < overflow * U.
  Proof.
    intros Hx. pose proof (share_bound x Hx) as B. pose proof U_pos. pose proof G_pos.
    rewrite P_over, P_UG. change (2 ^ 53) with 9007199254740992 in B.
    assert (x * v <= 2 * (U * U)) by nia.
    assert (K : 18014398509481983 * (G * U) * U = 18014398509481983 * (G * (U * U))) by ring.
    assert (0 < U * U) by nia.
    assert (18014398509481983 * (U * U) <= 18014398509481983 * (G * (U * U))) by nia.
    rewrite K. lia.
  Qed.
  Lemma share_num' x : 0 <= x <= t -> of_ratio (x * v) U = Num (round_ratio (x * v) U).
  Proof.
    intros Hx. pose proof (share_finite x Hx) as F. pose proof norm_pos. unfold of_ratio. rewrite too_large_overflow.
    rewrite Z.abs_eq by nia. replace (overflow * U <=? x * v) with false by (symmetry; apply Z.leb_gt; lia).
    f_equal. destruct (Z.eq_dec (x * v) 0) as [->|Hne]; [|rewrite Z.sgn_pos by nia; lia].
    simpl. unfold round_ratio. rewrite !Z.div_0_l by (pose proof U_pos; lia).
    change (if 0 <? 2 ^ 53 then 0 else Z.log2 0 - 52) with 0. change (2 ^ 0) with 1. rewrite Z.mul_1_r.
    pose proof U_pos. rewrite Z.div_0_l, Z.mod_0_l by lia. simpl. replace (0 <? U) with true by (symmetry; apply Z.ltb_lt; lia).
    reflexivity.
  Qed.
  Lemma share_at_most_one' x : 0 <= x <= t -> round_ratio (x * v) U <= U.
  Proof.
    intros Hx. pose proof (share_bound x Hx) as B. pose proof norm_pos as V. pose proof U_pos as UP.
    destruct (round_ratio_spec (x * v) U ltac:(nia) UP) as (m & e & E & He & Hm & Near & _).
    destruct (Z_le_gt_dec (round_ratio (x * v) U) U) as [L|L]; [exact L|exfalso].
    pose proof (round_ratio_range (x * v) U ltac:(nia) UP (share_finite x Hx)) as R.
    assert (Rep : representable (round_ratio (x * v) U)).
    { rewrite E. apply representable_scaled; [lia|lia|]. rewrite <- E, Z.abs_eq by lia.
      rewrite P_1024. rewrite P_max in R. pose proof P_pos. lia. }
    destruct next_after_one as (u & u0 & Uu & Ru & Next).
    assert (Gap : U + u <= round_ratio (x * v) U).
    { destruct (Z_le_gt_dec (U + u) (round_ratio (x * v) U)) as [K|K]; [exact K|exfalso].
      apply (Next (round_ratio (x * v) U)); [lia|exact Rep]. }
    remember (round_ratio (x * v) U) as z eqn:Ez. clear Ez.
    assert (B' : 2 * (x * v) <= 2 * (U * U) + u * U).
    { assert (U * U = 2 ^ 52 * (u * U)) by (rewrite Uu at 1; ring).
      change (2 ^ 53) with 9007199254740992 in B. change (2 ^ 52) with 4503599627370496 in *. nia. }
    assert (K : U * U + u * U <= z * U) by nia.
    destruct (Near U Ru ltac:(lia)) as [H|[H (k & Hk)]]; [lia|].
    (* a tie: z would be even *)
    assert (Ez : z * U = U * U + u * U) by lia.
    assert (Zz : z = U + u) by (apply (Z.mul_reg_r _ _ U); [clear - UP; lia|rewrite Ez; ring]). rewrite Zz in Hk.
    replace (Z.abs (U - (U + u))) with u in Hk by lia.
    assert (F : (2 * 2 ^ 51 + 1 - 2 * k) * u = 0).
    { replace ((2 * 2 ^ 51 + 1 - 2 * k) * u) with (2 ^ 52 * u + u - 2 * k * u) by (change (2 ^ 52) with (2 * 2 ^ 51); ring).
      lia. }
    apply Z.mul_eq_0 in F. lia.
  Qed.

  (** Accuracy *)
  Lemma share_error' h x : U = 2 ^ 53 * h -> 0 <= x <= t -> t <= x * h ->
    Z.abs (round_ratio (x * v) U * t - x * U) * 2 ^ 106 <= x * U * (2 ^ 54 + 1).
  Proof.
    intros Hh Hx Hlow. pose proof norm_error as E1. pose proof norm_pos as V. pose proof U_pos as UP.
    assert (Low : 2 ^ 52 * U <= x * v).
    { assert (A1 : U * U * (2 ^ 53 - 1) <= v * t * 2 ^ 53) by lia.
      assert (A2 : v * t <= x * v * h) by nia.
      assert (A3 : U * U * (2 ^ 53 - 1) <= x * v * U) by (rewrite Hh at 3; nia).
      assert (A4 : U * (2 ^ 53 - 1) <= x * v) by nia.
      change (2 ^ 53) with 9007199254740992 in *. change (2 ^ 52) with 4503599627370496. lia. }
    pose proof (round_ratio_error (x * v) U UP Low) as E2. clear Hh Hlow Low.
    remember (round_ratio (x * v) U) as z eqn:Ez. clear Ez.
    assert (I : (z * t - x * U) * U = (z * U - x * v) * t + x * (v * t - U * U)) by ring.
    assert (J : Z.abs ((z * t - x * U) * U) <= Z.abs (z * U - x * v) * t + x * Z.abs (v * t - U * U)).
    { rewrite I. eapply Z.le_trans; [apply Z.abs_triangle|]. rewrite !Z.abs_mul. rewrite (Z.abs_eq t), (Z.abs_eq x) by lia. lia. }
    assert (K1 : Z.abs (z * U - x * v) * t * 2 ^ 106 <= x * (v * t) * 2 ^ 53).
    { change (2 ^ 106) with (2 ^ 53 * 2 ^ 53). assert (Z.abs (z * U - x * v) * 2 ^ 53 * t <= x * v * t) by nia. nia. }
    assert (K2 : x * (v * t) * 2 ^ 53 <= x * (U * U * (2 ^ 53 + 1))).
    { assert (v * t * 2 ^ 53 <= U * U * (2 ^ 53 + 1)) by lia. nia. }
    assert (K3 : x * Z.abs (v * t - U * U) * 2 ^ 106 <= x * (U * U * 2 ^ 53)).
    { change (2 ^ 106) with (2 ^ 53 * 2 ^ 53). assert (x * (Z.abs (v * t - U * U) * 2 ^ 53) <= x * (U * U)) by nia. nia. }
    assert (K : Z.abs (z * t - x * U) * U * 2 ^ 106 <= x * U * (2 ^ 54 + 1) * U).
    { rewrite Z.abs_mul, (Z.abs_eq U) in J by lia.
      replace (x * U * (2 ^ 54 + 1) * U) with (x * (U * U * (2 ^ 53 + 1)) + x * (U * U * 2 ^ 53)) by (change (2 ^ 54) with (2 ^ 53 + 2 ^ 53); ring).
      nia. }
    nia.
  Qed.
End Share.
Lemma share_num t v : 2 ^ 52 <= t <= 2 ^ 2096 -> v = round_ratio (U * U) t ->
  forall x, 0 <= x <= t -> of_ratio (x * v) U = Num (round_ratio (x * v) U).
Proof. intros Ht Hv. exact (share_num' t v (2 ^ 2096) Ht U_2096 Hv). Qed.
Lemma share_at_most_one t v : 2 ^ 52 <= t <= 2 ^ 2096 -> v = round_ratio (U * U) t ->
  forall x, 0 <= x <= t -> round_ratio (x * v) U <= U.
Proof. intros Ht Hv. exact (share_at_most_one' t v (2 ^ 2096) Ht U_2096 Hv). Qed.
Lemma share_error t v : 2 ^ 52 <= t <= 2 ^ 2096 -> v = round_ratio (U * U) t ->
  forall x, 0 <= x <= t -> t <= x * 2 ^ 1021 ->
  Z.abs (round_ratio (x * v) U * t - x * U) * 2 ^ 106 <= x * U * (2 ^ 54 + 1).
Proof. intros Ht Hv. intros x. exact (share_error' t v (2 ^ 2096) Ht U_2096 Hv (2 ^ 1021) x U_1021). Qed.

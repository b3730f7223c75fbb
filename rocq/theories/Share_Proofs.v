(** Rounding of quotients *)
From Verif Require Import Base Tree_Model Float_Model Float_Spec Float_Proofs Share_Model Share_Spec.
Local Open Scope Z_scope.

Definition near (n d z : Z) : Prop :=
  forall y, representable y -> y <> z ->
    Z.abs (z * d - n) < Z.abs (y * d - n) \/
    (Z.abs (z * d - n) = Z.abs (y * d - n) /\ exists m, z = 2 * m * Z.abs (y - z)).

Lemma round_ratio_spec n d : 0 <= n -> 0 < d -> exists m e,
  round_ratio n d = m * 2 ^ e /\ 0 <= e /\ 0 <= m <= 2 ^ 53 /\ near n d (round_ratio n d) /\
  2 * Z.abs (round_ratio n d * d - n) <= d * 2 ^ e /\ (2 ^ 52 * d <= n -> 2 ^ 52 * (d * 2 ^ e) <= n).
Proof.
  intros Hn Hd. unfold round_ratio. cbv zeta.
  remember (n / d) as x eqn:Ex.
  remember (if x <? 2 ^ 53 then 0 else Z.log2 x - 52) as e eqn:Ee.
  assert (Hx : 0 <= x) by (subst x; apply Z.div_pos; lia).
  assert (He : 0 <= e).
  { subst e. destruct (x <? 2 ^ 53) eqn:D; [lia|]. apply Z.ltb_ge in D. destruct (log2_scale x D). lia. }
  remember (2 ^ e) as w eqn:Ew.
  assert (W0 : 0 < w) by (subst w; apply Z.pow_pos_nonneg; lia).
  assert (D0 : 0 < d * w) by nia.
  pose proof (Z.div_mod n (d * w) ltac:(lia)) as DM. pose proof (Z.mod_pos_bound n (d * w) D0) as MB.
  assert (Eq : n / (d * w) = x / w) by (rewrite Ex; symmetry; apply Z.div_div; lia).
  remember (n / (d * w)) as q eqn:Qq. remember (n mod (d * w)) as r eqn:Rr. clear Rr.
  remember (d * w) as D eqn:ED.
  assert (Q : 0 <= q < 2 ^ 53 /\ (2 ^ 52 <= q \/ e = 0)).
  { rewrite Eq. subst e. destruct (x <? 2 ^ 53) eqn:Dx.
    - apply Z.ltb_lt in Dx. change (2 ^ 0) with 1 in Ew. subst w. rewrite Z.div_1_r. lia.
    - apply Z.ltb_ge in Dx. destruct (log2_scale x Dx) as (Hp & Hlo & Hhi). rewrite <- Ew in Hlo, Hhi.
      split; [split; [apply Z.div_pos; lia|apply Z.div_lt_upper_bound; lia]|left].
      apply Z.div_le_lower_bound; lia. }
  destruct Q as [Q1 Q2].
  assert (Big : 2 ^ 52 * d <= n -> 2 ^ 52 * D <= n).
  { intros Hb. destruct Q2 as [Q2|Q2].
    - change (2 ^ 52) with 4503599627370496 in *. nia.
    - rewrite Q2 in Ew. change (2 ^ 0) with 1 in Ew. subst w. lia. }
  assert (Between : forall y, representable y -> y <= q * w \/ (q + 1) * w <= y).
  { intros y Hy. destruct (Z_le_gt_dec y (q * w)); [left; lia|].
    destruct (Z_le_gt_dec ((q + 1) * w) y); [right; lia|]. exfalso.
    destruct Q2 as [Q2|Q2].
    - apply (no_representable_between e q y); [lia|exact Q2|rewrite <- Ew; lia|exact Hy].
    - rewrite Q2 in Ew. change (2 ^ 0) with 1 in Ew. subst w. lia. }
  assert (Low : forall y, y <= q * w -> y * d <= q * D) by (intros; subst D; nia).
  assert (Low1 : forall y, y < q * w -> y * d < q * D) by (intros; subst D; nia).
  assert (High : forall y, (q + 1) * w <= y -> q * D + D <= y * d) by (intros; subst D; nia).
  assert (High1 : forall y, (q + 1) * w < y -> q * D + D < y * d) by (intros; subst D; nia).
  assert (Zq : q * w * d = q * D) by (subst D; ring).
  assert (Zq1 : (q + 1) * w * d = q * D + D) by (subst D; ring).
  assert (DM' : n = q * D + r) by lia.
  change (2 ^ 53) with 9007199254740992 in *.
  destruct ((2 * r <? D) || (2 * r =? D) && Z.even q)%bool eqn:B.
  - exists q, e. rewrite <- Ew, <- ED. split; [reflexivity|]. split; [lia|]. split; [lia|].
    assert (Hr : 2 * r <= D).
    { apply Bool.orb_true_iff in B. destruct B as [B|B]; [apply Z.ltb_lt in B; lia|].
      apply andb_prop in B. destruct B as [B _]. apply Z.eqb_eq in B. lia. }
    split; [|split; [rewrite Zq; lia|exact Big]].
    intros y Hy Hne. rewrite Zq. destruct (Between y Hy) as [H|H].
    + left. specialize (Low1 y ltac:(lia)). lia.
    + apply Bool.orb_true_iff in B. destruct B as [B|B].
      * apply Z.ltb_lt in B. left. specialize (High y H). lia.
      * apply andb_prop in B. destruct B as [B1 B2]. apply Z.eqb_eq in B1.
        apply Z.even_spec in B2. destruct B2 as [h Hh].
        destruct (Z.eq_dec y ((q + 1) * w)) as [->|Hy2].
        -- right. split; [rewrite Zq1; lia|]. exists h. replace ((q + 1) * w - q * w) with w by lia.
           rewrite Z.abs_eq by lia. rewrite Hh. ring.
        -- left. specialize (High1 y ltac:(lia)). lia.
  - exists (q + 1), e. rewrite <- Ew, <- ED. split; [reflexivity|]. split; [lia|]. split; [lia|].
    apply Bool.orb_false_iff in B. destruct B as [B1 B2]. apply Z.ltb_ge in B1.
    split; [|split; [rewrite Zq1; lia|exact Big]].
    intros y Hy Hne. rewrite Zq1. destruct (Between y Hy) as [H|H].
    + destruct (Z.eq_dec (2 * r) D) as [Er|Er].
      * rewrite Er, Z.eqb_refl in B2. simpl in B2.
        destruct (Z.eq_dec y (q * w)) as [->|Hy2].
        -- right. split; [rewrite Zq; lia|].
           assert (O : Z.odd q = true) by (rewrite <- Z.negb_even, B2; reflexivity).
           apply Z.odd_spec in O. destruct O as [h Hh]. exists (h + 1).
           replace (q * w - (q + 1) * w) with (- w) by lia. rewrite Z.abs_neq by lia. rewrite Hh. ring.
        -- left. specialize (Low1 y ltac:(lia)). lia.
      * left. specialize (Low y H). lia.
    + left. specialize (High1 y ltac:(lia)). lia.
Qed.
Lemma round_ratio_nonneg n d : 0 <= n -> 0 < d -> 0 <= round_ratio n d.
Proof.
  intros Hn Hd. destruct (round_ratio_spec n d Hn Hd) as (m & e & E & He & Hm & _). rewrite E.
  pose proof (Z.pow_nonneg 2 e ltac:(lia)). nia.
Qed.

Lemma too_large_overflow : too_large = overflow.
Proof.
  rewrite P_over. unfold too_large. change (2 ^ (970 + 1074)) with P. reflexivity.
Qed.
Global Opaque too_large.

Lemma representable_max_finite : representable max_finite.
Proof.
  pose proof P_pos.
  rewrite P_max. replace (18014398509481982 * P) with (9007199254740991 * 2 ^ 2045).
  - apply representable_scaled; [lia|lia|]. rewrite P_1024.
    replace (2 ^ 2045) with (2 * P) by (rewrite P_log; reflexivity). lia.
  - replace (2 ^ 2045) with (2 * P) by (rewrite P_log; reflexivity). lia.
Qed.

Lemma round_ratio_range n d : 0 <= n -> 0 < d -> n < overflow * d -> round_ratio n d <= max_finite.
Proof.
  intros Hn Hd L. destruct (round_ratio_spec n d Hn Hd) as (m & e & E & He & Hm & Near & _).
  pose proof P_pos as PP.
  destruct (Z_le_gt_dec (round_ratio n d) max_finite) as [H|G]; [exact H|exfalso].
  assert (G2 : 18014398509481984 * P <= round_ratio n d).
  { rewrite E in G |- *. rewrite P_max in G.
    destruct (Z_le_gt_dec e 2044) as [He2|He2].
    - exfalso. pose proof (Z.pow_le_mono_r 2 e 2044 ltac:(lia) He2) as M. rewrite <- P_log in M.
      change (2 ^ 53) with 9007199254740992 in Hm. pose proof (Z.pow_nonneg 2 e ltac:(lia)). nia.
    - destruct (pow_divide 2045 e ltac:(lia)) as [c Hc].
      replace (2 ^ 2045) with (2 * P) in Hc by (rewrite P_log; reflexivity).
      rewrite Hc in G |- *. assert (9007199254740991 < m * c) by nia. nia. }
  assert (K1 : 18014398509481984 * (P * d) <= round_ratio n d * d) by nia.
  assert (K2 : max_finite * d = 18014398509481982 * (P * d)) by (rewrite P_max; ring).
  assert (K3 : overflow * d = 18014398509481983 * (P * d)) by (rewrite P_over; ring).
  rewrite K3 in L.
  destruct (Near max_finite representable_max_finite ltac:(lia)) as [H|[H _]]; rewrite K2 in H; lia.
Qed.

Lemma near_opp n d z : near n d z -> near (- n) d (- z).
Proof.
  intros H y Hy Hne. apply representable_opp in Hy.
  destruct (H (- y) Hy ltac:(lia)) as [D|[D (m & M)]].
  - left. replace (- z * d - - n) with (- (z * d - n)) by ring.
    replace (y * d - - n) with (- (- y * d - n)) by ring. rewrite !Z.abs_opp. exact D.
  - right. split.
    + replace (- z * d - - n) with (- (z * d - n)) by ring.
      replace (y * d - - n) with (- (- y * d - n)) by ring. rewrite !Z.abs_opp. exact D.
    + exists (- m). replace (Z.abs (y - - z)) with (Z.abs (- y - z)) by lia.
      rewrite M at 1. ring.
Qed.

Lemma of_ratio_rounds n d : 0 < d -> ratio_rounds_to n d (of_ratio n d).
Proof.
  intros Hd. unfold of_ratio. rewrite too_large_overflow.
  destruct (overflow * d <=? Z.abs n) eqn:O.
  - apply Z.leb_le in O. simpl. split; [exact O|apply Z.ltb_lt].
  - apply Z.leb_gt in O. unfold ratio_rounds_to. split; [exact O|].
    destruct (round_ratio_spec (Z.abs n) d ltac:(lia) Hd) as (m & e & E & He & Hm & Near & _).
    pose proof (round_ratio_range (Z.abs n) d ltac:(lia) Hd O) as R.
    pose proof (round_ratio_nonneg (Z.abs n) d ltac:(lia) Hd) as R0.
    assert (Rep : representable (round_ratio (Z.abs n) d)).
    { rewrite E. apply representable_scaled; [lia|lia|]. rewrite <- E, Z.abs_eq by lia.
      rewrite P_1024. rewrite P_max in R. pose proof P_pos. lia. }
    destruct (Z.lt_trichotomy n 0) as [Hn|[->|Hp]].
    + rewrite Z.sgn_neg by lia. replace (-1 * round_ratio (Z.abs n) d) with (- round_ratio (Z.abs n) d) by lia.
      split; [apply representable_opp; rewrite Z.opp_involutive; exact Rep|].
      apply near_opp in Near. replace (- Z.abs n) with n in Near by lia. exact Near.
    + assert (E0 : round_ratio (Z.abs 0) d = 0).
      { unfold round_ratio. change (Z.abs 0) with 0. rewrite !Z.div_0_l by lia.
        change (if 0 <? 2 ^ 53 then 0 else Z.log2 0 - 52) with 0. change (2 ^ 0) with 1. rewrite Z.mul_1_r.
        rewrite Z.div_0_l, Z.mod_0_l by lia. simpl. replace (0 <? d) with true by (symmetry; apply Z.ltb_lt; lia).
        reflexivity. }
      rewrite E0 in *. simpl Z.sgn. simpl Z.mul. split; [exact Rep|exact Near].
    + rewrite Z.sgn_pos by lia. rewrite Z.mul_1_l. split; [exact Rep|].
      rewrite (Z.abs_eq n) in Near |- * by lia. exact Near.
Qed.

(** Rounding respects the order *)
Lemma near_mono n1 n2 d z1 z2 : 0 < d -> representable z1 -> representable z2 ->
  near n1 d z1 -> near n2 d z2 -> n1 <= n2 -> z1 <= z2.
Proof.
  intros Hd R1 R2 N1 N2 Hn. destruct (Z_le_gt_dec z1 z2) as [H|G]; [exact H|exfalso].
  assert (M : z2 * d < z1 * d) by nia.
  destruct (N1 z2 R2 ltac:(lia)) as [A|[A (m & HA)]]; destruct (N2 z1 R1 ltac:(lia)) as [B|[B (k & HB)]]; try lia.
  replace (Z.abs (z2 - z1)) with (z1 - z2) in HA by lia.
  replace (Z.abs (z1 - z2)) with (z1 - z2) in HB by lia.
  remember (z1 - z2) as g eqn:Hg.
  assert (F : (2 * m - 2 * k - 1) * g = 0).
  { replace ((2 * m - 2 * k - 1) * g) with (2 * m * g - 2 * k * g - g) by ring. rewrite <- HA, <- HB. lia. }
  apply Z.mul_eq_0 in F. lia.
Qed.
Lemma of_ratio_mono n1 n2 d : 0 < d -> n1 <= n2 -> at_most (of_ratio n1 d) (of_ratio n2 d).
Proof.
  intros Hd Hn. pose proof (of_ratio_rounds n1 d Hd) as R1. pose proof (of_ratio_rounds n2 d Hd) as R2.
  assert (0 < overflow * d). { rewrite P_over. pose proof P_pos. nia. }
  destruct (of_ratio n1 d) as [z1|s1|], (of_ratio n2 d) as [z2|s2|]; simpl in R1, R2 |- *; try contradiction.
  - destruct R1 as (_ & A1 & A2). destruct R2 as (_ & B1 & B2). apply (near_mono n1 n2 d); assumption.
  - destruct R2 as [O S]. destruct s2; [|exact I]. destruct S as [S _]. specialize (S eq_refl). lia.
  - destruct R1 as [O S]. destruct s1; [exact I|].
    destruct (Z_lt_ge_dec n1 0) as [L|G]; [destruct S as [_ S]; specialize (S L); discriminate|lia].
  - destruct R1 as [O1 S1]. destruct R2 as [O2 S2]. destruct s1, s2; try exact I.
    destruct S2 as [S2 _]. specialize (S2 eq_refl).
    destruct S1 as [_ S1]. specialize (S1 ltac:(lia)). discriminate.
Qed.
(** Relative error *)
Lemma round_ratio_error n d : 0 < d -> 2 ^ 52 * d <= n -> Z.abs (round_ratio n d * d - n) * 2 ^ 53 <= n.
Proof.
  intros Hd Hn. assert (0 <= n) by lia.
  destruct (round_ratio_spec n d ltac:(lia) Hd) as (m & e & E & He & Hm & _ & Er & Big).
  specialize (Big Hn). change (2 ^ 53) with (2 * 2 ^ 52). lia.
Qed.

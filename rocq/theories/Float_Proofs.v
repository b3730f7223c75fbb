(** Rounding of Float_Model.v is that of IEEE 754 *)
From Verif Require Import Base Tree_Model Float_Model Float_Spec.
Local Open Scope Z_scope.

Definition P : Z := 2 ^ (970 + 1074).
Lemma P_pos : 0 < P. Proof. apply Z.pow_pos_nonneg; lia. Qed.
Lemma P_1024 : 2 ^ (1024 + 1074) = 18014398509481984 * P.
Proof.
  unfold P. replace (1024 + 1074) with (54 + (970 + 1074)) by lia. rewrite Z.pow_add_r by lia. reflexivity.
Qed.
Lemma P_971 : 2 ^ (971 + 1074) = 2 * P.
Proof.
  unfold P. replace (971 + 1074) with (1 + (970 + 1074)) by lia. rewrite Z.pow_add_r by lia. reflexivity.
Qed.
Lemma P_max : max_finite = 18014398509481982 * P.
Proof. unfold max_finite. rewrite P_971. lia. Qed.
Lemma P_over : overflow = 18014398509481983 * P.
Proof. unfold overflow. fold P. rewrite P_1024. lia. Qed.
Lemma P_log : P = 2 ^ 2044. Proof. reflexivity. Qed.
Global Opaque P.

Lemma pow_divide a b : 0 <= a <= b -> (2 ^ a | 2 ^ b).
Proof. intros H. exists (2 ^ (b - a)). rewrite <- Z.pow_add_r by lia. f_equal. lia. Qed.

(** Representable numbers do not lie between consecutive multiples of the unit of their scale *)
Lemma no_representable_between p q y : 0 <= p -> 2 ^ 52 <= q -> q * 2 ^ p < y < (q + 1) * 2 ^ p ->
  ~ representable y.
Proof.
  intros Hp Hq Hy [(m & e & E & He & Hm) _].
  assert (P0 : 0 < 2 ^ p) by (apply Z.pow_pos_nonneg; lia).
  assert (E0 : 0 < 2 ^ e) by (apply Z.pow_pos_nonneg; lia).
  assert (Hpe : p <= e).
  { destruct (Z_le_gt_dec p e) as [H|H]; [exact H|exfalso].
    assert (D : 2 ^ p = 2 ^ (p - 1 - e) * (2 * 2 ^ e)).
    { replace (2 * 2 ^ e) with (2 ^ (e + 1)) by (rewrite Z.pow_add_r by lia; lia).
      rewrite <- Z.pow_add_r by lia. f_equal. lia. }
    assert (D0 : 0 < 2 ^ (p - 1 - e)) by (apply Z.pow_pos_nonneg; lia).
    assert (2 ^ p >= 2 * 2 ^ e) by nia.
    change (2 ^ 52) with 4503599627370496 in Hq. change (2 ^ 53) with 9007199254740992 in Hm. nia. }
  destruct (pow_divide p e ltac:(lia)) as [c Hc].
  rewrite E, Hc in Hy. assert (q < m * c < q + 1) by nia. lia.
Qed.

Lemma log2_scale x : 2 ^ 53 <= x -> 0 < Z.log2 x - 52 /\
  2 ^ 52 * 2 ^ (Z.log2 x - 52) <= x < 2 ^ 53 * 2 ^ (Z.log2 x - 52).
Proof.
  intros Hx. assert (0 < x) by lia.
  assert (53 <= Z.log2 x) by (apply Z.log2_le_pow2; lia).
  rewrite <- !Z.pow_add_r by lia. replace (52 + (Z.log2 x - 52)) with (Z.log2 x) by lia.
  replace (53 + (Z.log2 x - 52)) with (Z.succ (Z.log2 x)) by lia.
  pose proof (Z.log2_spec x ltac:(lia)). lia.
Qed.

Lemma representable_opp z : representable z <-> representable (- z).
Proof.
  assert (H : forall z, representable z -> representable (- z)).
  { intros y [(m & e & E & He & Hm) Hb]. split; [exists (- m), e; lia|lia]. }
  split; [apply H|]. intros Hz. apply H in Hz. rewrite Z.opp_involutive in Hz. exact Hz.
Qed.
Lemma representable_small z : Z.abs z < 2 ^ 53 -> representable z.
Proof.
  intros H. split; [exists z, 0; change (2 ^ 0) with 1; lia|].
  rewrite P_1024. pose proof P_pos. change (2 ^ 53) with 9007199254740992 in H. lia.
Qed.
Lemma representable_scaled m e : 0 <= e -> Z.abs m <= 2 ^ 53 -> Z.abs (m * 2 ^ e) < 2 ^ (1024 + 1074) ->
  representable (m * 2 ^ e).
Proof.
  intros He Hm Hb. split; [|exact Hb].
  destruct (Z.eq_dec (Z.abs m) (2 ^ 53)) as [E|E]; [|exists m, e; lia].
  exists (Z.sgn m * 2 ^ 52), (e + 1). rewrite Z.pow_add_r by lia.
  change (2 ^ 53) with 9007199254740992 in *. change (2 ^ 52) with 4503599627370496. nia.
Qed.
(** The largest representable number *)
Lemma representable_max z : representable z -> Z.abs z <= max_finite.
Proof.
  intros Hz. destruct (Z_le_gt_dec (Z.abs z) max_finite) as [H|H]; [exact H|exfalso].
  assert (Hp : representable (Z.abs z)).
  { destruct (Z.abs_eq_or_opp z) as [-> | ->]; [exact Hz|apply representable_opp in Hz; exact Hz]. }
  destruct Hz as [_ Hb]. rewrite P_1024 in Hb. rewrite P_max in H. pose proof P_pos.
  apply (no_representable_between 2045 9007199254740991 (Z.abs z)); [lia|lia| |exact Hp].
  replace (2 ^ 2045) with (2 * P); [lia|].
  rewrite P_log. reflexivity.
Qed.

Definition nearest (x z : Z) : Prop :=
  forall y, representable y -> y <> z ->
    Z.abs (z - x) < Z.abs (y - x) \/
    (Z.abs (z - x) = Z.abs (y - x) /\ exists m, z = 2 * m * Z.abs (y - z)).

(** [round_abs]: a multiple q * 2^p near x, without the bound on the exponent *)
Lemma round_abs_spec x : 0 <= x -> exists m e,
  round_abs x = m * 2 ^ e /\ 0 <= e /\ 0 <= m <= 2 ^ 53 /\ nearest x (round_abs x).
Proof.
  intros Hx. unfold round_abs. destruct (x <? 2 ^ 53) eqn:E.
  - apply Z.ltb_lt in E. exists x, 0. change (2 ^ 0) with 1. split; [lia|]. split; [lia|]. split; [lia|].
    intros y Hy Hne. left. lia.
  - apply Z.ltb_ge in E. destruct (log2_scale x E) as (Hp & Hlo & Hhi).
    set (p := Z.log2 x - 52) in *. cbv zeta.
    assert (P0 : 0 < 2 ^ p) by (apply Z.pow_pos_nonneg; lia).
    assert (Even : 2 ^ p = 2 * 2 ^ (p - 1)).
    { change 2 with (2 ^ 1) at 2. rewrite <- Z.pow_add_r by lia. f_equal. lia. }
    pose proof (Z.div_mod x (2 ^ p) ltac:(lia)) as DM. pose proof (Z.mod_pos_bound x (2 ^ p) P0) as MB.
    set (q := x / 2 ^ p) in *. set (r := x mod 2 ^ p) in *. set (w := 2 ^ p) in *.
    change (2 ^ 52) with 4503599627370496 in Hlo. change (2 ^ 53) with 9007199254740992 in *.
    assert (Hq : 4503599627370496 <= q < 9007199254740992) by nia.
    assert (Between : forall y, representable y -> y <= q * w \/ (q + 1) * w <= y).
    { intros y Hy. destruct (Z_le_gt_dec y (q * w)); [left; lia|].
      destruct (Z_le_gt_dec ((q + 1) * w) y); [right; lia|]. exfalso.
      apply (no_representable_between p q y); [lia|change (2 ^ 52) with 4503599627370496; lia|fold w; lia|exact Hy]. }
    destruct ((2 * r <? w) || (2 * r =? w) && Z.even q)%bool eqn:D.
    + exists q, p. split; [reflexivity|]. split; [lia|]. split; [lia|].
      intros y Hy Hne. destruct (Between y Hy) as [H|H].
      * left. nia.
      * apply Bool.orb_true_iff in D. destruct D as [D|D].
        -- apply Z.ltb_lt in D. left. nia.
        -- apply andb_prop in D. destruct D as [D1 D2]. apply Z.eqb_eq in D1.
           apply Z.even_spec in D2. destruct D2 as [h Hh].
           destruct (Z.eq_dec y ((q + 1) * w)) as [->|Hy2]; [|left; nia].
           right. split; [nia|]. exists h. rewrite Hh. replace ((2 * h + 1) * w - 2 * h * w) with w by lia.
           rewrite Z.abs_eq by lia. lia.
    + exists (q + 1), p. split; [reflexivity|]. split; [lia|]. split; [lia|].
      apply Bool.orb_false_iff in D. destruct D as [D1 D2]. apply Z.ltb_ge in D1.
      intros y Hy Hne. destruct (Between y Hy) as [H|H].
      * destruct (Z.eq_dec (2 * r) w) as [Er|Er].
        -- rewrite Er, Z.eqb_refl in D2. simpl in D2.
           destruct (Z.eq_dec y (q * w)) as [->|Hy2]; [|left; nia].
           right. split; [nia|].
           assert (O : Z.odd q = true) by (rewrite <- Z.negb_even, D2; reflexivity).
           apply Z.odd_spec in O. destruct O as [h Hh]. exists (h + 1). rewrite Hh.
           replace ((2 * h + 1) * w - (2 * h + 1 + 1) * w) with (- w) by lia.
           rewrite Z.abs_neq by lia. lia.
        -- left. nia.
      * left. nia.
Qed.

Lemma round_abs_0 : round_abs 0 = 0. Proof. reflexivity. Qed.
Lemma round_abs_nonneg x : 0 <= x -> 0 <= round_abs x.
Proof.
  intros H. destruct (round_abs_spec x H) as (m & e & E & He & Hm & _). rewrite E.
  pose proof (Z.pow_nonneg 2 e ltac:(lia)). nia.
Qed.

(** Overflow happens from [overflow] on *)
Lemma round_abs_over x : 0 <= x -> (round_abs x <= max_finite <-> x < overflow).
Proof.
  intros Hx. destruct (round_abs_spec x Hx) as (m & e & E & He & Hm & Near).
  pose proof P_pos as PP.
  assert (R0 : representable max_finite).
  { rewrite P_max. replace (18014398509481982 * P) with (9007199254740991 * 2 ^ 2045).
    - apply representable_scaled; [lia|lia|]. rewrite P_1024.
      replace (2 ^ 2045) with (2 * P) by (rewrite P_log; reflexivity). lia.
    - replace (2 ^ 2045) with (2 * P) by (rewrite P_log; reflexivity). lia. }
  split.
  - intros H. destruct (Z_lt_ge_dec x overflow) as [L|G]; [exact L|exfalso].
    (* then the largest number is at least as near, but is odd *)
    assert (Hb : 2 ^ 53 <= x).
    { rewrite P_over in G. change (2 ^ 53) with 9007199254740992. lia. }
    revert H. unfold round_abs. replace (x <? 2 ^ 53) with false by (symmetry; apply Z.ltb_ge; lia).
    cbv zeta. destruct (log2_scale x Hb) as (Hp & Hlo & Hhi).
    set (p := Z.log2 x - 52) in *.
    assert (Pp : 2045 <= p).
    { unfold p. enough (2097 <= Z.log2 x) by lia. apply Z.log2_le_pow2; [lia|].
      replace (2 ^ 2097) with (9007199254740992 * P).
      - rewrite P_over in G. lia.
      - rewrite P_log. change 9007199254740992 with (2 ^ 53). rewrite <- Z.pow_add_r by lia. reflexivity. }
    assert (Pw : exists c, 1 <= c /\ 2 ^ p = c * (2 * P)).
    { exists (2 ^ (p - 2045)). split; [pose proof (Z.pow_pos_nonneg 2 (p - 2045) ltac:(lia) ltac:(lia)); lia|].
      replace (2 * P) with (2 ^ 2045) by (rewrite P_log; reflexivity).
      rewrite <- Z.pow_add_r by lia. f_equal. lia. }
    destruct Pw as (c & Hc & Ew). rewrite Ew in *.
    pose proof (Z.div_mod x (c * (2 * P)) ltac:(lia)) as DM.
    pose proof (Z.mod_pos_bound x (c * (2 * P)) ltac:(lia)) as MB.
    set (q := x / (c * (2 * P))) in *. set (r := x mod (c * (2 * P))) in *.
    change (2 ^ 52) with 4503599627370496 in Hlo. change (2 ^ 53) with 9007199254740992 in *.
    assert (Hq : 4503599627370496 <= q < 9007199254740992) by nia.
    rewrite P_max. rewrite P_over in G.
    destruct (Z.eq_dec c 1) as [->|Hc1].
    + (* q = 2^53 - 1 *)
      assert (Eq : q = 9007199254740991) by nia.
      replace (2 * r <? 1 * (2 * P)) with false by (symmetry; apply Z.ltb_ge; nia).
      rewrite Eq. change (Z.even 9007199254740991) with false. rewrite Bool.andb_false_r.
      change (false || false)%bool with false. cbv iota. lia.
    + assert (2 <= c) by lia.
      destruct ((2 * r <? c * (2 * P)) || (2 * r =? c * (2 * P)) && Z.even q)%bool; nia.
  - intros L. destruct (Z_le_gt_dec (round_abs x) max_finite) as [H|G]; [exact H|exfalso].
    destruct (Near max_finite R0 ltac:(lia)) as [H|[H _]]; rewrite P_max, P_over in *.
    + assert (G2 : 18014398509481984 * P <= round_abs x); [|lia].
      rewrite E in G |- *.
      destruct (Z_le_gt_dec e 2044) as [He2|He2].
      * (* m * 2^e <= 2^53 * 2^2044 = 2^2097 *)
        exfalso. pose proof (Z.pow_le_mono_r 2 e 2044 ltac:(lia) He2) as M. rewrite <- P_log in M.
        change (2 ^ 53) with 9007199254740992 in Hm. pose proof (Z.pow_nonneg 2 e ltac:(lia)). nia.
      * destruct (pow_divide 2045 e ltac:(lia)) as [c Hc].
        replace (2 ^ 2045) with (2 * P) in Hc by (rewrite P_log; reflexivity).
        rewrite Hc in G |- *. assert (9007199254740991 < m * c) by nia. nia.
    + assert (G2 : 18014398509481984 * P <= round_abs x); [|lia].
      rewrite E in G |- *.
      destruct (Z_le_gt_dec e 2044) as [He2|He2].
      * exfalso. pose proof (Z.pow_le_mono_r 2 e 2044 ltac:(lia) He2) as M. rewrite <- P_log in M.
        change (2 ^ 53) with 9007199254740992 in Hm. pose proof (Z.pow_nonneg 2 e ltac:(lia)). nia.
      * destruct (pow_divide 2045 e ltac:(lia)) as [c Hc].
        replace (2 ^ 2045) with (2 * P) in Hc by (rewrite P_log; reflexivity).
        rewrite Hc in G |- *. assert (9007199254740991 < m * c) by nia. nia.
Qed.

Lemma nearest_opp x z : nearest x z -> nearest (- x) (- z).
Proof.
  intros H y Hy Hne. apply representable_opp in Hy.
  destruct (H (- y) Hy ltac:(lia)) as [D|[D (m & M)]]; [left; lia|right; split; [lia|]].
  exists (- m). replace (Z.abs (y - - z)) with (Z.abs (- y - z)) by lia.
  rewrite M at 1. lia.
Qed.

Lemma of_exact_rounds x : rounds_to x (of_exact x).
Proof.
  destruct (round_abs_spec (Z.abs x) ltac:(lia)) as (m & e & E & He & Hm & Near).
  pose proof (round_abs_over (Z.abs x) ltac:(lia)) as Ov.
  pose proof (round_abs_nonneg (Z.abs x) ltac:(lia)) as Pos.
  assert (Ea : Z.abs (round x) = round_abs (Z.abs x)).
  { unfold round. destruct x; simpl Z.sgn; rewrite ?Z.mul_1_l; [reflexivity|lia|lia]. }
  unfold of_exact. rewrite Ea. destruct (round_abs (Z.abs x) <=? max_finite) eqn:D.
  - apply Z.leb_le in D. simpl. split; [apply Ov; exact D|].
    assert (R : representable (round_abs (Z.abs x))).
    { rewrite E. apply representable_scaled; [lia|lia|]. rewrite <- E, Z.abs_eq by lia.
      rewrite P_1024. rewrite P_max in D. pose proof P_pos. lia. }
    unfold round. destruct (Z.lt_trichotomy x 0) as [Hn|[->|Hp]].
    + rewrite Z.sgn_neg by lia. replace (-1 * round_abs (Z.abs x)) with (- round_abs (Z.abs x)) by lia.
      split; [apply representable_opp; rewrite Z.opp_involutive; exact R|].
      apply nearest_opp in Near. replace (- Z.abs x) with x in Near by lia. exact Near.
    + simpl Z.sgn. simpl Z.mul. change (round_abs (Z.abs 0)) with 0 in *. split; [exact R|exact Near].
    + rewrite Z.sgn_pos by lia. rewrite Z.mul_1_l. split; [exact R|].
      rewrite (Z.abs_eq x) in Near |- * by lia. exact Near.
  - apply Z.leb_gt in D. simpl. split; [lia|]. apply Z.ltb_lt.
Qed.

Lemma rounds_exact x : representable x -> of_exact x = Num x.
Proof.
  intros Hx. pose proof (of_exact_rounds x) as R. destruct (of_exact x) as [z|s|]; simpl in R.
  - destruct R as (_ & _ & N). destruct (Z.eq_dec x z) as [->|Hne]; [reflexivity|].
    destruct (N x Hx Hne) as [D|[D _]]; lia.
  - destruct R as [R _]. apply representable_max in Hx. rewrite P_max in Hx. rewrite P_over in R.
    pose proof P_pos. lia.
  - contradiction.
Qed.

(** Two numbers on the same side stay there *)
Lemma rounds_above x y : representable y -> y <= x -> at_most (Num y) (of_exact x).
Proof.
  intros Hy Hle. pose proof (of_exact_rounds x) as R. destruct (of_exact x) as [z|s|]; simpl in R |- *.
  - destruct R as (_ & _ & N). destruct (Z.eq_dec y z) as [->|Hne]; [lia|].
    destruct (N y Hy Hne) as [D|[D _]]; lia.
  - destruct R as [R S]. destruct s; [|exact I]. exfalso.
    destruct S as [S _]. specialize (S eq_refl). apply representable_max in Hy.
    rewrite P_max in Hy. rewrite P_over in R. pose proof P_pos. lia.
  - contradiction.
Qed.

Lemma rounds_unique x a b : rounds_to x a -> rounds_to x b -> a = b.
Proof.
  destruct a as [z|s|], b as [y|q|]; unfold rounds_to; try contradiction; try lia.
  - intros (_ & Hz & Nz) (_ & Hy & Ny). destruct (Z.eq_dec z y) as [->|Hne]; [reflexivity|exfalso].
    destruct (Nz y Hy ltac:(lia)) as [D|[D (m & M)]]; destruct (Ny z Hz ltac:(lia)) as [D'|[D' (m' & M')]]; try lia.
    (* both at the same distance, both even: the gap divides z and y, which are adjacent *)
    replace (Z.abs (z - y)) with (Z.abs (y - z)) in M' by lia.
    remember (Z.abs (y - z)) as g eqn:G.
    assert (F : (2 * m' - 2 * m - 1) * g = 0 \/ (2 * m' - 2 * m + 1) * g = 0).
    { replace ((2 * m' - 2 * m - 1) * g) with (2 * m' * g - 2 * m * g - g) by ring.
      replace ((2 * m' - 2 * m + 1) * g) with (2 * m' * g - 2 * m * g + g) by ring. rewrite <- M, <- M'. lia. }
    destruct F as [F|F]; apply Z.mul_eq_0 in F; lia.
  - intros (_ & H1) (_ & H2). f_equal. destruct s, q; auto.
    + symmetry. apply H2, H1. reflexivity.
    + apply H1, H2. reflexivity.
Qed.

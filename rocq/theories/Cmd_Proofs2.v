(** Proofs about the times stored in build profiles. *)
From Coq Require Import NArith ZArith QArith Qabs Qround Lqa String.
From Verif Require Import Base Asylum_Model Cmd_Model Cmd_Spec.
Local Open Scope list_scope.
Local Open Scope Z_scope.

(** *** Rounding *)
Lemma pow_of_N a b : Z.of_N (a ^ b) = Z.of_N a ^ Z.of_N b.
Proof. apply N2Z.inj_pow. Qed.
Lemma shiftr_Z a b : Z.of_N (N.shiftr a b) = Z.of_N a / 2 ^ Z.of_N b.
Proof. rewrite N.shiftr_div_pow2, N2Z.inj_div, pow_of_N. easy. Qed.
Lemma shiftl_Z a b : Z.of_N (N.shiftl a b) = Z.of_N a * 2 ^ Z.of_N b.
Proof. rewrite N.shiftl_mul_pow2, N2Z.inj_mul, pow_of_N. easy. Qed.
Lemma size_lt n : Z.of_N n < 2 ^ Z.of_N (N.size n).
Proof. pose proof (N.size_gt n) as H. apply N2Z.inj_lt in H. rewrite pow_of_N in H. exact H. Qed.
Lemma size_ge n : (0 < n)%N -> 2 ^ (Z.of_N (N.size n) - 1) <= Z.of_N n.
Proof.
  intros H. pose proof (N.size_le n) as Hs. apply N2Z.inj_le in Hs. rewrite pow_of_N in Hs.
  assert (Hp : (0 < N.size n)%N) by (destruct n; [easy|reflexivity]).
  replace (Z.of_N (N.size n)) with (1 + (Z.of_N (N.size n) - 1)) in Hs by lia.
  rewrite Z.pow_add_r in Hs by lia. change (Z.of_N 2 ^ 1) with 2 in Hs. change (Z.of_N 2) with 2 in Hs.
  destruct n; simpl Z.of_N in *; lia.
Qed.

Record rounded (n q k : Z) : Prop := {
  rd_k : 0 <= k;
  rd_q : 0 <= q <= 2 ^ 24;
  rd_err : 2 * Z.abs (q * 2 ^ k - n) <= 2 ^ k;
  rd_zero : k = 0 -> q = n;
  rd_pos : 0 < k -> 2 ^ (23 + k) <= n;
  rd_lt : n < 2 ^ (24 + k) }.

Lemma round24_rounded n e : let '(q, e') := round24 n e in
  rounded (Z.of_N n) (Z.of_N q) (Z.of_N (N.size n - 24)) /\ e' = e + Z.of_N (N.size n - 24).
Proof.
  unfold round24. set (k := (N.size n - 24)%N). set (q := N.shiftr n k).
  set (r := (n - N.shiftl q k)%N). cbv zeta. split; [|easy].
  set (n' := Z.of_N n). set (k' := Z.of_N k).
  assert (Hk : 0 <= k') by (unfold k'; lia).
  assert (H2 : 0 < 2 ^ k') by (apply Z.pow_pos_nonneg; lia).
  assert (Hq : Z.of_N q = n' / 2 ^ k') by apply shiftr_Z.
  pose proof (Z.div_mod n' (2 ^ k') ltac:(lia)) as Hdm.
  pose proof (Z.mod_pos_bound n' (2 ^ k') H2) as Hmb.
  assert (Hr : Z.of_N r = n' mod 2 ^ k').
  { unfold r. rewrite N2Z.inj_sub_max, shiftl_Z, Hq. fold n' k'. lia. }
  pose proof (size_lt n) as Hlt. fold n' in Hlt.
  assert (Hn0 : 0 <= n') by (unfold n'; lia).
  assert (Hlt' : n' < 2 ^ (24 + k')).
  { eapply Z.lt_le_trans; [exact Hlt|]. apply Z.pow_le_mono_r; [lia|]. unfold k', k. lia. }
  assert (Hpos : 0 < k' -> 2 ^ (23 + k') <= n').
  { intros Hp. assert (Hn : (0 < n)%N).
    { destruct n; [|reflexivity]. exfalso. unfold k', k in Hp. simpl in Hp. lia. }
    pose proof (size_ge n Hn) as Hge. replace (23 + k') with (Z.of_N (N.size n) - 1) by (unfold k', k in *; lia).
    exact Hge. }
  assert (Hqlt : n' / 2 ^ k' < 2 ^ 24).
  { apply Z.div_lt_upper_bound; [easy|]. rewrite Z.mul_comm, <- Z.pow_add_r by lia. exact Hlt'. }
  assert (Hq0 : 0 <= n' / 2 ^ k') by (apply Z.div_pos; lia).
  match goal with |- context [if ?b then _ else _] => destruct b eqn:E end.
  - apply andb_true_iff in E. destruct E as [Eup Ek]. apply N.ltb_lt in Ek.
    assert (Hup : 2 ^ k' <= 2 * (n' mod 2 ^ k')).
    { rewrite <- Hr. unfold k'. change 2 with (Z.of_N 2). rewrite <- pow_of_N, <- N2Z.inj_mul. apply N2Z.inj_le.
      destruct (N.compare_spec (2 * r) (2 ^ k)); [lia|discriminate|lia]. }
    constructor; [easy| | |unfold k'; lia|easy|easy].
    + rewrite N2Z.inj_add, Hq. lia.
    + rewrite N2Z.inj_add, Hq. change (Z.of_N 1) with 1. rewrite Z.abs_eq by nia. nia.
  - assert (Hk0 : k' = 0 \/ 2 * (n' mod 2 ^ k') <= 2 ^ k').
    { apply andb_false_iff in E. destruct E as [E|E].
      - right. rewrite <- Hr. unfold k'. change 2 with (Z.of_N 2). rewrite <- pow_of_N, <- N2Z.inj_mul. apply N2Z.inj_le.
        destruct (N.compare_spec (2 * r) (2 ^ k)); [lia|lia|discriminate].
      - left. apply N.ltb_ge in E. unfold k'. lia. }
    constructor; [easy| | | |easy|easy].
    + rewrite Hq. lia.
    + rewrite Hq. destruct Hk0 as [->|Hk0].
      * change (2 ^ 0) with 1. rewrite Z.div_1_r. lia.
      * rewrite Z.abs_neq by nia. nia.
    + intros H0. rewrite Hq, H0. change (2 ^ 0) with 1. apply Z.div_1_r.
Qed.

Lemma floor_of_neg m p k : 0 <= k ->
  Z.of_N (floor_of m (Zneg p + k)) = (Z.of_N m * 2 ^ k) / 2 ^ Zpos p.
Proof.
  intros Hk. unfold floor_of. destruct (Zneg p + k) as [|s|s] eqn:E.
  - rewrite shiftl_Z. simpl Z.to_N. change (2 ^ Z.of_N 0) with 1.
    replace k with (Zpos p) by lia. rewrite Z.div_mul by (apply Z.pow_nonzero; lia). lia.
  - rewrite shiftl_Z. replace k with (Zpos s + Zpos p) by lia.
    rewrite Z.pow_add_r, Z.mul_assoc, Z.div_mul by (try apply Z.pow_nonzero; lia).
    rewrite Z2N.id by lia. easy.
  - rewrite shiftr_Z. replace (Zpos p) with (Zpos s + k) by lia.
    rewrite Z.pow_add_r by lia. rewrite Z.div_mul_cancel_r; [easy| |]; apply Z.pow_nonzero; lia.
Qed.
Lemma floor_of_nonneg m e : 0 <= e -> Z.of_N (floor_of m e) = Z.of_N m * 2 ^ e.
Proof.
  intros He. unfold floor_of. destruct e as [|p|p]; [| |lia]; rewrite shiftl_Z, Z2N.id by lia; easy.
Qed.

(** *** Errors *)
Lemma over_iff m e : over_u64 m e = true <-> (inject_Z (2 ^ 64) < seconds m e)%Q.
Proof.
  unfold over_u64, seconds. destruct e as [|p|p].
  - rewrite N.ltb_lt, N2Z.inj_lt, shiftl_Z. simpl Z.to_N. rewrite <- Zlt_Qlt. easy.
  - rewrite N.ltb_lt, N2Z.inj_lt, shiftl_Z, Z2N.id by lia. rewrite <- Zlt_Qlt. easy.
  - rewrite N.ltb_lt, N2Z.inj_lt, shiftl_Z. unfold Qlt, inject_Z. simpl Qnum. simpl Qden.
    rewrite Pos2Z.inj_pow, Z.mul_1_r. easy.
Qed.
Theorem wall_time_error x : wall_time (Some x) = Some (inr x) <-> bad_time x.
Proof.
  unfold wall_time, bad_time. destruct x as [| |neg m e]; [easy|easy|].
  rewrite <- over_iff. destruct neg, (N.eqb_spec m 0) as [Hm|Hm]; cbn [andb negb].
  2:{ split; [|easy]. intros _. left. easy. }
  all: destruct (over_u64 m e); [split; [|easy]; intros _; right; easy|].
  all: destruct (fract m e) as [fm fe]; destruct (round24 (fm * giga) fe) as [pm pe].
  all: split; [discriminate|intros [[H1 H2]|H]; easy].
Qed.

(** *** Accuracy *)
Lemma nanos_ok m p fm fe pm pe : (m <= 2 ^ 24)%N ->
  fract m (Zneg p) = (fm, fe) -> round24 (fm * giga) fe = (pm, pe) ->
  let f := Z.of_N m mod 2 ^ Zpos p in
  let nanos := Z.of_N (floor_of pm pe) in
  0 <= nanos <= 999999999 /\ Z.abs (nanos * 2 ^ Zpos p - f * 1000000000) <= 33 * 2 ^ Zpos p.
Proof.
  intros Hm Hf Hr f nanos. pose proof (f_equal fst Hf) as Hfm. pose proof (f_equal snd Hf) as Hfe. unfold fract, fst, snd in Hfm, Hfe.
  subst fe. clear Hf.
  assert (H2 : 0 < 2 ^ Zpos p) by (apply Z.pow_pos_nonneg; lia).
  assert (HfZ : Z.of_N fm = f).
  { subst fm. rewrite N2Z.inj_sub_max, shiftl_Z, shiftr_Z. change (Z.of_N (N.pos p)) with (Zpos p). unfold f.
    pose proof (Z.div_mod (Z.of_N m) (2 ^ Zpos p) ltac:(lia)).
    pose proof (Z.mod_pos_bound (Z.of_N m) (2 ^ Zpos p) H2). lia. }
  pose proof (Z.mod_pos_bound (Z.of_N m) (2 ^ Zpos p) H2) as Hfb. fold f in Hfb.
  pose proof (round24_rounded (fm * giga) (Zneg p)) as H. rewrite Hr in H. destruct H as [H ->].
  set (k := Z.of_N (N.size (fm * giga) - 24)) in *. destruct H as [Hk Hq Herr H0 Hpos Hlt].
  rewrite N2Z.inj_mul, HfZ in *. change (Z.of_N giga) with 1000000000 in *.
  assert (Hkp : k <= Zpos p + 6).
  { destruct (Z.le_gt_cases k 0) as [Hk0|Hk0]; [lia|]. specialize (Hpos Hk0).
    assert (Hl : 2 ^ (23 + k) < 2 ^ (Zpos p + 30)).
    { rewrite (Z.pow_add_r 2 (Zpos p)) by lia. change (2 ^ 30) with 1073741824. nia. }
    apply Z.pow_lt_mono_r_iff in Hl; lia. }
  assert (H2k : 2 ^ k <= 64 * 2 ^ Zpos p).
  { change 64 with (2 ^ 6). rewrite <- Z.pow_add_r by lia. apply Z.pow_le_mono_r; lia. }
  unfold nanos. rewrite floor_of_neg by lia.
  set (R := Z.of_N pm * 2 ^ k) in *.
  assert (HR0 : 0 <= R) by (unfold R; apply Z.mul_nonneg_nonneg; lia).
  pose proof (Z.div_mod R (2 ^ Zpos p) ltac:(lia)) as Hdm.
  pose proof (Z.mod_pos_bound R (2 ^ Zpos p) H2) as Hmb.
  pose proof (Z.div_pos R (2 ^ Zpos p) HR0 H2) as Hd0.
  assert (HfR : f * 1000000000 + 32 * 2 ^ Zpos p < 1000000000 * 2 ^ Zpos p).
  { destruct (Z.le_gt_cases (Zpos p) 24) as [Hp|Hp].
    - assert (Hpp : 2 ^ Zpos p <= 2 ^ 24) by (apply Z.pow_le_mono_r; lia). change (2 ^ 24) with 16777216 in Hpp. lia.
    - assert (Hpp : 2 ^ 25 <= 2 ^ Zpos p) by (apply Z.pow_le_mono_r; lia). change (2 ^ 25) with 33554432 in Hpp.
      assert (Hfm' : f <= 16777216).
      { unfold f. pose proof (Z.mod_le (Z.of_N m) (2 ^ Zpos p) ltac:(lia) H2) as Hml.
        apply N2Z.inj_le in Hm. change (Z.of_N (2 ^ 24)) with 16777216 in Hm. lia. }
      lia. }
  split; [split; [easy|]|].
  - assert (Hlt' : R / 2 ^ Zpos p < 1000000000) by (apply Z.div_lt_upper_bound; lia). lia.
  - rewrite Z.mul_comm. lia.
Qed.

Lemma seconds_neg m p : (seconds m (Zneg p) == inject_Z (Z.of_N m) / inject_Z (2 ^ Zpos p))%Q.
Proof.
  unfold seconds. rewrite Qmake_Qdiv, Pos2Z.inj_pow. easy.
Qed.

Theorem wall_time_value neg m e : f32_ok (FFin neg m e) -> ~ bad_time (FFin neg m e) ->
  exists d, wall_time (Some (FFin neg m e)) = Some (inl d) /\ (d <= max_duration)%N /\
    ((seconds m e < inject_Z (2 ^ 64))%Q ->
       (Qabs (inject_Z (Z.of_N d) - exact_ns m e) <= 33 # 1)%Q /\
       Z.of_N (d / giga) = Qfloor (seconds m e)) /\
    ((seconds m e == inject_Z (2 ^ 64))%Q -> d = ((2 ^ 64 - 1) * giga)%N).
Proof.
  intros [Hm _] Hb. unfold wall_time.
  assert (Hov : over_u64 m e = false).
  { apply not_true_iff_false. intros H. apply over_iff in H. apply Hb. right. exact H. }
  assert (Hn : neg && negb (m =? 0)%N = false).
  { apply not_true_iff_false. intros H. apply andb_true_iff in H. destruct H as [H1 H2].
    apply Hb. left. split; [easy|]. intros ->. discriminate. }
  rewrite Hn, Hov.
  assert (Hle : (seconds m e <= inject_Z (2 ^ 64))%Q).
  { apply Qnot_lt_le. intros H. apply over_iff in H. congruence. }
  destruct (fract m e) as [fm fe] eqn:Ef. destruct (round24 (fm * giga) fe) as [pm pe] eqn:Er.
  eexists. split; [reflexivity|].
  destruct (Z.le_gt_cases 0 e) as [He|He].
  - (* an integer *)
    assert (Efm : (fm, fe) = (0%N, e)) by (rewrite <- Ef; destruct e; [easy|easy|lia]).
    injection Efm as -> ->. injection Er as <- <-.
    assert (Hfl : floor_of 0 (e + 0) = 0%N).
    { apply N2Z.inj. rewrite floor_of_nonneg by lia. easy. }
    assert (Has : as_u64 0 (e + 0) = 0%N) by (unfold as_u64; rewrite Hfl; easy).
    assert (Hs : (seconds m e == inject_Z (Z.of_N m * 2 ^ e))%Q) by (destruct e; [easy|easy|lia]).
    assert (Hmax : (as_u64 m e * giga + 0 <= max_duration)%N).
    { unfold as_u64, max_duration, giga. lia. }
    unfold saturating_add. cbn [N.size N.sub Z.of_N]. rewrite Has. rewrite N.min_l by exact Hmax.
    rewrite N.add_0_r in *. split; [easy|].
    pose proof (floor_of_nonneg m e He) as Hfe. rewrite Hs in Hle. rewrite <- Zle_Qle in Hle.
    split.
    + intros Hlt. rewrite Hs, <- Zlt_Qlt in Hlt. 
      assert (Hu : as_u64 m e = floor_of m e) by (unfold as_u64; apply N.min_l; lia).
      rewrite Hu. split.
      * unfold exact_ns. rewrite Hs, N2Z.inj_mul, Hfe. change (Z.of_N giga) with 1000000000.
        rewrite inject_Z_mult. unfold Qminus. rewrite Qplus_opp_r. easy.
      * rewrite N.div_mul by easy. rewrite Hs, Qfloor_Z. exact Hfe.
    + intros Heq. rewrite Hs in Heq. pose proof (proj1 (inject_Z_injective _ _) Heq) as Heq'. f_equal.
      unfold as_u64. lia.
  - (* a fraction *)
    destruct e as [|p|p]; [lia|lia|]. clear He.
    pose proof (nanos_ok m p fm fe pm pe Hm Ef Er) as Hnn. cbv zeta in Hnn.
    destruct Hnn as [Hn1 Hn2].
    set (nanos := floor_of pm pe) in *.
    assert (H2 : 0 < 2 ^ Zpos p) by (apply Z.pow_pos_nonneg; lia).
    assert (Hasn : as_u64 pm pe = nanos) by (unfold as_u64; fold nanos; apply N.min_l; lia).
    rewrite Hasn.
    assert (Hmax : (as_u64 m (Zneg p) * giga + nanos <= max_duration)%N).
    { unfold max_duration. apply N.add_le_mono; [|lia]. apply N.mul_le_mono_r. unfold as_u64. lia. }
    unfold saturating_add. rewrite N.min_l by exact Hmax. split; [easy|].
    assert (Hfl : Z.of_N (floor_of m (Zneg p)) = Z.of_N m / 2 ^ Zpos p).
    { pose proof (floor_of_neg m p 0 ltac:(lia)) as H. rewrite Z.add_0_r in H. rewrite H.
      change (2 ^ 0) with 1. rewrite Z.mul_1_r. easy. }
    assert (Hfloor : Qfloor (seconds m (Zneg p)) = Z.of_N m / 2 ^ Zpos p).
    { unfold seconds, Qfloor. rewrite Pos2Z.inj_pow. easy. }
    pose proof (Z.div_mod (Z.of_N m) (2 ^ Zpos p) ltac:(lia)) as Hdm.
    pose proof (Z.mod_pos_bound (Z.of_N m) (2 ^ Zpos p) H2) as Hmb.
    set (f := Z.of_N m mod 2 ^ Zpos p) in *. set (s := Z.of_N m / 2 ^ Zpos p) in *.
    assert (HmZ : Z.of_N m <= 16777216).
    { apply N2Z.inj_le in Hm. exact Hm. }
    assert (Hs64 : s < 2 ^ 64).
    { apply Z.div_lt_upper_bound; [easy|]. change (2 ^ 64) with 18446744073709551616. lia. }
    assert (Hu : as_u64 m (Zneg p) = floor_of m (Zneg p)).
    { unfold as_u64. apply N.min_l. change (2 ^ 64 - 1)%N with 18446744073709551615%N. lia. }
    rewrite Hu. split.
    + intros _. split.
      * unfold exact_ns, seconds. apply Qabs_Qle_condition.
        unfold Qle, Qopp, Qminus, Qplus, Qmult, inject_Z. cbn [Qnum Qden].
        unfold Qopp. cbn [Qnum Qden]. rewrite !Pos.mul_1_l, !Pos.mul_1_r, !Pos2Z.inj_pow, !Z.mul_1_r.
        rewrite N2Z.inj_add, N2Z.inj_mul, Hfl. change (Z.of_N giga) with 1000000000.
        change (Z.pow_pos 2 p) with (2 ^ Zpos p). 
        split; nia.
      * rewrite Hfloor. rewrite N2Z.inj_div, N2Z.inj_add, N2Z.inj_mul, Hfl.
        change (Z.of_N giga) with 1000000000. rewrite Z.div_add_l by lia.
        rewrite (Z.div_small (Z.of_N nanos)) by lia. lia.
    + intros Heq. exfalso. unfold seconds, Qeq, inject_Z in Heq. cbn [Qnum Qden] in Heq.
      rewrite Pos2Z.inj_pow in Heq. change (2 ^ 64) with 18446744073709551616 in Heq. nia.
Qed.

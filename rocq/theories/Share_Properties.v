(** Property C83: shares of the total duration, thresholds and statistics with the f64 arithmetic of the code. *)
From Coq Require Import Sorted Permutation.
From Verif Require Import Base Tree_Model Tree_Spec UI_Model UI_Spec Float_Model Float_Spec Float_Proofs Float_Proofs2 Float_Proofs3 Float_Proofs4 Float_Proofs5 Share_Model Share_Spec Share_Proofs Share_Proofs2 Share_Proofs3 Share_Proofs4 Share_Proofs5.

(** Products and quotients are those of IEEE 754 (in units of 2^-1074) *)
Theorem C83_arithmetic :
  (forall x y, ratio_rounds_to (x * y) (2 ^ 1074) (fmul (Num x) (Num y))) /\
  (forall x y, (0 < y)%Z -> ratio_rounds_to (x * 2 ^ 1074) y (fdiv (Num x) (Num y))) /\
  (forall n d a b, (0 < d)%Z -> ratio_rounds_to n d a -> ratio_rounds_to n d b -> a = b).
Proof.
  split; [intros x y; apply of_ratio_rounds; rewrite U_def; apply U_pos|]. split.
  - intros x y Hy. cbn [fdiv]. replace (y =? 0)%Z with false by (symmetry; apply Z.eqb_neq; lia).
    rewrite Z.sgn_pos, Z.mul_1_r, Z.abs_eq by lia. apply of_ratio_rounds, Hy.
  - intros n d [x|s|] [y|s'|] Hd Ha Hb; cbn [ratio_rounds_to] in *; try tauto; try lia.
    + destruct Ha as (_ & Rx & Hx), Hb as (_ & Ry & Hy). f_equal. destruct (Z.eq_dec x y) as [E|E]; [exact E|exfalso].
      destruct (Hx y Ry ltac:(congruence)) as [L1|(E1 & m1 & M1)], (Hy x Rx E) as [L2|(E2 & m2 & M2)]; try lia.
      assert (A : (Z.abs (x - y) = Z.abs (y - x))%Z) by lia. rewrite A in M2.
      assert (D : (Z.abs (y - x) = y - x \/ Z.abs (y - x) = x - y)%Z) by lia.
      destruct (Z.eq_dec (Z.abs (y - x)) 0) as [Z0|Z0]; [lia|].
      destruct D as [D|D]; rewrite D in M1, M2.
      * assert (K : ((2 * (m2 - m1) - 1) * (y - x) = 0)%Z) by lia. apply Z.mul_eq_0 in K. lia.
      * assert (K : ((2 * (m1 - m2) - 1) * (x - y) = 0)%Z) by lia. apply Z.mul_eq_0 in K. lia.
    + destruct Ha as [_ Ha], Hb as [_ Hb]. f_equal. destruct s, s'; try reflexivity; intuition congruence.
Qed.
Print Assumptions C83_arithmetic.

(** A share is the duration times the rounded inverse of the rounded total, rounded *)
Theorem C83_share_rounds :
  forall roots t, total roots (Num t) -> (2 ^ 52 <= t)%Z ->
  exists v, ratio_rounds_to (2 ^ 1074 * 2 ^ 1074) t (Num v) /\
    forall x, ratio_rounds_to (x * v) (2 ^ 1074) (share roots (Num x)).
Proof.
  intros roots t Ht Hb. exists (round_ratio (U * U) t). split.
  - rewrite <- (norm_value roots t Ht Hb). unfold fduration_norm. rewrite (total_is_fold _ _ Ht). unfold one.
    apply C83_arithmetic. lia.
  - intros x. rewrite (share_value roots t x Ht Hb), U_def. apply of_ratio_rounds, U_pos.
Qed.
Print Assumptions C83_share_rounds.

(** Rounding never reverses the order of two shares *)
Theorem C83_share_monotone :
  forall roots t x y, total roots (Num t) -> (2 ^ 52 <= t)%Z -> (x <= y)%Z ->
  at_most (share roots (Num x)) (share roots (Num y)).
Proof. intros roots t x y. apply share_mono. Qed.
Print Assumptions C83_share_monotone.

(** A part of the total has a share between 0 and 100 % *)
Theorem C83_share_at_most_one :
  forall roots t x, total roots (Num t) -> (2 ^ 52 <= t <= 2 ^ 2096)%Z -> (0 <= x <= t)%Z ->
  exists z, share roots (Num x) = Num z /\ (0 <= z <= 2 ^ 1074)%Z.
Proof.
  intros roots t x Ht Hb Hx. rewrite (share_value roots t x Ht ltac:(lia)).
  pose proof (share_num t _ Hb eq_refl x Hx) as E. exists (round_ratio (x * round_ratio (U * U) t) U).
  split; [exact E|]. rewrite U_def. pose proof U_pos.
  pose proof (round_ratio_nonneg (U * U) t ltac:(nia) ltac:(lia)).
  split; [apply round_ratio_nonneg; [nia|assumption]|apply (share_at_most_one t _ Hb eq_refl x Hx)].
Qed.
Print Assumptions C83_share_at_most_one.

(** The share is the exact ratio but for a relative error below 2^-51 *)
Theorem C83_share_accurate :
  forall roots t x, total roots (Num t) -> (2 ^ 52 <= t <= 2 ^ 2096)%Z -> (0 <= x <= t)%Z -> (t <= x * 2 ^ 1021)%Z ->
  exists z, share roots (Num x) = Num z /\ (Z.abs (z * t - x * 2 ^ 1074) * 2 ^ 51 <= x * 2 ^ 1074)%Z.
Proof.
  intros roots t x Ht Hb Hx Hl. rewrite (share_value roots t x Ht ltac:(lia)).
  pose proof (share_num t _ Hb eq_refl x Hx) as E. exists (round_ratio (x * round_ratio (U * U) t) U).
  split; [exact E|]. rewrite U_def. pose proof U_pos.
  pose proof (share_error t _ Hb eq_refl x Hx Hl) as R. assert (0 <= x * U)%Z by nia.
  change (2 ^ 106)%Z with (2 ^ 51 * 2 ^ 55)%Z in R.
  set (e := Z.abs (round_ratio (x * round_ratio (U * U) t) U * t - x * U)) in *.
  change (2 ^ 55)%Z with 36028797018963968%Z in R. change (2 ^ 54)%Z with 18014398509481984%Z in R.
  change (2 ^ 51)%Z with 2251799813685248%Z in *. lia.
Qed.
Print Assumptions C83_share_accurate.

(** Thresholds decide rightly but for a relative margin of 2^-51 *)
Theorem C83_threshold_right_outside_margin :
  forall roots t x th, total roots (Num t) -> (2 ^ 52 <= t <= 2 ^ 2096)%Z -> (0 <= x <= t)%Z -> (t <= x * 2 ^ 1021)%Z ->
  ((th * t * 2 ^ 51 <= x * 2 ^ 1074 * (2 ^ 51 - 1))%Z -> at_most (Num th) (share roots (Num x))) /\
  ((x * 2 ^ 1074 * (2 ^ 51 + 1) < th * t * 2 ^ 51)%Z -> less (share roots (Num x)) (Num th)).
Proof.
  intros roots t x th Ht Hb Hx Hl. destruct (C83_share_accurate roots t x Ht Hb Hx Hl) as (z & -> & E).
  unfold less. cbn [at_most]. rewrite !U_def in *. change (2 ^ 51)%Z with 2251799813685248%Z in *. pose proof U_pos.
  split; intros H1.
  - assert (K : (th * t <= z * t)%Z) by lia. nia.
  - assert (K : (z * t < th * t)%Z) by lia. nia.
Qed.
Print Assumptions C83_threshold_right_outside_margin.

(** The list of the hottest activities: never a panic, exactly those at or above the threshold,
    hottest first, whatever the durations (NaN included) and the threshold *)
Theorem C83_hottest :
  forall sort, fsorts sort ->
  forall (B : Type) (activities : list B) (dur : B -> f64) (threshold : f64),
  exists hottest, fhottest sort activities dur threshold = Ret hottest /\
    (exists dropped, Permutation activities (hottest ++ dropped) /\
       (forall a, In a hottest -> at_most threshold (dur a)) /\
       (forall a, In a dropped -> ~ at_most threshold (dur a))) /\
    StronglySorted (fun a b => at_most (dur b) (dur a)) hottest.
Proof.
  intros sort Hs B l dur thr. destruct (fhottest_ok sort Hs l dur thr) as (r & E & Hp & Hd).
  exists r. split; [exact E|]. split; [|exact Hd].
  assert (F : forall a, fle thr (dur a) = true <-> at_most thr (dur a)).
  { intros a. destruct thr as [x|[]|], (dur a) as [y|[]|]; simpl; rewrite ?Z.leb_le; try tauto; split; intros; try discriminate; tauto. }
  exists (filter (fun a => negb (fle thr (dur a))) l). split; [|split].
  - eapply Permutation_trans; [|apply Permutation_app_tail; exact Hp].
    clear. induction l as [|a l IH]; [constructor|]. simpl. destruct (fle thr (dur a)); simpl.
    + constructor. exact IH.
    + apply Permutation_cons_app. exact IH.
  - intros a Ha. apply F. apply (Permutation_in _ (Permutation_sym Hp)) in Ha. apply filter_In in Ha. apply Ha.
  - intros a Ha. apply filter_In in Ha. destruct Ha as [_ Ha]. rewrite <- F. destruct (fle thr (dur a)); easy.
Qed.
Print Assumptions C83_hottest.

(** The breakdown by activity type *)
Theorem C83_breakdown :
  forall sort, fsorts sort ->
  forall t : ftree str, Forall (fun n => finite (fn_self n)) (ft_acts t) ->
  let selves := map (fun n => (fs_act (fn_stat n), fn_self n)) (ft_acts t) in
  exists l, ftrace_breakdown sort t = Ret l /\ NoDup (map fst l) /\
    (forall name, In name (map fst l) <-> exists n, In n (ft_acts t) /\ fs_act (fn_stat n) = name) /\
    (forall name d, In (name, d) l -> total (of_type name selves) d) /\
    StronglySorted (fun a b => at_most (snd b) (snd a)) l.
Proof.
  intros sort Hs t Hf selves. destruct (fbreakdown_ok sort Hs selves) as (l & E & H1 & H2 & H3 & H4).
  - unfold selves. rewrite Forall_map. exact Hf.
  - exists l. split; [exact E|]. split; [exact H1|]. split; [|split; assumption].
    intros name. rewrite H2. unfold selves. rewrite map_map. simpl. rewrite in_map_iff.
    split; intros (n & A & B); exists n; tauto.
Qed.
Print Assumptions C83_breakdown.

Theorem C83_whole_breakdown_exact :
  forall sort, fsorts sort ->
  forall k (xs : list (stat str)) t f, (0 <= k <= 2044)%Z -> within_2_53 xs -> tree_of xs t -> ftree_of (map (whole k) xs) f ->
  (exists roots d, root_activities t = Ret roots /\ osum (duration t) roots = Ret d /\ (d <= 2 ^ 53)%Z) ->
  exists l, ftrace_breakdown sort f = Ret l /\
    StronglySorted (fun a b => at_most (snd b) (snd a)) l /\
    forall sortZ, sorts sortZ ->
      Permutation l (map (fun a => (fst a, Num (snd a * 2 ^ k))) (trace_breakdown sortZ t)).
Proof. intros sort Hs k xs t f Hk Hw Ht Hf Hr. exact (whole_breakdown sort Hs k Hk xs t f Hw Ht Hf Hr). Qed.
Print Assumptions C83_whole_breakdown_exact.

(** Rows of the TUI table can always be compared by duration or by self duration *)
Theorem C83_rows_comparable :
  forall (A : Type) (xs : list (fstat A)) t, timed xs -> ftree_of xs t ->
  forall i j a b, freported xs i a -> freported xs j b ->
  (exists c, row_cmp (fs_dur a) (fs_dur b) = Ret c) /\
  exists di dj c, fself_duration t i = Ret di /\ fself_duration t j = Ret dj /\ row_cmp di dj = Ret c /\
    (c = Lt <-> less di dj) /\ (c = Gt <-> less dj di) /\ (c = Eq <-> di = dj).
Proof.
  intros A xs t Ht Hf i j a b Ha Hb.
  assert (N : forall i s, freported xs i s -> exists d, fself_duration t i = Ret d /\ d <> NotANumber).
  { intros k s Hk. destruct (f_self xs t Ht Hf k s Hk) as (d & ds & c & r & _ & _ & _ & E & L).
    exists r. split; [exact E|]. intros ->. unfold left_by in L. destruct (fs_dur s), c as [?|[]|]; simpl in L; try contradiction; discriminate. }
  split.
  - unfold timed in Ht. rewrite Forall_forall in Ht.
    destruct (Ht a (nth_error_In _ _ Ha)) as (_ & x & Ex & _), (Ht b (nth_error_In _ _ Hb)) as (_ & y & Ey & _).
    rewrite Ex, Ey. unfold row_cmp. simpl. eexists. reflexivity.
  - destruct (N i a Ha) as (di & Ei & Ni), (N j b Hb) as (dj & Ej & Nj). exists di, dj.
    unfold row_cmp, less. destruct di as [x|[]|], dj as [y|[]|]; try congruence; simpl;
      try (eexists; split; [exact Ei|]; split; [exact Ej|]; split; [reflexivity|]; repeat split; intros; try discriminate; tauto).
    eexists. split; [exact Ei|]. split; [exact Ej|]. split; [reflexivity|].
    assert (Q : Num x = Num y <-> x = y) by (split; [intros K; injection K as ->; reflexivity|intros ->; reflexivity]).
    rewrite Q. destruct (Z.ltb_spec x y), (Z.leb_spec x y); try lia;
      (split; [|split]; (split; [intros K; try discriminate K; lia|intros K; try reflexivity; exfalso; lia])).
Qed.
Print Assumptions C83_rows_comparable.

(** Nothing but a NaN can make the comparison of rows panic *)
Theorem C83_only_nan_panics :
  forall a b, row_cmp a b = Panic <-> (a = NotANumber \/ b = NotANumber).
Proof.
  intros [x|s|] [y|s'|]; unfold row_cmp; simpl; split; intros H;
    try discriminate H; try reflexivity; try (destruct H; discriminate); tauto.
Qed.
Print Assumptions C83_only_nan_panics.

(** An activity that takes all the time may fall below a threshold of 100 %: 49 * (1 / 49) < 1 *)
Theorem C83_whole_is_100_percent_refuted :
  ~ (forall roots t, total roots (Num t) -> (2 ^ 52 <= t <= 2 ^ 2096)%Z -> at_most one (share roots (Num t))).
Proof.
  intros H. specialize (H [Num (49 * 2 ^ 1074)] (49 * 2 ^ 1074)%Z).
  assert (T : total [Num (49 * 2 ^ 1074)] (Num (49 * 2 ^ 1074))).
  { change [Num (49 * 2 ^ 1074)] with ([] ++ [Num (49 * 2 ^ 1074)]). apply total_add with (t := 0%Z); [constructor|].
    change (rounds_to (0 + 49 * 2 ^ 1074) (fadd (Num 0) (Num (49 * 2 ^ 1074)))). apply of_exact_rounds. }
  specialize (H T). assert (K : at_most one (share [Num (49 * 2 ^ 1074)] (Num (49 * 2 ^ 1074)))).
  { apply H. split; [vm_compute; discriminate|].
    replace (2 ^ 2096)%Z with (2 ^ 1022 * 2 ^ 1074)%Z by (rewrite <- Z.pow_add_r by lia; reflexivity).
    apply Z.mul_le_mono_nonneg_r; [apply Z.pow_nonneg; lia|]. change 49%Z with (49 * 2 ^ 0)%Z. apply Z.le_trans with (2 ^ 6)%Z; [lia|apply Z.pow_le_mono_r; lia]. }
  vm_compute in K. apply K. reflexivity.
Qed.
Print Assumptions C83_whole_is_100_percent_refuted.

(** The breakdown may panic on non-negative finite times: the running sum of a type can overflow before an
    activity whose children total too much brings minus infinity (trace [huge_times] of Share_Proofs5.v) *)
Lemma finite_by m e : (0 <=? e)%Z = true -> (Z.abs m <? 2 ^ 53)%Z = true ->
  (Z.abs (m * 2 ^ e) <? 2 ^ (1024 + 1074))%Z = true -> finite (Num (m * 2 ^ e)).
Proof.
  intros He Hm Hb. apply Z.leb_le in He. apply Z.ltb_lt in Hm, Hb. eexists. split; [reflexivity|].
  split; [exists m, e; split; [reflexivity|split; assumption]|exact Hb].
Qed.
Lemma huge_timed : timed huge_times.
Proof.
  assert (Z0 : finite (Num 0)) by (apply (finite_by 0 0); vm_compute; reflexivity).
  unfold huge_times, timed, largest.
  repeat (apply Forall_cons; [split; [first [exact Z0|apply finite_by; vm_compute; reflexivity]|first [exact Z0|apply finite_by; vm_compute; reflexivity]]|]).
  apply Forall_nil.
Qed.
Lemma fle_at_most a b : fle a b = true <-> at_most a b.
Proof. destruct a as [x|[]|], b as [y|[]|]; simpl; rewrite ?Z.leb_le; try tauto; split; intros; try discriminate; tauto. Qed.
Lemma at_most_trans_local a b c : at_most a b -> at_most b c -> at_most a c.
Proof. destruct a as [x|[]|], b as [y|[]|], c as [z|[]|]; simpl; try tauto; lia. Qed.
Lemma at_most_total a b : a <> NotANumber -> b <> NotANumber -> at_most a b \/ at_most b a.
Proof. destruct a as [x|[]|], b as [y|[]|]; simpl; try tauto; try lia; congruence. Qed.
Lemma finsertion_sorts : fsorts finsertion.
Proof.
  assert (Ins : forall B (key : B -> f64) x l, Permutation (x :: l) (finsert key x l)).
  { intros B key x l. induction l as [|y l IH]; simpl; [apply Permutation_refl|].
    destruct (fle (key y) (key x)); [apply Permutation_refl|].
    eapply Permutation_trans; [apply perm_swap|]. constructor. exact IH. }
  assert (P : forall B (key : B -> f64) l, Permutation l (finsertion B key l)).
  { intros B key l. induction l as [|x l IH]; simpl; [constructor|].
    eapply Permutation_trans; [|apply Ins]. constructor. exact IH. }
  intros B key l. split; [apply P|]. induction l as [|x l IH]; intros H; simpl; [constructor|].
  specialize (IH (fun y Hy => H y (or_intror Hy))).
  pose proof (P B key l) as Pl. pose proof (H x (or_introl eq_refl)) as Hx.
  assert (Hq : forall y, In y (finsertion B key l) -> key y <> NotANumber).
  { intros y Hy. apply H. right. apply (Permutation_in _ (Permutation_sym Pl)). exact Hy. }
  revert IH Hq. generalize (finsertion B key l). clear - Ins Hx. intros l Hs Hq.
  induction l as [|y l IH]; simpl; [constructor; constructor|].
  inversion Hs as [|? ? Hs' Hf]; subst. destruct (fle (key y) (key x)) eqn:E.
  - apply fle_at_most in E. constructor; [exact Hs|]. constructor; [exact E|].
    eapply Forall_impl; [|exact Hf]. intros z Hz. exact (at_most_trans_local _ _ _ Hz E).
  - constructor; [apply IH; [exact Hs'|intros z Hz; apply Hq; right; exact Hz]|].
    apply Forall_forall. intros z Hz. apply (Permutation_in _ (Permutation_sym (Ins B key x l))) in Hz.
    destruct Hz as [<-|Hz]; [|rewrite Forall_forall in Hf; apply Hf, Hz].
    destruct (at_most_total (key y) (key x) (Hq y (or_introl eq_refl)) Hx) as [K|K]; [|exact K].
    apply fle_at_most in K. congruence.
Qed.
Theorem C83_breakdown_never_panics_refuted :
  ~ (forall sort (xs : list (fstat str)) t, fsorts sort -> timed xs ->
     (forall s, In s xs -> at_most (Num 0) (fs_dur s)) -> ftree_of xs t ->
     exists l, ftrace_breakdown sort t = Ret l).
Proof.
  intros H.
  destruct huge_panics as (t & Ht & Hp). destruct (H finsertion huge_times t finsertion_sorts huge_timed) as (l & Hl).
  - intros s Hs. apply fle_at_most. revert s Hs. apply Forall_forall. unfold huge_times.
    repeat (apply Forall_cons; [vm_compute; reflexivity|]). apply Forall_nil.
  - exact Ht.
  - congruence.
Qed.
Print Assumptions C83_breakdown_never_panics_refuted.

(** Non-vacuity: a 9 ms trace with three activities of two types *)
Definition milli (n : Z) : Z := (n * 1000 * 2 ^ 1074)%Z.
Example C83_witness_total : total [Num (milli 6); Num (milli 3)] (Num (milli 9)) /\
  (2 ^ 52 <= milli 9 <= 2 ^ 2096)%Z /\ (milli 9 <= milli 3 * 2 ^ 1021)%Z.
Proof.
  split; [|split; [split|]; apply Z.leb_le; vm_compute; reflexivity].
  change [Num (milli 6); Num (milli 3)] with ([Num (milli 6)] ++ [Num (milli 3)]).
  change [Num (milli 6)] with ([] ++ [Num (milli 6)]).
  apply total_add with (t := milli 6); [apply total_add with (t := 0%Z); [constructor|]|].
  - replace (Num (milli 6)) with (fadd (Num 0) (Num (milli 6))) by (vm_compute; reflexivity). apply of_exact_rounds.
  - replace (Num (milli 9)) with (fadd (Num (milli 6)) (Num (milli 3))) by (vm_compute; reflexivity). apply of_exact_rounds.
Qed.
(** One third, as 3000 * (1 / 9000) = 0.33333333333333337 *)
Example C83_witness_share :
  share [Num (milli 6); Num (milli 3)] (Num (milli 3)) = Num (6004799503160662 * 2 ^ 1020).
Proof. vm_compute. reflexivity. Qed.
Definition two_types : list (stat str) :=
  [mk_stat [65%N] 1 2; mk_stat [66%N] 0 5; mk_stat [65%N] 5 4]%Z.
Example C83_witness_breakdown :
  within_2_53 two_types /\
  exists t f, tree_of two_types t /\ ftree_of (map (whole 1074) two_types) f /\
    (exists roots d, root_activities t = Ret roots /\ osum (duration t) roots = Ret d /\ (d <= 2 ^ 53)%Z) /\
    ftrace_breakdown finsertion f = Ret [([65%N], Num (6 * 2 ^ 1074)); ([66%N], Num (3 * 2 ^ 1074))].
Proof.
  split; [repeat constructor; vm_compute; intros; discriminate|].
  eexists. eexists. split; [eexists; split; vm_compute; reflexivity|].
  split; [eexists; split; vm_compute; reflexivity|]. split; [|vm_compute; reflexivity].
  eexists. eexists. split; [vm_compute; reflexivity|]. split; [vm_compute; reflexivity|]. vm_compute. discriminate.
Qed.
Example C83_witness_hottest :
  fhottest finsertion [Num (milli 1); NotANumber; Num (milli 5); Num (milli 3); Infinite false] (fun d => d) (Num (milli 3)) =
  Ret [Infinite false; Num (milli 5); Num (milli 3)].
Proof. vm_compute. reflexivity. Qed.

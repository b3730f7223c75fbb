(** Whole times below 2^53: the floating-point tree is the exact one *)
From Verif Require Import Base Tree_Model Tree_Spec Tree_Proofs Tree_Proofs2 Float_Model Float_Spec Float_Proofs Float_Proofs2 Float_Proofs3 Float_Proofs4.

Lemma scale_pos k : (0 <= k)%Z -> (0 < 2 ^ k)%Z.
Proof. intros. apply Z.pow_pos_nonneg; lia. Qed.
Lemma scaled_bound k x : (0 <= k <= 2044)%Z -> (Z.abs x <= 2 ^ 53)%Z -> (Z.abs (x * 2 ^ k) <= 2 ^ 53 * P)%Z.
Proof.
  intros Hk Hx. pose proof (scale_pos k ltac:(lia)).
  assert (2 ^ k <= P)%Z by (rewrite P_log; apply Z.pow_le_mono_r; lia).
  rewrite Z.abs_mul, (Z.abs_eq (2 ^ k)) by lia.
  apply Z.mul_le_mono_nonneg; lia.
Qed.
Lemma scaled_repr k x : (0 <= k <= 2044)%Z -> (Z.abs x <= 2 ^ 53)%Z -> representable (x * 2 ^ k).
Proof.
  intros Hk Hx. apply representable_scaled; [lia|exact Hx|].
  pose proof (scaled_bound k x Hk Hx) as H. rewrite P_1024. pose proof P_pos.
  change (2 ^ 53)%Z with 9007199254740992%Z in *. lia.
Qed.

Section Whole.
  Context {A : Type}.
  Variable k : Z.
  Hypothesis Hk : (0 <= k <= 2044)%Z.
  Implicit Types (xs : list (stat A)).

  Definition T2 (a : f64) (x : Z) : Prop := a = Num (x * 2 ^ k) /\ (Z.abs x <= 2 ^ 53)%Z.
  Lemma T2_lt a x b y : T2 a x -> T2 b y -> flt a b = (x <? y)%Z.
  Proof.
    intros [-> _] [-> _]. simpl. pose proof (scale_pos k ltac:(lia)).
    destruct (x <? y)%Z eqn:E; [apply Z.ltb_lt in E; apply Z.ltb_lt; nia|apply Z.ltb_ge in E; apply Z.ltb_ge; nia].
  Qed.
  Lemma T2_le a x b y : T2 a x -> T2 b y -> fle a b = (x <=? y)%Z.
  Proof.
    intros [-> _] [-> _]. simpl. pose proof (scale_pos k ltac:(lia)).
    destruct (x <=? y)%Z eqn:E; [apply Z.leb_le in E; apply Z.leb_le; nia|apply Z.leb_gt in E; apply Z.leb_gt; nia].
  Qed.
  Lemma T2_min a x : T2 a x -> flt a f64_min = false.
  Proof.
    intros [-> Hx]. unfold f64_min, flt. apply Z.ltb_ge. pose proof (scaled_repr k x Hk Hx) as R.
    apply representable_max in R. lia.
  Qed.
  Lemma T2_inj a b x : T2 a x -> T2 b x -> a = b.
  Proof. intros [-> _] [-> _]. reflexivity. Qed.

  Lemma exact_add x y : (Z.abs (x + y) <= 2 ^ 53)%Z -> fadd (Num (x * 2 ^ k)) (Num (y * 2 ^ k)) = Num ((x + y) * 2 ^ k).
  Proof.
    intros H. unfold fadd. rewrite <- Z.mul_add_distr_r. apply rounds_exact, scaled_repr; assumption.
  Qed.
  Lemma exact_sub x y : (Z.abs (x - y) <= 2 ^ 53)%Z -> fsub (Num (x * 2 ^ k)) (Num (y * 2 ^ k)) = Num ((x - y) * 2 ^ k).
  Proof.
    intros H. unfold fsub, fneg. rewrite <- Z.mul_opp_l. rewrite exact_add; [reflexivity|].
    replace (x + - y)%Z with (x - y)%Z by lia. exact H.
  Qed.

  Lemma whole_stat (s : stat A) : (0 <= s_dur s /\ - 2 ^ 53 <= s_start s /\ s_start s + s_dur s <= 2 ^ 53
                     /\ s_dur s <= 2 ^ 53)%Z -> same_stat T2 (whole k s) s.
  Proof.
    intros H. split; [reflexivity|]. split; split; simpl; try (unfold s_end; lia); try reflexivity.
    unfold fs_end, whole. apply exact_add. lia.
  Qed.
  Lemma whole_same xs : within_2_53 xs -> Forall2 (same_stat T2) (map (whole k) xs) xs.
  Proof. intros H. induction H; simpl; constructor; auto. apply whole_stat. assumption. Qed.
  Lemma whole_timed xs : within_2_53 xs -> timed (map (whole k) xs).
  Proof.
    intros H. induction H as [|s xs Hs H IH]; simpl; constructor; auto.
    split; eexists; (split; [reflexivity|]); apply scaled_repr; lia.
  Qed.

  Lemma whole_trees xs : within_2_53 xs ->
    (forall f, ftree_of (map (whole k) xs) f -> exists t, tree_of xs t /\ same_tree T2 f t) /\
    (forall t, tree_of xs t -> exists f, ftree_of (map (whole k) xs) f /\ same_tree T2 f t).
  Proof. intros H. apply (tree_same T2 T2_lt T2_le T2_min). apply whole_same, H. Qed.

  Lemma tree_unique xs t t' : tree_of xs t -> tree_of xs t' -> t = t'.
  Proof. intros (b & H1 & H2) (b' & H1' & H2'). unfold accepted in *. rewrite H1 in H1'. injection H1' as <-. congruence. Qed.

  Lemma within_reported xs i s : within_2_53 xs -> reported xs i s ->
    (0 <= s_dur s /\ - 2 ^ 53 <= s_start s /\ s_start s + s_dur s <= 2 ^ 53 /\ s_dur s <= 2 ^ 53)%Z.
  Proof.
    intros H Hi. unfold within_2_53 in H. rewrite Forall_forall in H. apply H. apply (nth_error_In _ _ Hi).
  Qed.

  Lemma osum_adds xs (t : tree A) : within_2_53 xs -> tree_of xs t ->
    forall d c acc, osum (duration t) d = Ret c -> (0 <= acc)%Z -> (acc + c <= 2 ^ 53)%Z -> Forall (fun j => j < length xs) d ->
    (0 <= c)%Z /\ add_up (map (whole k) xs) d (Num (acc * 2 ^ k)) = Num ((acc + c) * 2 ^ k).
  Proof.
    intros Hw Ht. induction d as [|j d IH]; intros c acc Hc Ha Hb Hd; simpl in Hc.
    - injection Hc as <-. split; [lia|]. rewrite Z.add_0_r. reflexivity.
    - inversion Hd as [|? ? Hj Hd']; subst.
      destruct (nth_error xs j) as [s|] eqn:N; [|apply nth_error_None in N; lia].
      pose proof (within_reported xs j s Hw N) as Hs.
      destruct (all_listed _ _ _ Ht) as [_ Hl]. destruct (Hl j s N) as (nd & H1 & H2).
      unfold duration in Hc at 1. rewrite H1 in Hc. simpl in Hc. rewrite H2 in Hc.
      destruct (osum (duration t) d) as [c'|] eqn:O; [|discriminate]. simpl in Hc. injection Hc as <-.
      assert (C0 : (0 <= c')%Z).
      { clear - O Hd' Hw Hl. revert c' O. induction d as [|i d IH]; intros c' O; simpl in O; [injection O as <-; lia|].
        inversion Hd' as [|? ? Hi Hd'']; subst.
        destruct (nth_error xs i) as [q|] eqn:N; [|apply nth_error_None in N; lia].
        pose proof (within_reported xs i q Hw N). destruct (Hl i q N) as (nd & H1 & H2).
        unfold duration in O at 1. rewrite H1 in O. simpl in O. rewrite H2 in O.
        destruct (osum (duration t) d) as [c''|]; [|discriminate]. simpl in O. injection O as <-.
        specialize (IH Hd'' c'' eq_refl). lia. }
      split; [lia|].
      change (add_up (map (whole k) xs) (j :: d) (Num (acc * 2 ^ k)))
        with (add_up (map (whole k) xs) d (fadd (Num (acc * 2 ^ k)) (dur_of (map (whole k) xs) j))).
      assert (Dj : dur_of (map (whole k) xs) j = Num (s_dur s * 2 ^ k)).
      { unfold dur_of. rewrite nth_error_map, N. reflexivity. }
      rewrite Dj, exact_add by lia. destruct (IH c' (acc + s_dur s)%Z eq_refl) as [_ E]; [lia|lia|exact Hd'|].
      rewrite E. f_equal. lia.
  Qed.

  Lemma whole_equal xs t f : within_2_53 xs -> tree_of xs t -> ftree_of (map (whole k) xs) f ->
    froot_activities f = root_activities t /\
    (forall i, fdirect_children f i = direct_children t i) /\
    (forall i, fall_children f i = all_children t i) /\
    (forall i, fparent f i = parent t i) /\
    (forall i, i < length xs -> exists d, self_duration t i = Ret d /\ fself_duration f i = Ret (Num (d * 2 ^ k))).
  Proof.
    intros Hw Ht Hf. destruct (whole_trees xs Hw) as [H _]. destruct (H f Hf) as (t' & Ht' & Hs).
    rewrite (tree_unique _ _ _ Ht' Ht) in Hs. clear H t' Ht'.
    destruct (accessors_same T2 f t Hs) as (R1 & R2 & R3 & R4).
    split; [exact R1|]. split; [exact R2|]. split; [exact R3|]. split; [exact R4|].
    intros i Hi. destruct (nth_error xs i) as [s|] eqn:N; [|apply nth_error_None in N; lia].
    destruct (self_is_rest _ _ _ Ht i s N) as (d & c & H1 & H2 & H3).
    exists (s_dur s - c)%Z. split; [exact H3|].
    assert (Nf : freported (map (whole k) xs) i (whole k s)) by (unfold freported; rewrite nth_error_map, N; reflexivity).
    destruct (tree_book _ f Hf i _ Nf) as (d' & G1 & G2 & G3).
    rewrite R2, H1 in G1. injection G1 as <-. rewrite map_length in G2.
    assert (Sn : (0 <= s_dur s - c)%Z).
    { destruct (self_nonneg _ _ _ Ht) with (b := i) as (q & Q1 & Q2); [|exact Hi|rewrite H3 in Q1; injection Q1 as <-; exact Q2].
      intros j q Hj. apply (within_reported xs j q Hw Hj). }
    pose proof (within_reported xs i s Hw N) as Hb.
    destruct (osum_adds xs t Hw Ht d c 0 H2) as [C0 E]; [lia|lia|exact G2|].
    rewrite G3. change (Num 0) with (Num (0 * 2 ^ k)). rewrite E. cbn [whole fs_dur].
    rewrite Z.add_0_l. f_equal. apply exact_sub. lia.
  Qed.

  Lemma whole_accepted xs : within_2_53 xs ->
    ((exists f, ftree_of (map (whole k) xs) f) <-> (exists t, tree_of xs t)).
  Proof.
    intros Hw. destruct (whole_trees xs Hw) as [H1 H2]. split.
    - intros (f & Hf). destruct (H1 f Hf) as (t & Ht & _). exists t. exact Ht.
    - intros (t & Ht). destruct (H2 t Ht) as (f & Hf & _). exists f. exact Hf.
  Qed.

  Lemma whole_errors xs i e b : within_2_53 xs -> insert_all b_new xs = (inr (i, IErr e), b) ->
    exists fb, finsert_all fb_new (map (whole k) xs) = (inr (i, FIErr (whole_error k e)), fb).
  Proof.
    intros Hw H.
    assert (B0 : same_builder T2 (fb_new : fbuilder A) b_new) by (repeat split; constructor).
    pose proof (insert_all_same T2 T2_lt T2_le T2_min _ _ _ _ (whole_same xs Hw) B0) as S.
    rewrite H in S. destruct (finsert_all fb_new (map (whole k) xs)) as [[[]|[j r]] fb] eqn:E; [contradiction|].
    destruct r as [|fe|]; try contradiction. destruct S as (-> & S & _).
    exists fb. f_equal. f_equal. f_equal. f_equal.
    destruct (f_error _ _ _ _ (whole_timed xs Hw) E) as (a & Ha & _ & M).
    destruct fe as [p c|p c], e as [p' c'|p' c']; simpl in S; try contradiction.
    - destruct S as [[-> _] [-> _]]. reflexivity.
    - destruct M as (-> & _ & _ & _ & (l & _ & Hl)).
      assert (Same : forall (q : fstat A) q', same_stat T2 q q' -> (exists j, freported (map (whole k) xs) j q) -> q = whole k q').
      { intros q q' (Q1 & [Q2 _] & [Q3 _]) (l' & Hq). unfold freported in Hq. rewrite nth_error_map in Hq.
        destruct (nth_error xs l') as [s|] eqn:N; [|discriminate]. injection Hq as <-.
        pose proof (within_reported xs l' s Hw N) as Hs. pose proof (scale_pos k ltac:(lia)) as K.
        destruct (whole_stat s Hs) as (_ & _ & [E3 _]). rewrite E3 in Q3. injection Q3 as Q3. injection Q2 as Q2.
        assert (s_start s = s_start q') by nia. assert (s_end s = s_end q') by nia.
        unfold s_end in *. assert (s_dur s = s_dur q') by lia.
        unfold whole. simpl in Q1. congruence. }
      destruct S as [S1 S2]. simpl. rewrite (Same p p' S1), (Same a c' S2); [reflexivity| |].
      + exists i. exact Ha.
      + exists l. exact Hl.
  Qed.
End Whole.

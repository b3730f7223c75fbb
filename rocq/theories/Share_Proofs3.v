(** Statistics over f64 *)
From Coq Require Import Sorted Permutation.
From Verif Require Import Base Tree_Model Tree_Spec Tree_Proofs Tree_Proofs2 UI_Model UI_Spec UI_Proofs4 Float_Model Float_Spec Float_Proofs Float_Proofs2 Float_Proofs3 Float_Proofs4 Float_Proofs5 Share_Model Share_Spec Share_Proofs Share_Proofs2.

Lemma nth_error_ext_local {B} (l m : list B) : (forall i, nth_error l i = nth_error m i) -> l = m.
Proof.
  revert m. induction l as [|x l IH]; intros [|y m] H; [reflexivity|specialize (H 0); discriminate|specialize (H 0); discriminate|].
  pose proof (H 0) as H0. simpl in H0. injection H0 as ->. f_equal. apply IH. intros i. apply (H (S i)).
Qed.

(** ** Sorting *)
Section Sort.
  Variable sort : forall B : Type, (B -> f64) -> list B -> list B.
  Hypothesis Hsort : fsorts sort.

  Lemma sort_no_nan {B} (key : B -> f64) l : (forall x, In x l -> key x <> NotANumber) ->
    sort_by_key sort key l = Ret (sort B key l).
  Proof.
    intros H. unfold sort_by_key.
    replace (existsb (fun a => is_nan (key a)) l) with false; [rewrite Bool.andb_false_r; reflexivity|].
    symmetry. apply Bool.not_true_iff_false. intros E. apply existsb_exists in E. destruct E as (x & Hx & E).
    specialize (H x Hx). destruct (key x); simpl in E; congruence.
  Qed.
  Lemma sort_panics {B} (key : B -> f64) l : sort_by_key sort key l = Panic <->
    (2 <= length l /\ exists x, In x l /\ key x = NotANumber).
  Proof.
    unfold sort_by_key. destruct (Nat.leb 2 (length l)) eqn:L; [apply Nat.leb_le in L|apply Nat.leb_gt in L].
    - simpl. destruct (existsb _ l) eqn:E.
      + split; [intros _|reflexivity]. split; [exact L|]. apply existsb_exists in E. destruct E as (x & Hx & E).
        exists x. split; [exact Hx|]. destruct (key x); try discriminate. reflexivity.
      + split; [discriminate|]. intros (_ & x & Hx & N). exfalso. apply Bool.not_true_iff_false in E. apply E.
        apply existsb_exists. exists x. split; [exact Hx|]. rewrite N. reflexivity.
    - simpl. split; [discriminate|lia].
  Qed.

  Lemma fhottest_ok {B} (l : list B) (dur : B -> f64) thr :
    exists r, fhottest sort l dur thr = Ret r /\
      Permutation (filter (fun a => fle thr (dur a)) l) r /\
      StronglySorted (fun x y => at_most (dur y) (dur x)) r.
  Proof.
    assert (H : forall x, In x (filter (fun a => fle thr (dur a)) l) -> dur x <> NotANumber).
    { intros x Hx. apply filter_In in Hx. destruct Hx as [_ Hx]. intros E. rewrite E in Hx.
      destruct thr as [|[]|]; discriminate. }
    exists (sort B dur (filter (fun a => fle thr (dur a)) l)).
    unfold fhottest. rewrite (sort_no_nan _ _ H). split; [reflexivity|].
    destruct (Hsort B dur (filter (fun a => fle thr (dur a)) l)) as [P1 P2]. split; [exact P1|apply P2; exact H].
  Qed.

  (** ** The breakdown by type *)
  Lemma fadd_entry_names p n d x :
    In x (map fst (fadd_entry p n d)) <-> In x (map fst p) \/ x = n.
  Proof.
    induction p as [|[m t] p IH]; simpl; [intuition|].
    destruct (str_eqb_spec m n) as [->|Hne]; simpl; [intuition|]. rewrite IH. intuition.
  Qed.
  Lemma fadd_entry_nodup p n d : NoDup (map fst p) -> NoDup (map fst (fadd_entry p n d)).
  Proof.
    induction p as [|[m t] p IH]; simpl; intros H.
    - constructor; [easy|constructor].
    - inversion H as [|? ? Hnin Hnd]; subst.
      destruct (str_eqb_spec m n) as [->|Hne]; simpl; [constructor; easy|].
      constructor; [|apply IH; easy]. rewrite fadd_entry_names. intuition.
  Qed.
  Definition sums_right (p acts : list (str * f64)) : Prop :=
    NoDup (map fst p) /\ (forall x, In x (map fst p) <-> In x (map fst acts)) /\
    forall x t, In (x, t) p -> t = fold_left fadd (of_type x acts) (Num 0).
  Lemma of_type_app x a b : of_type x (a ++ b) = of_type x a ++ of_type x b.
  Proof. unfold of_type. rewrite filter_app, map_app. reflexivity. Qed.
  Lemma of_type_absent x l : ~ In x (map fst l) -> of_type x l = [].
  Proof.
    unfold of_type. induction l as [|[n d] l IH]; simpl; intros H; [reflexivity|].
    destruct (str_eqb_spec n x) as [->|Hne]; [exfalso; apply H; left; reflexivity|]. apply IH. tauto.
  Qed.
  Lemma fadd_entry_in p n d x t : NoDup (map fst p) -> In (x, t) (fadd_entry p n d) ->
    (x <> n /\ In (x, t) p) \/
    (x = n /\ ((~ In n (map fst p) /\ t = fadd (Num 0) d) \/ exists t0, In (n, t0) p /\ t = fadd t0 d)).
  Proof.
    induction p as [|[m s] p IH]; simpl; intros Hnd H.
    - destruct H as [H|[]]. injection H as <- <-. right. split; [reflexivity|]. left. tauto.
    - inversion Hnd as [|? ? Hnin Hnd']; subst. destruct (str_eqb_spec m n) as [->|Hne]; simpl in H.
      + destruct H as [H|H].
        * injection H as <- <-. right. split; [reflexivity|]. right. exists s. tauto.
        * left. split; [|tauto]. intros ->. apply Hnin. apply (in_map fst) in H. exact H.
      + destruct H as [H|H].
        * injection H as <- <-. left. tauto.
        * destruct (IH Hnd' H) as [[K1 K2]|[-> [[K1 K2]|(t0 & K1 & K2)]]].
          -- left. tauto.
          -- right. split; [reflexivity|]. left. split; [|exact K2]. intros [E|E]; congruence.
          -- right. split; [reflexivity|]. right. exists t0. tauto.
  Qed.
  Lemma sums_step p acts n d : sums_right p acts -> sums_right (fadd_entry p n d) (acts ++ [(n, d)]).
  Proof.
    intros (H1 & H2 & H3). split; [apply fadd_entry_nodup, H1|]. split.
    - intros x. rewrite fadd_entry_names, map_app, in_app_iff, H2. simpl. intuition.
    - intros x t Hx. rewrite of_type_app.
      assert (E : of_type x [(n, d)] = if str_eqb n x then [d] else []) by (unfold of_type; simpl; destruct (str_eqb n x); reflexivity).
      rewrite E. destruct (fadd_entry_in p n d x t H1 Hx) as [[K1 K2]|[-> [[K1 K2]|(t0 & K1 & K2)]]].
      + destruct (str_eqb_spec n x) as [->|_]; [congruence|]. rewrite app_nil_r. apply H3. exact K2.
      + rewrite str_eqb_refl. rewrite of_type_absent; [exact K2|]. rewrite <- H2. exact K1.
      + rewrite str_eqb_refl, fold_left_app. simpl. rewrite <- (H3 n t0 K1). exact K2.
  Qed.
  Lemma sums_all acts : forall p done, sums_right p done ->
    sums_right (fold_left (fun p a => fadd_entry p (fst a) (snd a)) acts p) (done ++ acts).
  Proof.
    induction acts as [|[n d] acts IH]; intros p done H; simpl; [rewrite app_nil_r; exact H|].
    replace (done ++ (n, d) :: acts) with ((done ++ [(n, d)]) ++ acts) by (rewrite <- app_assoc; reflexivity).
    apply IH, sums_step, H.
  Qed.

  Lemma fbreakdown_ok acts : Forall (fun a => finite (snd a)) acts ->
    exists l, fbreakdown sort acts = Ret l /\ NoDup (map fst l) /\
      (forall x, In x (map fst l) <-> In x (map fst acts)) /\
      (forall x t, In (x, t) l -> total (of_type x acts) t) /\
      StronglySorted (fun a b => at_most (snd b) (snd a)) l.
  Proof.
    intros Hf. destruct (sums_all acts [] []) as (H1 & H2 & H3).
    { split; [constructor|]. split; [reflexivity|]. intros x t []. }
    rewrite app_nil_l in *. set (q := fold_left _ acts []) in *.
    assert (T : forall x t, In (x, t) q -> total (of_type x acts) t).
    { intros x t Hx. rewrite (H3 x t Hx). apply (total_fold [] _ (Num 0) total_nil).
      unfold of_type. rewrite Forall_forall in *. intros d Hd. apply in_map_iff in Hd.
      destruct Hd as (a & <- & Ha). apply filter_In in Ha. apply Hf, Ha. }
    assert (NN : forall a, In a q -> snd a <> NotANumber).
    { intros [x t] Ha E. apply (total_not_nan (of_type x acts)). simpl in E. rewrite <- E. apply T, Ha. }
    destruct (Hsort _ snd q) as [P1 P2]. specialize (P2 NN).
    exists (sort _ snd q). unfold fbreakdown. fold q. rewrite (sort_no_nan _ _ NN). split; [reflexivity|].
    assert (Pf : Permutation (map fst q) (map fst (sort _ snd q))) by (apply Permutation_map, P1).
    split; [eapply Permutation_NoDup; [exact Pf|exact H1]|].
    split; [|split; [|exact P2]].
    - intros x. rewrite <- H2. split; apply Permutation_in; [apply Permutation_sym|]; exact Pf.
    - intros x t Hx. apply T. apply (Permutation_in _ (Permutation_sym P1)). exact Hx.
  Qed.

  (** ** Whole times *)
  Section Whole.
    Variable k : Z.
    Hypothesis Hk : (0 <= k <= 2044)%Z.
    Definition scale (a : str * Z) : str * f64 := (fst a, Num (snd a * 2 ^ k)).
    Lemma scale_entry p n d : (forall x t, In (x, t) p -> 0 <= t)%Z -> (0 <= d)%Z -> (sum_snd p + d <= 2 ^ 53)%Z ->
      fadd_entry (map scale p) n (Num (d * 2 ^ k)) = map scale (add_entry p n d).
    Proof.
      induction p as [|[m t] p IH]; intros Hp Hd Hs.
      - cbn [add_entry map fadd_entry]. unfold scale. simpl fst. simpl snd. do 2 f_equal.
        change (Num 0) with (Num (0 * 2 ^ k)). rewrite (exact_add k Hk); [reflexivity|]. simpl in Hs. lia.
      - assert (S0 : (0 <= sum_snd p)%Z).
        { clear - Hp. assert (Hq : forall x t, In (x, t) p -> (0 <= t)%Z) by (intros x q Hx; apply (Hp x); right; exact Hx).
          clear Hp. induction p as [|[y s] p IH]; simpl; [lia|]. fold (sum_snd p).
          pose proof (Hq y s (or_introl eq_refl)). specialize (IH (fun x t H => Hq x t (or_intror H))). lia. }
        pose proof (Hp m t (or_introl eq_refl)) as Ht. simpl in Hs. fold (sum_snd p) in Hs.
        cbn [map fadd_entry add_entry]. unfold scale at 1. cbn [fst snd].
        destruct (str_eqb m n).
        + cbn [map]. unfold scale at 2. cbn [fst snd]. rewrite (exact_add k Hk) by lia. reflexivity.
        + cbn [map]. unfold scale at 2. cbn [fst snd]. f_equal. apply IH; [intros x q Hx; apply (Hp x); right; exact Hx|exact Hd|lia].
    Qed.
    Lemma add_entry_nonneg p n d : (forall x t, In (x, t) p -> 0 <= t)%Z -> (0 <= d)%Z ->
      (forall x t, In (x, t) (add_entry p n d) -> 0 <= t)%Z.
    Proof.
      induction p as [|[m s] p IH]; intros Hp Hd x t Hx; simpl in Hx.
      - destruct Hx as [E|[]]. injection E as _ <-. exact Hd.
      - destruct (str_eqb m n).
        + destruct Hx as [E|Hx]; [injection E as _ <-; pose proof (Hp m s (or_introl eq_refl)); lia|].
          apply (Hp x t). right. exact Hx.
        + destruct Hx as [E|Hx]; [apply (Hp x t); left; exact E|].
          apply (IH (fun y q H => Hp y q (or_intror H)) Hd x t Hx).
    Qed.
    Lemma scale_all acts : forall p, (forall x t, In (x, t) p -> 0 <= t)%Z -> (forall x t, In (x, t) acts -> 0 <= t)%Z ->
      (sum_snd p + sum_snd acts <= 2 ^ 53)%Z ->
      fold_left (fun p a => fadd_entry p (fst a) (snd a)) (map scale acts) (map scale p) =
      map scale (fold_left (fun p a => add_entry p (fst a) (snd a)) acts p).
    Proof.
      induction acts as [|[n d] acts IH]; intros p Hp Ha Hs; [reflexivity|].
      cbn [map fold_left]. change (fst (scale (n, d))) with n. change (snd (scale (n, d))) with (Num (d * 2 ^ k)). cbn [fst snd].
      pose proof (Ha n d (or_introl eq_refl)) as Hd.
      simpl in Hs. fold (sum_snd acts) in Hs.
      assert (S0 : (0 <= sum_snd acts)%Z).
      { clear - Ha. assert (Hq : forall x t, In (x, t) acts -> (0 <= t)%Z) by (intros x q Hx; apply (Ha x); right; exact Hx).
        clear Ha. induction acts as [|[y s] acts IH]; simpl; [lia|]. fold (sum_snd acts).
        pose proof (Hq y s (or_introl eq_refl)). specialize (IH (fun x t H => Hq x t (or_intror H))). lia. }
      rewrite scale_entry; [|exact Hp|exact Hd|lia].
      apply IH; [apply add_entry_nonneg; assumption|intros x t Hx; apply (Ha x); right; exact Hx|].
      rewrite add_entry_sum. lia.
    Qed.

    Lemma same_tree_lengths (f : ftree str) (t : tree str) : same_tree (T2 k) f t -> length (ft_acts f) = length (t_acts t).
    Proof. intros (H & _). eapply Forall2_length. exact H. Qed.

    Lemma whole_breakdown (xs : list (stat str)) t f : within_2_53 xs -> tree_of xs t ->
      ftree_of (map (whole k) xs) f ->
      (exists roots total, root_activities t = Ret roots /\ osum (duration t) roots = Ret total /\ (total <= 2 ^ 53)%Z) ->
      exists l, ftrace_breakdown sort f = Ret l /\
        StronglySorted (fun a b => at_most (snd b) (snd a)) l /\
        forall sortZ, sorts sortZ -> Permutation l (map scale (trace_breakdown sortZ t)).
    Proof.
      intros Hw Ht Hf (roots & tot & R1 & R2 & R3).
      destruct (whole_equal k Hk xs t f Hw Ht Hf) as (_ & _ & _ & _ & Hself).
      destruct (whole_trees k Hk xs Hw) as [H _]. destruct (H f Hf) as (t' & Ht' & Hs).
      rewrite (tree_unique _ _ _ Ht' Ht) in Hs. clear H t' Ht'.
      assert (Hlen : length xs = length (t_acts t)).
      { destruct (all_listed str xs t Ht) as [E _]. unfold all_activities in E.
        apply (f_equal (@length (nat * stat str))) in E. rewrite !combine_length, !seq_length, map_length in E. lia. }
      set (ex := map (fun n => (s_act (n_stat n), n_self n)) (t_acts t)).
      assert (E : map (fun n => (fs_act (fn_stat n), fn_self n)) (ft_acts f) = map scale ex).
      { unfold ex. rewrite map_map. apply nth_error_ext_local.
        intros i. rewrite !nth_error_map. pose proof (forall2_nth _ _ _ i (proj1 Hs)) as HN.
        unfold fself_duration, self_duration, factivity_trace, activity_trace in Hself.
        destruct (Nat.lt_ge_cases i (length xs)) as [Hi|Hi].
        - destruct (Hself i Hi) as (d & D1 & D2).
          destruct (nth_error (ft_acts f) i) as [fn|], (nth_error (t_acts t) i) as [n|]; try contradiction; try discriminate.
          simpl in D1, D2 |- *. injection D1 as D1. injection D2 as D2. destruct HN as ((Ha & _) & _).
          unfold scale. cbn [fst snd]. rewrite Ha, D1, D2. reflexivity.
        - assert (N1 : nth_error (t_acts t) i = None) by (apply nth_error_None; lia).
          assert (N2 : nth_error (ft_acts f) i = None) by (apply nth_error_None; rewrite (same_tree_lengths f t Hs); lia).
          rewrite N1, N2. reflexivity. }
      assert (Sum : sum_snd ex = tot).
      { destruct (total_sum str xs t Ht) as (roots' & tot' & H1 & H2 & H3).
        rewrite R1 in H1. injection H1 as <-. rewrite R2 in H2. injection H2 as <-.
        rewrite Hlen, (osum_seq _ (t_acts t) 0) in H3; [injection H3 as <-; reflexivity|].
        intros i n Hi. unfold self_duration, activity_trace. simpl. rewrite Hi. reflexivity. }
      assert (Pos : forall x d, In (x, d) ex -> (0 <= d)%Z).
      { intros x d Hx. unfold ex in Hx. apply in_map_iff in Hx. destruct Hx as (n & En & Hn). injection En as _ <-.
        apply In_nth_error in Hn. destruct Hn as (i & Hi).
        destruct (self_nonneg _ _ _ Ht) with (b := i) as (q & Q1 & Q2).
        - intros j s Hj. apply (within_reported xs j s Hw Hj).
        - rewrite Hlen. apply nth_error_Some. congruence.
        - unfold self_duration, activity_trace in Q1. rewrite Hi in Q1. simpl in Q1. injection Q1 as ->. exact Q2. }
      unfold ftrace_breakdown. rewrite E. unfold fbreakdown.
      change (@nil (str * f64)) with (map scale []). rewrite (scale_all ex []); [|intros x d []|exact Pos|rewrite Sum; simpl; lia].
      set (q := fold_left _ ex []).
      assert (NN : forall a, In a (map scale q) -> snd a <> NotANumber).
      { intros a Ha. apply in_map_iff in Ha. destruct Ha as (b & <- & _). discriminate. }
      destruct (Hsort _ snd (map scale q)) as [P1 P2].
      exists (sort _ snd (map scale q)). rewrite (sort_no_nan _ _ NN). split; [reflexivity|]. split; [apply P2; exact NN|].
      intros sortZ HZ. eapply Permutation_trans; [apply Permutation_sym; exact P1|].
      apply Permutation_map. unfold trace_breakdown, activity_type_breakdown. fold ex. fold q.
      destruct (HZ _ snd q) as [PZ _]. exact PZ.
    Qed.
  End Whole.
End Sort.

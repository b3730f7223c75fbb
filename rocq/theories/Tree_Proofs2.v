(** Consequences of the tree invariant, in terms of the reported activities. *)
From Coq Require Import Sorted.
From Verif Require Import Base Tree_Model Tree_Spec Tree_Proofs.

Section T.
  Variable A : Type.
  Implicit Types (xs : list (stat A)) (t : tree A).

  Lemma rep_lt xs i s : reported xs i s -> i < length xs.
  Proof. intros H. apply nth_error_Some. unfold reported in H. congruence. Qed.
  Lemma rep_st xs i s : reported xs i s -> st A xs i = s_start s.
  Proof. intros H. unfold st. rewrite H. reflexivity. Qed.
  Lemma rep_en xs i s : reported xs i s -> en A xs i = s_end s.
  Proof. intros H. unfold en. rewrite H. reflexivity. Qed.
  Lemma rep_du xs i s : reported xs i s -> du A xs i = s_dur s.
  Proof. intros H. unfold du. rewrite H. reflexivity. Qed.
  Lemma rep_ex xs i : i < length xs -> exists s, reported xs i s.
  Proof. intros H. destruct (nth_error xs i) as [s|] eqn:E; [exists s; exact E|]. apply nth_error_None in E. lia. Qed.
  Lemma rep_en_st xs i : i < length xs -> en A xs i = (st A xs i + du A xs i)%Z.
  Proof. intros H. destruct (rep_ex _ _ H) as [s Hs]. rewrite (rep_en _ _ _ Hs), (rep_st _ _ _ Hs), (rep_du _ _ _ Hs). reflexivity. Qed.

  Lemma descendants xs t : tree_of xs t -> forall b sb, reported xs b sb ->
    exists l, all_children t b = Ret l /\
      forall a, In a l <-> a < b /\ forall c sc, a <= c < b -> reported xs c sc -> (s_start sb <= s_start sc)%Z.
  Proof.
    intros Ht b sb Hb. destruct (tree_inv _ _ _ Ht) as [fr HI]. pose proof (rep_lt _ _ _ Hb) as Hlt.
    eexists. split; [apply (ti_ac _ _ _ _ HI); exact Hlt|]. intros a. rewrite in_seq.
    destruct (ti_fr _ _ _ _ HI b Hlt) as (Hm & _).
    assert (E : fr b <= a < fr b + (b - fr b) <-> fr b <= a < b) by lia. rewrite E.
    rewrite (fr_iff A _ xs fr a b (ti_fr _ _ _ _ HI) Hlt). rewrite (rep_st _ _ _ Hb). split.
    - intros [H1 H2]. split; [exact H1|]. intros c sc Hc Hsc. rewrite <- (rep_st _ _ _ Hsc). apply H2; exact Hc.
    - intros [H1 H2]. split; [exact H1|]. intros k Hk. destruct (rep_ex xs k ltac:(lia)) as [s Hs].
      rewrite (rep_st _ _ _ Hs). apply (H2 k s Hk Hs).
  Qed.

  Lemma descendants_contained xs t : tree_of xs t -> forall a sa b sb,
    reported xs a sa -> reported xs b sb ->
    exists l, all_children t b = Ret l /\
      (In a l -> a < b /\ inside sa sb) /\
      ((0 < s_dur sa)%Z -> a < b -> inside sa sb -> In a l).
  Proof.
    intros Ht a sa b sb Ha Hb. destruct (descendants _ _ Ht b sb Hb) as (l & El & Hl).
    destruct (tree_inv _ _ _ Ht) as [fr HI].
    pose proof (rep_lt _ _ _ Ha) as La. pose proof (rep_lt _ _ _ Hb) as Lb.
    exists l. split; [exact El|]. rewrite Hl. split.
    - intros [H1 H2]. split; [exact H1|]. split; [apply (H2 a sa); [lia|exact Ha]|].
      destruct (ti_pairs _ _ _ _ HI a b ltac:(lia)) as [Hp _]. rewrite (rep_en _ _ _ Ha), (rep_en _ _ _ Hb) in Hp. exact Hp.
    - intros Hd Hab [Hi1 Hi2]. split; [exact Hab|]. intros c sc Hc Hsc.
      destruct (Nat.eq_dec a c) as [<-|Hne]; [unfold reported in *; congruence|].
      pose proof (rep_lt _ _ _ Hsc) as Lc.
      destruct (ti_pairs _ _ _ _ HI c b ltac:(lia)) as [_ Hp].
      destruct (ti_pairs _ _ _ _ HI a c ltac:(lia)) as [Hq _].
      rewrite (rep_en _ _ _ Ha), (rep_en _ _ _ Hsc) in Hq. rewrite (rep_st _ _ _ Hsc), (rep_st _ _ _ Hb), (rep_en _ _ _ Hsc) in Hp.
      unfold s_end in *. lia.
  Qed.

  Lemma direct_iff xs t : tree_of xs t -> forall b, b < length xs ->
    exists d l, direct_children t b = Ret d /\ all_children t b = Ret l /\
      forall a, In a d <-> In a l /\
         ~ exists c lc, In c l /\ all_children t c = Ret lc /\ In a lc.
  Proof.
    intros Ht b Hb. destruct (tree_inv _ _ _ Ht) as [fr HI]. pose proof (ti_fr _ _ _ _ HI) as Hfr.
    eexists _, _. split; [apply (ti_dc _ _ _ _ HI); exact Hb|]. split; [apply (ti_ac _ _ _ _ HI); exact Hb|].
    intros a. rewrite (chainto_mem fr (st A xs)) by (apply (FRok_le _ _ (length xs)); [exact Hfr|lia]).
    destruct (Hfr b Hb) as (Hm & _). rewrite in_seq.
    assert (E : fr b <= a < fr b + (b - fr b) <-> fr b <= a < b) by lia. rewrite E. split.
    - intros [H1 H2]. split; [exact H1|]. intros (c & lc & Hc & Elc & Hin). apply in_seq in Hc.
      rewrite (ti_ac _ _ _ _ HI) in Elc by lia. injection Elc as <-. apply in_seq in Hin.
      specialize (H2 c ltac:(lia)). lia.
    - intros [H1 H2]. split; [exact H1|]. intros j Hj.
      destruct (Nat.lt_ge_cases a (fr j)) as [|Hge]; [assumption|exfalso]. apply H2.
      exists j. eexists. split; [apply in_seq; lia|]. split; [apply (ti_ac _ _ _ _ HI); lia|].
      destruct (Hfr j ltac:(lia)) as (Hj1 & _). apply in_seq. lia.
  Qed.

  Lemma parent_iff xs t : tree_of xs t -> forall a, a < length xs ->
    exists q, parent t a = Ret q /\
      forall b, q = Some b <-> b < length xs /\ exists d, direct_children t b = Ret d /\ In a d.
  Proof.
    intros Ht a Ha. destruct (tree_inv _ _ _ Ht) as [fr HI].
    destruct (ti_par _ _ _ _ HI a Ha) as (q & Eq & Hq). exists q. split; [exact Eq|].
    intros b. rewrite Hq. split.
    - intros [H1 H2]. split; [exact H1|]. eexists. split; [apply (ti_dc _ _ _ _ HI); exact H1|exact H2].
    - intros [H1 (d & Ed & Hd)]. split; [exact H1|]. rewrite (ti_dc _ _ _ _ HI) in Ed by exact H1. congruence.
  Qed.

  Lemma first_above (fr : nat -> nat) r n :
    (forall j, r < j < n -> r < fr j) \/
    exists j, r < j < n /\ fr j <= r /\ forall k, r < k < j -> r < fr k.
  Proof.
    induction n as [|n [IH|IH]].
    - left; intros; lia.
    - destruct (Nat.lt_ge_cases r n) as [H|H]; [|left; intros; lia].
      destruct (Nat.lt_ge_cases r (fr n)) as [H1|H1].
      + left. intros j Hj. destruct (Nat.eq_dec j n) as [->|]; [exact H1|apply IH; lia].
      + right. exists n. split; [lia|]. split; [exact H1|exact IH].
    - right. destruct IH as (j & H1 & H2). exists j. split; [lia|exact H2].
  Qed.

  Lemma roots_iff xs t : tree_of xs t -> exists l, root_activities t = Ret l /\
    forall r, In r l <-> r < length xs /\ parent t r = Ret None.
  Proof.
    intros Ht. destruct (tree_inv _ _ _ Ht) as [fr HI]. pose proof (ti_fr _ _ _ _ HI) as Hfr.
    eexists. split; [apply (ti_roots _ _ _ _ HI)|]. intros r.
    rewrite (chainto_mem fr (st A xs)) by exact Hfr. split.
    - intros [H1 H2]. split; [lia|]. destruct (ti_par _ _ _ _ HI r ltac:(lia)) as (q & Eq & Hq).
      rewrite Eq. destruct q as [p|]; [exfalso|reflexivity].
      destruct (proj1 (Hq p) eq_refl) as [Hp Hin].
      apply chainto_lt with (st := st A xs) in Hin; [|apply (FRok_le _ _ (length xs)); [exact Hfr|lia]].
      specialize (H2 p ltac:(lia)). lia.
    - intros [H1 H2]. split; [lia|]. destruct (first_above fr r (length xs)) as [H|(j & Hj & Hfj & Hk)]; [exact H|exfalso].
      destruct (ti_par _ _ _ _ HI r H1) as (q & Eq & Hq). rewrite H2 in Eq. injection Eq as <-.
      assert (E : None = Some j); [|discriminate]. apply Hq. split; [lia|].
      apply chainto_mem with (st := st A xs); [apply (FRok_le _ _ (length xs)); [exact Hfr|lia]|]. split; [lia|exact Hk].
  Qed.

  Lemma all_listed xs t : tree_of xs t ->
    all_activities t = combine (seq 0 (length xs)) xs /\
    (forall i s, reported xs i s -> exists nd, activity_trace t i = Ret nd /\ n_stat nd = s).
  Proof.
    intros Ht. destruct (tree_inv _ _ _ Ht) as [fr HI]. split.
    - unfold all_activities. rewrite (ti_stats _ _ _ _ HI), (ti_len _ _ _ _ HI). reflexivity.
    - intros i s Hs. destruct (ti_node _ _ _ _ HI i (rep_lt _ _ _ Hs)) as (nd & E1 & _ & _ & E4).
      exists nd. unfold activity_trace. rewrite E1. split; [reflexivity|]. unfold reported in Hs. congruence.
  Qed.

  Lemma contiguous xs t : tree_of xs t -> forall b, b < length xs ->
    exists f, f <= b /\ all_children t b = Ret (seq f (b - f)).
  Proof.
    intros Ht b Hb. destruct (tree_inv _ _ _ Ht) as [fr HI]. exists (fr b).
    split; [apply (ti_fr _ _ _ _ HI b Hb)|apply (ti_ac _ _ _ _ HI b Hb)].
  Qed.

  Lemma root_partition xs t : tree_of xs t -> exists roots, root_activities t = Ret roots /\ NoDup roots /\
    forall i, i < length xs -> exists! r, In r roots /\
       (i = r \/ exists l, all_children t r = Ret l /\ In i l).
  Proof.
    intros Ht. destruct (tree_inv _ _ _ Ht) as [fr HI]. pose proof (ti_fr _ _ _ _ HI) as Hfr.
    eexists. split; [apply (ti_roots _ _ _ _ HI)|]. split; [apply (chainto_nodup fr (st A xs)); exact Hfr|].
    assert (Hsub : forall i r, r < length xs -> ((i = r \/ exists l, all_children t r = Ret l /\ In i l) <-> fr r <= i <= r)).
    { intros i r Hr. destruct (Hfr r Hr) as (Hm & _). split.
      - intros [->|(l & El & Hin)]; [lia|]. rewrite (ti_ac _ _ _ _ HI) in El by exact Hr. injection El as <-.
        apply in_seq in Hin. lia.
      - intros H. destruct (Nat.eq_dec i r) as [->|]; [left; reflexivity|right].
        eexists. split; [apply (ti_ac _ _ _ _ HI); exact Hr|]. apply in_seq. lia. }
    intros i Hi. destruct (chainto_cover fr (st A xs) _ Hfr i Hi) as (r & Hr & Hri).
    pose proof (chainto_lt fr (st A xs) 0 _ Hfr r Hr) as Hrl.
    exists r. split; [split; [exact Hr|apply Hsub; [lia|exact Hri]]|].
    intros r' [Hr' Hs]. pose proof (chainto_lt fr (st A xs) 0 _ Hfr r' Hr') as Hrl'.
    apply Hsub in Hs; [|lia].
    apply (chainto_mem fr (st A xs)) in Hr; [|exact Hfr]. apply (chainto_mem fr (st A xs)) in Hr'; [|exact Hfr].
    destruct (Nat.lt_trichotomy r r') as [Hlt|[E|Hlt]]; [|exact E|].
    - destruct Hr as [_ Hr]. specialize (Hr r' ltac:(lia)). lia.
    - destruct Hr' as [_ Hr']. specialize (Hr' r ltac:(lia)). lia.
  Qed.

  Lemma chainto_decreasing fr sx n lo : FRok fr sx n -> StronglySorted gt (chainto fr lo n).
  Proof.
    induction n as [n IH] using (well_founded_induction lt_wf). intros H.
    destruct n as [|m]; [constructor|]. rewrite chainto_step by (eapply FRok_lowers; exact H).
    destruct (Nat.leb (S m) lo); [constructor|]. destruct (H m ltac:(lia)) as (Hm & _).
    assert (Hf : FRok fr sx (fr m)) by (apply (FRok_le _ _ (S m)); [exact H|lia]).
    constructor; [apply IH; [lia|exact Hf]|]. apply Forall_forall. intros i Hi.
    apply chainto_lt with (st := sx) in Hi; [lia|exact Hf].
  Qed.

  Lemma listing_order xs t : tree_of xs t ->
    (exists l, root_activities t = Ret l /\ StronglySorted gt l) /\
    forall b, b < length xs -> exists d, direct_children t b = Ret d /\ StronglySorted gt d.
  Proof.
    intros Ht. destruct (tree_inv _ _ _ Ht) as [fr HI]. pose proof (ti_fr _ _ _ _ HI) as Hfr. split.
    - eexists. split; [apply (ti_roots _ _ _ _ HI)|eapply chainto_decreasing; exact Hfr].
    - intros b Hb. eexists. split; [apply (ti_dc _ _ _ _ HI); exact Hb|].
      eapply chainto_decreasing. apply (FRok_le _ _ (length xs)); [exact Hfr|lia].
  Qed.

  Lemma apart xs fr t a c : TInv A t xs fr -> c < length xs -> a < fr c -> (en A xs a <= st A xs c)%Z.
  Proof.
    intros HI Hc Ha. destruct (ti_fr _ _ _ _ HI c Hc) as (Hm & _ & Hp). specialize (Hp ltac:(lia)).
    destruct (ti_pairs _ _ _ _ HI (fr c - 1) c ltac:(lia)) as [_ [H|H]]; [lia|].
    destruct (Nat.eq_dec a (fr c - 1)) as [->|]; [exact H|].
    destruct (ti_pairs _ _ _ _ HI a (fr c - 1) ltac:(lia)) as [H2 _]. lia.
  Qed.

  Lemma siblings_apart xs t : tree_of xs t -> forall l,
    (root_activities t = Ret l \/ exists b, b < length xs /\ direct_children t b = Ret l) ->
    forall i j a c, In i l -> In j l -> i < j -> reported xs i a -> reported xs j c -> before a c.
  Proof.
    intros Ht l Hl i j a c Hi Hj Hij Ha Hc. destruct (tree_inv _ _ _ Ht) as [fr HI].
    pose proof (ti_fr _ _ _ _ HI) as Hfr. unfold before.
    rewrite <- (rep_en _ _ _ Ha), <- (rep_st _ _ _ Hc).
    eapply apart; [exact HI|eapply rep_lt; exact Hc|].
    destruct Hl as [Hl|(b & Hb & Hl)].
    - rewrite (ti_roots _ _ _ _ HI) in Hl. injection Hl as <-.
      apply (chainto_mem fr (st A xs)) in Hi; [|exact Hfr]. apply Hi. apply rep_lt in Hc. lia.
    - rewrite (ti_dc _ _ _ _ HI) in Hl by exact Hb. injection Hl as <-.
      assert (Hf : FRok fr (st A xs) b) by (apply (FRok_le _ _ (length xs)); [exact Hfr|lia]).
      apply (chainto_mem fr (st A xs)) in Hi; [|exact Hf]. apply Hi.
      apply (chainto_lt fr (st A xs)) in Hj; [lia|exact Hf].
  Qed.

  Lemma children_enclosed xs t : tree_of xs t -> forall b d, b < length xs -> direct_children t b = Ret d ->
    forall i a s, In i d -> reported xs i a -> reported xs b s -> inside a s.
  Proof.
    intros Ht b d Hb Hd i a s Hi Ha Hs.
    destruct (direct_iff _ _ Ht b Hb) as (d' & l & E1 & E2 & H). rewrite Hd in E1. injection E1 as <-.
    apply H in Hi. destruct Hi as [Hin _].
    destruct (descendants_contained _ _ Ht i a b s Ha Hs) as (l' & E3 & H3 & _). rewrite E2 in E3. injection E3 as <-.
    apply H3; exact Hin.
  Qed.

  (** *** Acceptance *)
  Lemma accepted_iff xs : (exists b, accepted xs b) <-> sorted_by_end xs /\ nested_or_disjoint xs.
  Proof.
    split.
    - intros [b Hb]. destruct (accepted_inv _ _ _ Hb) as [fr HI].
      assert (Hpair : forall i j a c, i < j -> reported xs i a -> reported xs j c ->
        (s_end a <= s_end c)%Z /\ ((s_start c <= s_start a)%Z \/ (s_end a <= s_start c)%Z)).
      { intros i j a c Hij Ha Hc. pose proof (rep_lt _ _ _ Hc).
        destruct (bi_pairs _ _ _ _ HI i j ltac:(lia)) as [H1 H2].
        rewrite (rep_en _ _ _ Ha), (rep_en _ _ _ Hc), (rep_st _ _ _ Ha), (rep_st _ _ _ Hc) in *. auto. }
      split; intros i j a c Hij Ha Hc; destruct (Hpair i j a c Hij Ha Hc) as [H1 H2]; [exact H1|].
      unfold inside, before. destruct H2; [left; split; assumption|right; assumption].
    - intros [Hs Hn]. pose proof (insert_all_binv A [] xs b_new _ (new_binv A)) as Hb.
      unfold accepted. destruct (insert_all b_new xs) as [[[]|[i r]] b']; [exists b'; reflexivity|exfalso].
      destruct Hb as (b0 & fr0 & a & pre & post & E1 & E2 & E3 & E4 & E5 & _). cbn [app] in E3.
      assert (Hra : reported xs (length pre) a).
      { unfold reported. rewrite E1, nth_error_app2, Nat.sub_diag by lia. reflexivity. }
      assert (Hrp : forall k s, reported pre k s -> reported xs k s).
      { intros k s Hk. unfold reported in *. rewrite E1, nth_error_app1; [exact Hk|]. apply nth_error_Some; congruence. }
      pose proof (insert_spec A b0 pre fr0 a E3) as Hi. rewrite E4 in Hi.
      destruct r as [|[p c|p c]|]; [congruence| | |contradiction].
      + destruct Hi as (-> & m & Hm & -> & Hlt). destruct (rep_ex pre m ltac:(lia)) as [s Hsm].
        rewrite (rep_en _ _ _ Hsm) in Hlt.
        pose proof (Hs m (length pre) s a ltac:(lia) (Hrp _ _ Hsm) Hra). lia.
      + destruct Hi as (-> & _ & k & Hk & Hkp & Hlt & _).
        destruct (Hn k (length pre) p a Hk (Hrp _ _ Hkp) Hra) as [[H1 H2]|H1]; unfold before in *; lia.
  Qed.

  Lemma build_total xs b : accepted xs b -> exists t, build b = Ret t.
  Proof. intros H. destruct (accepted_inv _ _ _ H) as [fr HI]. eexists. apply (build_spec A _ _ _ HI). Qed.

  Lemma error_meaning xs i r b : insert_all b_new xs = (inr (i, r), b) ->
    exists a, reported xs i a /\ (exists b0, accepted (firstn i xs) b0) /\
      match r with
      | IErr (UnexpectedOrder p c) => c = s_end a /\ (c < p)%Z /\
           exists j s, i = S j /\ reported xs j s /\ p = s_end s
      | IErr (PartialOverlap p q) => q = a /\ (s_start p < s_start a < s_end p)%Z /\
           (forall j s, j < i -> reported xs j s -> (s_end s <= s_end a)%Z) /\
           exists j, j < i /\ reported xs j p
      | _ => False
      end.
  Proof.
    intros H. pose proof (insert_all_binv A [] xs b_new _ (new_binv A)) as Hb. rewrite H in Hb.
    destruct Hb as (b0 & fr0 & a & pre & post & E1 & E2 & E3 & E4 & E5 & E6). cbn [app] in E3.
    assert (Hfirst : firstn i xs = pre).
    { rewrite E1, E2, firstn_app, firstn_all, Nat.sub_diag. simpl. apply app_nil_r. }
    assert (Hrp : forall k s, k < length pre -> (reported pre k s <-> reported xs k s)).
    { intros k s Hk. unfold reported in *. rewrite E1, nth_error_app1 by exact Hk. reflexivity. }
    exists a. split.
    { unfold reported. rewrite E1, E2, nth_error_app2, Nat.sub_diag by lia. reflexivity. }
    split; [exists b0; rewrite Hfirst; exact E6|].
    pose proof (insert_spec A b0 pre fr0 a E3) as Hi. rewrite E4 in Hi.
    destruct r as [|[p c|p c]|]; [congruence| | |contradiction].
    - destruct Hi as (-> & m & Hm & -> & Hlt). split; [reflexivity|]. split; [exact Hlt|].
      destruct (rep_ex pre m ltac:(lia)) as [s Hsm]. exists m, s. split; [lia|].
      split; [apply Hrp; [lia|exact Hsm]|apply (rep_en _ _ _ Hsm)].
    - destruct Hi as (-> & Hle & k & Hk & Hkp & Hlt & _). split; [reflexivity|]. split; [exact Hlt|].
      split.
      + intros j s Hj Hs. assert (Hjl : j < length pre) by lia. apply Hrp in Hs; [|exact Hjl].
        rewrite <- (rep_en _ _ _ Hs).
        destruct (length pre) as [|m] eqn:El; [lia|]. specialize (Hle m eq_refl).
        destruct (Nat.eq_dec j m) as [->|]; [exact Hle|].
        destruct (bi_pairs _ _ _ _ E3 j m ltac:(lia)) as [Hp _]. lia.
      + exists k. split; [lia|]. apply Hrp; [exact Hk|exact Hkp].
  Qed.

  (** *** Durations *)
  Lemma osum_ok (f : nat -> outcome Z) g l : (forall i, In i l -> f i = Ret (g i)) ->
    osum f l = Ret (sumZ (map g l)).
  Proof.
    induction l as [|x l IH]; intros H; [reflexivity|]. cbn [osum map]. rewrite H by (left; reflexivity).
    rewrite IH by (intros i Hi; apply H; right; exact Hi). reflexivity.
  Qed.

  Lemma dur_ok xs fr t i : TInv A t xs fr -> i < length xs -> duration t i = Ret (du A xs i).
  Proof.
    intros HI Hi. destruct (ti_node _ _ _ _ HI i Hi) as (nd & E1 & _ & _ & E4).
    unfold duration, activity_trace. rewrite E1. simpl. unfold du. rewrite E4. reflexivity.
  Qed.
  Lemma self_ok xs fr t i : TInv A t xs fr -> i < length xs ->
    self_duration t i = Ret (du A xs i - sumdu A xs (chainto fr (fr i) i))%Z.
  Proof.
    intros HI Hi. destruct (ti_node _ _ _ _ HI i Hi) as (nd & E1 & _ & E3 & _).
    unfold self_duration, activity_trace. rewrite E1. simpl. rewrite E3. reflexivity.
  Qed.

  Lemma self_is_rest xs t : tree_of xs t -> forall b s, reported xs b s ->
    exists d c, direct_children t b = Ret d /\ osum (duration t) d = Ret c /\
                self_duration t b = Ret (s_dur s - c)%Z.
  Proof.
    intros Ht b s Hb. destruct (tree_inv _ _ _ Ht) as [fr HI]. pose proof (rep_lt _ _ _ Hb) as Lb.
    eexists _, _. split; [apply (ti_dc _ _ _ _ HI); exact Lb|]. split.
    - apply osum_ok. intros i Hi. apply (dur_ok _ _ _ _ HI).
      apply chainto_lt with (st := st A xs) in Hi; [lia|]. apply (FRok_le _ _ (length xs)); [apply HI|lia].
    - rewrite (self_ok _ _ _ _ HI Lb), (rep_du _ _ _ Hb). reflexivity.
  Qed.

  Lemma subtree_sum xs t : tree_of xs t -> forall b s, reported xs b s ->
    exists l, all_children t b = Ret l /\ osum (self_duration t) (l ++ [b]) = Ret (s_dur s).
  Proof.
    intros Ht b s Hb. destruct (tree_inv _ _ _ Ht) as [fr HI]. pose proof (rep_lt _ _ _ Hb) as Lb.
    pose proof (ti_fr _ _ _ _ HI) as Hfr. destruct (Hfr b Lb) as (Hm & _).
    eexists. split; [apply (ti_ac _ _ _ _ HI); exact Lb|].
    set (self := fun i => (du A xs i - sumdu A xs (chainto fr (fr i) i))%Z).
    rewrite (osum_ok _ self).
    - rewrite map_app, sumZ_app. rewrite (self_sum A fr xs self b (fr b)).
      + cbn [map]. unfold sumZ; cbn [fold_right]. unfold self. rewrite (rep_du _ _ _ Hb). f_equal. lia.
      + apply (FRok_le _ _ (length xs)); [exact Hfr|lia].
      + intros i Hi. apply (fr_nest fr (st A xs) (length xs)); [exact Hfr|exact Lb|lia].
      + intros i Hi. reflexivity.
    - intros i Hi. apply in_app_or in Hi. destruct Hi as [Hi|[<-|[]]]; [apply in_seq in Hi|]; apply (self_ok _ _ _ _ HI); lia.
  Qed.

  Lemma total_sum xs t : tree_of xs t -> exists roots total, root_activities t = Ret roots /\
    osum (duration t) roots = Ret total /\ osum (self_duration t) (seq 0 (length xs)) = Ret total.
  Proof.
    intros Ht. destruct (tree_inv _ _ _ Ht) as [fr HI]. pose proof (ti_fr _ _ _ _ HI) as Hfr.
    eexists _, _. split; [apply (ti_roots _ _ _ _ HI)|]. split.
    - apply osum_ok. intros i Hi. apply (dur_ok _ _ _ _ HI). apply chainto_lt with (st := st A xs) in Hi; [lia|exact Hfr].
    - set (self := fun i => (du A xs i - sumdu A xs (chainto fr (fr i) i))%Z).
      rewrite (osum_ok _ self) by (intros i Hi; apply in_seq in Hi; apply (self_ok _ _ _ _ HI); lia).
      f_equal. pose proof (self_sum A fr xs self (length xs) 0 Hfr) as Hs. rewrite Nat.sub_0_r in Hs. apply Hs.
      + intros; lia.
      + intros i Hi. reflexivity.
  Qed.

  Lemma self_nonneg xs t : tree_of xs t -> (forall i s, reported xs i s -> (0 <= s_dur s)%Z) ->
    forall b, b < length xs -> exists d, self_duration t b = Ret d /\ (0 <= d)%Z.
  Proof.
    intros Ht Hd b Lb. destruct (tree_inv _ _ _ Ht) as [fr HI]. pose proof (ti_fr _ _ _ _ HI) as Hfr.
    destruct (rep_ex xs b Lb) as [s Hb].
    eexists. split; [apply (self_ok _ _ _ _ HI Lb)|].
    assert (Hle : (sumdu A xs (chainto fr (fr b) b) <= du A xs b)%Z); [|lia].
    destruct (Hfr b Lb) as (Hm & Hbelow & _).
    destruct (Nat.eq_dec (fr b) b) as [E|Hne].
    - rewrite chainto_le by lia. unfold sumdu; simpl. rewrite (rep_du _ _ _ Hb). apply (Hd _ _ Hb).
    - assert (H : (sumdu A xs (chainto fr (fr b) b) <= en A xs (b - 1) - st A xs b)%Z).
      { apply chain_dur_le.
        - apply (FRok_le _ _ (length xs)); [exact Hfr|lia].
        - intros i j Hij. apply (ti_pairs _ _ _ _ HI). lia.
        - intros i Hi. apply rep_en_st. lia.
        - intros i Hi. apply Hbelow; exact Hi.
        - lia. }
      destruct (ti_pairs _ _ _ _ HI (b - 1) b ltac:(lia)) as [Hp _].
      rewrite (rep_en_st xs b Lb) in Hp. lia.
  Qed.
End T.

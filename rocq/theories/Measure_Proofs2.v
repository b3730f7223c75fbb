(** Proofs about the out-of-memory killer. *)
From Coq Require Import NArith Permutation.
From Verif Require Import Base Measure_Model Measure_Spec Measure_Proofs1.
Local Open Scope nat_scope.

Lemma min_by_key_spec key l : l <> [] -> exists i, min_by_key key l = Some i /\ youngest key l i.
Proof.
  induction l as [|x r IH]; intros H; [easy|]. simpl.
  destruct r as [|y r'].
  { exists x. split; [easy|]. exists [], []. split; [easy|]. split; intros j []. }
  destruct (IH ltac:(easy)) as (i & E & l1 & l2 & El & H1 & H2). rewrite E.
  destruct (Nat.ltb_spec (key i) (key x)) as [Hlt|Hge].
  - exists i. split; [easy|]. exists (x :: l1), l2. split; [rewrite El; easy|]. split; [|exact H2].
    intros j [<-|Hj]; auto.
  - exists x. split; [easy|]. exists [], (y :: r'). split; [easy|]. split; [intros j []|].
    intros j Hj. rewrite El in Hj. apply in_app_iff in Hj.
    destruct Hj as [Hj|[<-|Hj]]; [specialize (H1 j Hj); lia|lia|specialize (H2 j Hj); lia].
Qed.

Lemma running_stop n l i l1 l2 : running n l = l1 ++ i :: l2 -> running n (l ++ [i]) = l1 ++ l2.
Proof.
  intros E. assert (Hnd : NoDup (l1 ++ i :: l2))
    by (rewrite <- E; apply NoDup_filter, seq_NoDup).
  assert (Hf : running n (l ++ [i]) = filter (fun j => negb (j =? i)) (running n l)).
  { unfold running. generalize (seq 0 n). intros s. induction s as [|x s IH]; [easy|]. cbn [filter].
    rewrite existsb_app. cbn [existsb]. rewrite orb_false_r, negb_orb.
    destruct (existsb (Nat.eqb x) l) eqn:E1; cbn [negb andb]; [exact IH|].
    cbn [filter]. destruct (x =? i); cbn [negb]; rewrite IH; easy. }
  rewrite Hf, E, filter_app. cbn [filter]. rewrite Nat.eqb_refl. cbn [negb].
  apply NoDup_remove_2 in Hnd.
  assert (Hid : forall s, (forall x, In x s -> x <> i) -> filter (fun j => negb (j =? i)) s = s).
  { induction s as [|x s IH]; intros Hs; [easy|]. cbn [filter].
    replace (x =? i) with false by (symmetry; apply Nat.eqb_neq, Hs; left; easy). cbn [negb].
    f_equal. apply IH. intros y Hy. apply Hs. right. easy. }
  rewrite !Hid; [easy| |]; intros x Hx ->; apply Hnd, in_app_iff; [right|left]; exact Hx.
Qed.

(** A round, in any state of the flags. *)
Lemma oom_loop_ok n elapsed available : forall fuel k sv l f,
  stops n l f -> running n l <> [] -> length (running n l) < fuel ->
  match oom_loop fuel k elapsed available sv f with
  | Ret (sv', f', st) => exists l', stops n (l ++ l') f' /\
      sv_bkg sv' = sv_bkg sv /\ sv_last_available sv' = sv_last_available sv /\
      kill_round elapsed available (sv_bkg sv) k (sv_margin sv) (running n l)
        (sv_margin sv') (running n (l ++ l')) st
  | Panic => 64 <= n
  end.
Proof.
  induction fuel as [|fuel IH]; intros k sv l f Hs Hne Hf; [lia|]. cbn [oom_loop].
  destruct (N.ltb_spec available (sv_margin sv)) as [Hlow|Hok].
  2: { exists []. rewrite app_nil_r. split; [easy|]. split; [easy|]. split; [easy|]. constructor. easy. }
  pose proof (flags_ok n l f _ Hs (clients_new n)) as (_ & _ & Hnum & Hen & Hpan & Hst & _).
  destruct (stops_repr n l f Hs) as (Hr & _ & _).
  assert (Hdec : only_last_of_word n l \/ ~ only_last_of_word n l).
  { pose proof (any_word n f _ Hr) as H. cbv beta in H.
    assert (Ho : only_last_of_word n l <-> existsb (N.eqb (2 ^ 63)) f = true).
    { rewrite H. split; intros (j & H1 & H2); exists j; (split; [exact H1|]); intros b Hb;
        rewrite <- (H2 b Hb), running_in, negb_true_iff, <- not_true_iff_false, existsb_exists;
        (split; intros [A1 A2]; (split; [exact A1|])).
      - intros Hin. destruct A2. exists (64 * j + b). split; [easy|apply Nat.eqb_refl].
      - intros (x & Hx & E). apply Nat.eqb_eq in E. subst. easy.
      - intros (x & Hx & E). apply Nat.eqb_eq in E. subst. easy.
      - intros Hin. destruct A2. exists (64 * j + b). split; [easy|apply Nat.eqb_refl]. }
    destruct (existsb (N.eqb (2 ^ 63)) f); [left; apply Ho; easy|right; rewrite Ho; easy]. }
  destruct Hdec as [Ho|Hno].
  { rewrite (Hpan Ho). cbn [obind]. destruct Ho as (j & Hj & _). lia. }
  rewrite (Hen Hno). cbn [obind].
  destruct (min_by_key_spec (elapsed k) (running n l) Hne) as (i & Emin & Hyoung).
  rewrite Emin. cbn [expect obind].
  assert (Hi : In i (running n l)).
  { destruct Hyoung as (l1 & l2 & E & _). rewrite E. apply in_app_iff. right. left. easy. }
  apply running_in in Hi. destruct Hi as [Hi Hnin].
  destruct (stop f i) as [f'|] eqn:Estop; [|exfalso; apply Hnin, (Hst i Hi); easy]. cbn [obind].
  assert (Hs' : stops n (l ++ [i]) f') by (econstructor; eassumption).
  pose proof Hyoung as Hyoung'. destruct Hyoung' as (l1 & l2 & El & _).
  pose proof (running_stop n l i l1 l2 El) as El'.
  pose proof (flags_ok n _ f' _ Hs' (clients_new n)) as (_ & _ & Hnum' & _).
  unfold assumed_threads. rewrite Hnum, El, app_length. cbn [length].
  unfold udiv. replace (N.of_nat (length l1 + S (length l2) + sv_bkg sv) =? 0)%N with false
    by (symmetry; apply N.eqb_neq; lia). cbn [obind].
  rewrite Hnum', El'.
  replace (length l1 + S (length l2) + sv_bkg sv - 1) with (length (l1 ++ l2) + sv_bkg sv)
    by (rewrite app_length; lia).
  replace (length l1 + S (length l2) + sv_bkg sv) with (S (length (l1 ++ l2)) + sv_bkg sv)
    by (rewrite app_length; lia).
  set (margin' := (sv_margin sv / N.of_nat (S (length (l1 ++ l2)) + sv_bkg sv)
                   * N.of_nat (length (l1 ++ l2) + sv_bkg sv))%N).
  destruct (Nat.eqb_spec (length (l1 ++ l2)) 0) as [E0|E0].
  - exists [i]. split; [exact Hs'|]. split; [easy|]. split; [easy|]. rewrite El'.
    apply length_zero_iff_nil in E0. unfold margin'. rewrite E0.
    apply app_eq_nil in E0. destruct E0 as [-> ->]. cbn [length Nat.add app sv_margin].
    apply kr_last. easy.
  - specialize (IH (S k) {| sv_bkg := sv_bkg sv; sv_margin := margin';
                            sv_last_available := sv_last_available sv |} (l ++ [i]) f' Hs').
    rewrite El' in IH. rewrite El, app_length in Hf. cbn [length] in Hf.
    assert (Hne' : l1 ++ l2 <> []) by (intros E; rewrite E in E0; easy).
    specialize (IH Hne' ltac:(rewrite app_length; lia)).
    cbn [sv_bkg sv_margin sv_last_available] in IH.
    destruct (oom_loop _ _ _ _ _ _) as [[[sv' f''] st]|]; [|exact IH].
    destruct IH as (l' & Hs'' & Hb & Hla & Hk).
    exists (i :: l'). replace (l ++ i :: l') with ((l ++ [i]) ++ l') by (rewrite <- app_assoc; easy).
    split; [exact Hs''|]. split; [easy|]. split; [easy|].
    apply kr_kill; [easy|rewrite <- El; exact Hyoung|exact Hne'|exact Hk].
Qed.

Lemma update_ok n elapsed available sv l f :
  stops n l f -> running n l <> [] ->
  match monitor_update elapsed available sv f with
  | Ret (sv', f', st) => exists l', stops n (l ++ l') f' /\
      sv_bkg sv' = sv_bkg sv /\ sv_last_available sv' = available /\
      kill_round elapsed available (sv_bkg sv) 0
        (adapted_margin sv (length (running n l) + sv_bkg sv) available) (running n l)
        (sv_margin sv') (running n (l ++ l')) st
  | Panic => 64 <= n
  end.
Proof.
  intros Hs Hne. unfold monitor_update, update_oom_threshold.
  pose proof (flags_ok n l f _ Hs (clients_new n)) as (_ & _ & Hnum & _).
  unfold assumed_threads. cbn [sv_margin sv_bkg]. rewrite Hnum.
  assert (Hpos : 1 <= length (running n l)) by (destruct (running n l); [easy|simpl; lia]).
  unfold adapted_margin.
  destruct (sv_margin sv <? sv_last_available sv - available)%N.
  - unfold udiv.
    replace (N.of_nat (length (running n l) + sv_bkg sv) =? 0)%N with false
      by (symmetry; apply N.eqb_neq; lia). cbn [obind].
    unfold handle_oom. rewrite Hnum.
    match goal with |- context [oom_loop _ _ _ _ ?sv0 _] =>
      pose proof (oom_loop_ok n elapsed available (S (length (running n l))) 0 sv0 l f Hs Hne ltac:(lia)) as H end.
    cbn [sv_margin sv_bkg sv_last_available] in H. exact H.
  - cbn [obind]. unfold handle_oom. rewrite Hnum.
    match goal with |- context [oom_loop _ _ _ _ ?sv0 _] =>
      pose proof (oom_loop_ok n elapsed available (S (length (running n l))) 0 sv0 l f Hs Hne ltac:(lia)) as H end.
    cbn [sv_margin sv_bkg sv_last_available] in H. exact H.
Qed.

(** What a round guarantees. *)
Lemma kill_round_facts elapsed available bkg k margin l margin' l' st :
  kill_round elapsed available bkg k margin l margin' l' st -> l <> [] ->
  (st = KilledEveryone <-> l' = []) /\ (st = Running -> (margin' <= available)%N) /\
  (margin' <= margin)%N /\ incl l' l /\
  ((margin <= available)%N -> l' = l /\ margin' = margin) /\
  ((available < margin)%N -> length l' < length l).
Proof.
  assert (Hle : forall m a b, (a <= b -> 0 < b -> m / b * a <= m)%N).
  { intros m a b Hab Hb. pose proof (N.mul_div_le m b ltac:(lia)). nia. }
  induction 1 as [k margin l H|k margin i H|k margin l1 i l2 margin' l' st H Hy Hne Hk IH]; intros Hl.
  - split; [split; [discriminate|congruence]|]. split; [easy|]. split; [lia|].
    split; [apply incl_refl|]. split; [easy|lia].
  - split; [easy|]. split; [discriminate|]. split; [apply Hle; lia|].
    split; [intros x []|]. split; [lia|]. simpl. lia.
  - destruct (IH Hne) as (H1 & H2 & H3 & H4 & H5 & H6).
    split; [exact H1|]. split; [exact H2|]. split; [|split; [|split]].
    + etransitivity; [exact H3|]. apply Hle; lia.
    + intros x Hx. apply H4 in Hx. apply in_app_iff in Hx. apply in_app_iff.
      destruct Hx as [Hx|Hx]; [left; easy|right; right; easy].
    + intros Hc. lia.
    + intros _. rewrite app_length. cbn [length].
      assert (length l' <= length (l1 ++ l2)); [|rewrite app_length in *; lia].
      destruct (N.lt_ge_cases available (margin / N.of_nat (S (length (l1 ++ l2)) + bkg)
                  * N.of_nat (length (l1 ++ l2) + bkg))) as [Hc|Hc].
      * specialize (H6 Hc). lia.
      * destruct (H5 Hc) as [-> _]. lia.
Qed.

Theorem update_small n elapsed available sv l f :
  n <= 63 -> stops n l f -> running n l <> [] ->
  exists sv' f' st l', monitor_update elapsed available sv f = Ret (sv', f', st) /\
    stops n (l ++ l') f' /\
    sv_bkg sv' = sv_bkg sv /\ sv_last_available sv' = available /\
    kill_round elapsed available (sv_bkg sv) 0
      (adapted_margin sv (length (running n l) + sv_bkg sv) available) (running n l)
      (sv_margin sv') (running n (l ++ l')) st.
Proof.
  intros Hn Hs Hne. pose proof (update_ok n elapsed available sv l f Hs Hne) as H.
  destruct (monitor_update elapsed available sv f) as [[[sv' f'] st]|]; [|lia].
  destruct H as (l' & H). exists sv', f', st, l'. split; [easy|exact H].
Qed.

(** Proofs about the threads: the work is bounded. *)
From Coq Require Import NArith Permutation.
From Verif Require Import Base Measure_Model Measure_Spec Measure_Proofs1 Measure_Proofs2 Measure_Proofs3
  Measure_Proofs4 Measure_Proofs5.
Local Open Scope nat_scope.

Lemma sum_cons x l : list_sum (x :: l) = x + list_sum l.
Proof. easy. Qed.

Section Rank.
  Variable n : nat.
  Definition again : nat := 5 * n + 22.
  Definition wrank (f : N) (w : worker) : nat :=
    match w with
    | WSleeping _ => 0
    | WCalling l => if N.eqb l f then 1 else 5
    | WWaiting l => if N.eqb l f then 2 else 4
    | WLooking l => if N.eqb l f then 3 else 5
    | WTook _ _ => 14
    | WRunning _ _ => 13
    | WSending _ _ | WPanicking _ => 12
    | WDone _ => 0
    end + (if done w then 0 else again).
  Definition crank (m : msg) : nat := match m with MKilled _ => again | _ => 1 end.
  Definition mrank (m : main_state) : nat :=
    match m with
    | MDone _ => 0
    | MJoin _ => 1
    | MCloseWake _ => 5 * n + 2
    | MClose _ => 10 * n + 3
    | MLoop | MRecv => 10 * n + 4
    | MPush _ => 10 * n + 4 + 5 * n + 21
    | MPushSignal => 10 * n + 4 + 5 * n + 8
    | MPushWake => 10 * n + 4 + 7
    | MStartWake => 10 * n + 4 + 5 * n + 1
    | MStart => 10 * n + 4 + 10 * n + 2
    end.
  Definition rank (s : sys) : nat :=
    mrank (s_main s) + 12 * length (s_queue s) + list_sum (map crank (s_chan s)) +
    wsum (wrank (s_futex s)) (s_workers s).

  Lemma wrank_futex f f' w : wrank f' w <= wrank f w + 4.
  Proof. unfold wrank. destruct w; cbn [done]; try lia; eqb_cases; lia. Qed.
  Lemma wrank_wake f w : wrank f (wake w) <= wrank f w + 4.
  Proof. unfold wrank. destruct w; cbn [done wake]; try lia; eqb_cases; lia. Qed.
  Lemma wsum_le g h k ws : (forall w, g w <= h w + k) -> wsum g ws <= wsum h ws + k * length ws.
  Proof. intros H. induction ws as [|w ws IH]; simpl; [lia|]. specialize (H w). lia. Qed.
  Lemma wsum_map_le g h k (m : worker -> worker) ws : (forall w, g (m w) <= h w + k) ->
    wsum g (map m ws) <= wsum h ws + k * length ws.
  Proof. intros H. induction ws as [|w ws IH]; simpl; [lia|]. specialize (H w). lia. Qed.

  Lemma worker_step_rank f st q c w q' c' w' : worker_step f st q c w q' c' w' ->
    12 * length q' + list_sum (map crank c') + wrank f w' <
    12 * length q + list_sum (map crank c) + wrank f w.
  Proof.
    intros H. inversion H; subst; rewrite ?map_app, ?list_sum_app; unfold wrank;
      cbn [done length map crank list_sum fold_right]; unfold again; eqb_cases; try lia; try congruence.
  Qed.

  Lemma rank_step s a s' : length (s_workers s) = n -> step (cls n) a s s' ->
    (if productive a then 1 else 0) + rank s' <= rank s + (if is_spurious a then 4 else 0).
  Proof.
    intros Hlen Hs. unfold rank.
    inversion Hs; subst; sys_cbn;
      try (match goal with E : s_main ?s = _ |- _ => rewrite E end);
      try (match goal with E : s_chan ?s = _ |- _ => rewrite E end);
      cbn [productive is_spurious mrank map]; rewrite ?sum_cons; cbn [crank]; try lia.
    - match goal with E : worker_step _ _ _ _ _ _ _ _ |- _ => apply worker_step_rank in E end.
      match goal with E : nth_error _ _ = Some w |- _ =>
        pose proof (wsum_set (wrank (s_futex s)) _ _ _ w' E) as Hw end.
      lia.
    - match goal with E : nth_error _ _ = Some _ |- _ =>
        pose proof (wsum_set (wrank (s_futex s)) _ _ _ (WWaiting last) E) as Hw end.
      pose proof (wrank_wake (s_futex s) (WSleeping last)) as Hk. cbn [wake] in Hk. lia.
    - pose proof (wsum_le (wrank (futex_initial + 1)) (wrank (s_futex s)) 4 (s_workers s)
        (wrank_futex _ _)) as Hw. lia.
    - pose proof (wsum_map_le (wrank (s_futex s)) (wrank (s_futex s)) 4 wake (s_workers s)
        (wrank_wake _)) as Hw. lia.
    - unfold again. lia.
    - rewrite app_length. cbn [length]. lia.
    - pose proof (wsum_le (wrank (futex_next (s_futex s))) (wrank (s_futex s)) 4 (s_workers s)
        (wrank_futex _ _)) as Hw. lia.
    - match goal with E : wake_one _ _ |- _ => inversion E; subst end; [lia|].
      match goal with E : nth_error _ _ = Some _ |- _ =>
        pose proof (wsum_set (wrank (s_futex s)) _ _ _ (WWaiting last) E) as Hw end.
      pose proof (wrank_wake (s_futex s) (WSleeping last)) as Hk. cbn [wake] in Hk. lia.
    - pose proof (wsum_le (wrank futex_finished) (wrank (s_futex s)) 4 (s_workers s)
        (wrank_futex _ _)) as Hw. lia.
    - pose proof (wsum_map_le (wrank (s_futex s)) (wrank (s_futex s)) 4 wake (s_workers s)
        (wrank_wake _)) as Hw. lia.
  Qed.
End Rank.

Lemma count_snoc p tr a : count p (tr ++ [a]) = count p tr + (if p a then 1 else 0).
Proof. unfold count. rewrite filter_app, app_length. simpl. destruct (p a); easy. Qed.

Theorem bounded_work n jobs sv tr s : exec (cls n) (init n jobs sv) tr s ->
  count productive tr <= 12 * length jobs + 5 * n * n + 44 * n + 6 + 4 * count is_spurious tr.
Proof.
  intros H.
  assert (Hr : count productive tr + rank n s <= rank n (init n jobs sv) + 4 * count is_spurious tr).
  { induction H as [|tr s a s' H IH Hs]; [cbn; lia|].
    rewrite !count_snoc. pose proof (rank_step n s a s' (exec_len _ _ _ _ _ _ H) Hs) as Hk.
    destruct (productive a), (is_spurious a); lia. }
  assert (Hi : rank n (init n jobs sv) = 12 * length jobs + 5 * n * n + 44 * n + 6).
  { unfold rank, init. sys_cbn. cbn [mrank map list_sum fold_right]. rewrite wsum_repeat.
    unfold wrank. rewrite N.eqb_refl. cbn [done]. unfold again. lia. }
  lia.
Qed.

(** *** Runs *)
Lemma exec_app cl s0 tr1 s1 tr2 s2 : exec cl s0 tr1 s1 -> exec cl s1 tr2 s2 -> exec cl s0 (tr1 ++ tr2) s2.
Proof.
  intros H1 H2. induction H2 as [|tr s a s' H2 IH Hs]; [rewrite app_nil_r; easy|].
  rewrite app_assoc. econstructor; eassumption.
Qed.
Lemma exec_one cl s a s' : step cl a s s' -> exec cl s [a] s'.
Proof. intros H. change [a] with ([] ++ [a]). econstructor; [constructor|easy]. Qed.

Theorem can_finish n jobs sv tr s : few n -> exec (cls n) (init n jobs sv) tr s ->
  exists tr' s' r, exec (cls n) s tr' s' /\ s_main s' = MDone r /\ ~ In Spurious tr'.
Proof.
  intros Hn H. remember (rank n s) as k eqn:Ek. revert tr s H Ek.
  induction k as [k IH] using lt_wf_ind. intros tr s H Ek.
  destruct (progress n jobs sv tr s Hn H) as [[r Hr]|(s1 & a & s2 & Hs1 & Hs2 & Ha)].
  - exists [], s, r. split; [constructor|]. split; [easy|intros []].
  - assert (Hex : exists tr1, exec (cls n) s tr1 s1 /\ rank n s1 <= rank n s /\ ~ In Spurious tr1).
    { destruct Hs1 as [->|Hs1]; [exists []; split; [constructor|]; split; [easy|intros []]|].
      exists [Idle]. split; [apply exec_one; easy|]. split; [|intros [E|[]]; discriminate].
      pose proof (rank_step n s _ _ (exec_len _ _ _ _ _ _ H) Hs1) as Hk. cbn in Hk. lia. }
    destruct Hex as (tr1 & He1 & Hle & Hno1).
    assert (He2 : exec (cls n) s (tr1 ++ [a]) s2) by (econstructor; eassumption).
    assert (Hsp : is_spurious a = false) by (destruct a; easy).
    assert (Hlt : rank n s2 < k).
    { pose proof (rank_step n s1 _ _ (exec_len _ _ _ _ _ _ (exec_app _ _ _ _ _ _ H He1)) Hs2) as Hk.
      rewrite Ha, Hsp in Hk. lia. }
    destruct (IH _ Hlt _ s2 (exec_app _ _ _ _ _ _ H He2) eq_refl) as (tr' & s' & r & He' & Hr & Hno).
    exists ((tr1 ++ [a]) ++ tr'), s', r. split; [eapply exec_app; eassumption|]. split; [easy|].
    rewrite !in_app_iff. intros [[Hi|[Hi|[]]]|Hi]; [easy|subst a; discriminate|easy].
Qed.

(** *** Stopping everything *)
Lemma stop_all_stopped cl f i : stopped cl (stop_all f) i = true.
Proof.
  unfold stopped. destruct (nth_error cl i) as [c|]; [|easy]. unfold must_stop.
  replace (nth (fst c) (stop_all f) 0%N) with 0%N; [easy|].
  unfold stop_all. generalize (fst c). induction f as [|w f IH]; intros [|k]; simpl; auto.
Qed.


Lemma killed_flags cl n jobs sv tr s : exec cl (init n jobs sv) tr s ->
  ending RKilled (s_main s) -> forall i, stopped cl (s_flags s) i = true.
Proof.
  induction 1 as [|tr s a s' H IH Hs]; intros He.
  - destruct He as [He|[He|[He|He]]]; discriminate.
  - unfold ending in *. inversion Hs; subst; sys_cbn;
      try (apply IH; assumption); try (intros i'; apply stop_all_stopped);
      try (destruct He as [He|[He|[He|He]]]; discriminate).
    + destruct He as [He|[He|[He|He]]]; try discriminate. injection He as He. subst r.
      match goal with E : _ \/ _ |- _ => destruct E; discriminate end.
    + destruct He as [He|[He|[He|He]]]; try discriminate. injection He as He. subst r.
      apply IH. match goal with E : s_main _ = _ |- _ => rewrite E end. auto.
    + destruct He as [He|[He|[He|He]]]; try discriminate. injection He as He. subst r.
      apply IH. match goal with E : s_main _ = _ |- _ => rewrite E end. auto.
    + destruct He as [He|[He|[He|He]]]; try discriminate. injection He as He.
      apply IH. destruct (existsb panicked (s_workers s)); [discriminate|]. subst r.
      match goal with E : s_main _ = _ |- _ => rewrite E end. auto.
Qed.

Lemma kill_seen cl s a s' : step cl a s s' -> s_main s = MLoop -> s_kill s = true -> s_remaining s <> 0 ->
  s_kill s' = true /\
  (s_main s' = MLoop /\ s_remaining s' = s_remaining s \/
   s_main s' = MClose RKilled /\ forall i, stopped cl (s_flags s') i = true).
Proof.
  intros Hs Em Ek Er.
  inversion Hs; subst; sys_cbn; try congruence; auto.
  split; [easy|]. right. split; [easy|]. intros i. apply stop_all_stopped.
Qed.

Lemma no_start_when_stopped cl a s s' i l j : step cl a s s' -> stopped cl (s_flags s) i = true ->
  nth_error (s_workers s') i = Some (WRunning l j) -> nth_error (s_workers s) i = Some (WRunning l j).
Proof.
  intros Hs Hst Hi.
  assert (Hwake : forall ws, nth_error (map wake ws) i = Some (WRunning l j) -> nth_error ws i = Some (WRunning l j)).
  { intros ws Hw. rewrite nth_error_map in Hw. destruct (nth_error ws i) as [[]|]; cbn in Hw; easy. }
  inversion Hs; subst; sys_cbn; try exact Hi; try (apply Hwake; exact Hi).
  - rewrite nth_error_set_nth in Hi. destruct (Nat.eqb_spec i0 i) as [->|Hne]; cbn [andb] in Hi; [|exact Hi].
    destruct (i <? length (s_workers s)); [|exact Hi]. injection Hi as ->.
    match goal with E : worker_step _ _ _ _ _ _ _ _ |- _ => inversion E; subst end. congruence.
  - rewrite nth_error_set_nth in Hi. destruct (_ && _); [discriminate|exact Hi].
  - match goal with E : wake_one _ _ |- _ => inversion E; subst end; [exact Hi|].
    rewrite nth_error_set_nth in Hi. destruct (_ && _); [discriminate|exact Hi].
Qed.

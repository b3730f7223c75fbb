(** Proofs about the threads: progress. *)
From Coq Require Import NArith Permutation.
From Verif Require Import Base Measure_Model Measure_Spec Measure_Proofs1 Measure_Proofs2 Measure_Proofs3
  Measure_Proofs4.
Local Open Scope nat_scope.

Definition is_open (m : main_state) : Prop := phase_of m = PStart \/ phase_of m = POpen.
Definition flags_inv (n : nat) (s : sys) : Prop :=
  is_open (s_main s) -> exists l, stops n l (s_flags s) /\ running n l <> [].
Definition dying (w : worker) : Prop :=
  match w with WDone _ | WSending _ (MKilled _) => True | _ => False end.
Definition dead_inv (n : nat) (s : sys) : Prop :=
  is_open (s_main s) ->
  forall i w, nth_error (s_workers s) i = Some w -> dying w ->
    stopped (cls n) (s_flags s) i = true \/ exists j, In (MErr j) (s_chan s).

Lemma flags_init n jobs sv : few n -> flags_inv n (init n jobs sv).
Proof.
  intros [Hn _] _. exists []. split; [constructor|]. unfold running.
  destruct n; [lia|]. easy.
Qed.
Lemma flags_step n s a s' : step (cls n) a s s' -> flags_inv n s -> flags_inv n s'.
Proof.
  intros Hs IH. unfold flags_inv, is_open in *.
  inversion Hs; subst; sys_cbn;
    try (match goal with E : s_main ?s = _ |- _ => rewrite E in IH end);
    cbn [phase_of] in *; try exact IH;
    try (intros _; apply IH; auto; fail); try (intros [H'|H']; discriminate).
  intros _. destruct (IH (or_intror eq_refl)) as (l & Hl & Hne).
  match goal with E : monitor_update ?e ?av _ _ = _ |- _ =>
    pose proof (update_ok n e av (s_server s) l _ Hl Hne) as Hu; rewrite E in Hu end.
  destruct Hu as (l' & Hs' & _ & _ & Hk). exists (l ++ l'). split; [easy|].
  destruct (kill_round_facts _ _ _ _ _ _ _ _ _ Hk Hne) as (Hk1 & _).
  intros E0. apply Hk1 in E0. discriminate.
Qed.

Lemma dying_wake w : dying (wake w) <-> dying w.
Proof. destruct w; easy. Qed.
Lemma dead_step n s a s' : length (s_workers s) = n ->
  (forall w, In w (s_workers s) -> last_ok s w) -> flags_inv n s ->
  step (cls n) a s s' -> dead_inv n s -> dead_inv n s'.
Proof.
  intros Hlen Hlast Hfl Hs IH. unfold dead_inv, flags_inv, is_open in *.
  inversion Hs; subst; sys_cbn;
    try (match goal with E : s_main ?s = _ |- _ => pose proof E as Em; rewrite Em in IH, Hfl end);
    cbn [phase_of] in *; try exact IH;
    try (match goal with E : s_chan ?s = _ |- _ => rewrite E in IH end);
    try (intros [H'|H']; discriminate).
  - (* worker *)
    intros Hop k x Hx Hd. rewrite nth_error_set_nth in Hx.
    assert (Hmono : (exists j, In (MErr j) (s_chan s)) -> exists j, In (MErr j) c').
    { intros (j & Hj). exists j.
      match goal with E : worker_step _ _ _ _ _ _ _ _ |- _ => inversion E; subst end;
        try exact Hj; apply in_app_iff; left; exact Hj. }
    destruct (Nat.eqb_spec i k) as [<-|Hik]; cbn [andb] in Hx.
    2: { destruct (IH Hop k x Hx Hd) as [?|?]; auto. }
    replace (i <? length (s_workers s)) with true in Hx
      by (symmetry; apply Nat.ltb_lt, nth_error_Some; congruence).
    injection Hx as <-.
    match goal with E : nth_error _ _ = Some w |- _ =>
      pose proof (IH Hop i w E) as Hi; pose proof (Hlast w (nth_error_In _ _ E)) as Hl end.
    match goal with E : worker_step _ _ _ _ _ _ _ _ |- _ => inversion E; subst end;
      cbn [dying] in *; try (exfalso; exact Hd); auto.
    + (* finished *) exfalso. destruct (Hl _ eq_refl) as [_ H'].
      destruct Hop as [Hop|Hop]; rewrite Hop in H'; specialize (H' ltac:(discriminate));
        unfold futex_finished in *; easy.
    + destruct (Hi I) as [?|?]; auto.
    + right. exists j. apply in_app_iff. right. left. easy.
    + right. exists j. apply in_app_iff. right. left. easy.
  - (* spurious *)
    intros Hop k x Hx Hd. rewrite nth_error_set_nth in Hx. destruct (_ && _).
    + injection Hx as <-. destruct Hd.
    + exact (IH Hop k x Hx Hd).
  - intros _. apply IH. auto.
  - (* start wake *)
    intros _ k x Hx Hd. rewrite nth_error_map in Hx.
    destruct (nth_error (s_workers s) k) as [w0|] eqn:E0; [|discriminate]. injection Hx as <-.
    apply (IH ltac:(auto) k w0 E0). apply dying_wake. easy.
  - (* recv killed *) intros _ k x Hx Hd. destruct (IH ltac:(auto) k x Hx Hd) as [?|(j' & [Hj|Hj])]; [auto|discriminate|].
    right. exists j'. easy.
  - intros _ k x Hx Hd. destruct (IH ltac:(auto) k x Hx Hd) as [?|(j' & [Hj|Hj])]; [auto|discriminate|].
    right. exists j'. easy.
  - (* timeout *)
    intros _ k x Hx Hd. destruct (IH ltac:(auto) k x Hx Hd) as [Hst|(j' & [])]. left.
    destruct (Hfl ltac:(auto)) as (l & Hl & Hne).
    match goal with E : monitor_update ?e ?av _ _ = _ |- _ =>
      pose proof (update_ok (length (s_workers s)) e av (s_server s) l _ Hl Hne) as Hu; rewrite E in Hu end.
    destruct Hu as (l' & Hs' & _ & _ & Hk).
    assert (Hk' : k < length (s_workers s)) by (apply nth_error_Some; congruence).
    apply not_false_iff_true. rewrite (stopped_running _ _ _ k Hs' Hk'), running_in. intros [_ Hnin].
    apply not_false_iff_true in Hst. apply Hst. apply (stopped_running _ _ _ k Hl Hk'). apply running_in.
    split; [easy|]. intros Hin. apply Hnin, in_app_iff. left. easy.
  - (* push wake *)
    intros _ k x Hx Hd.
    match goal with E : wake_one _ _ |- _ => inversion E; subst end.
    + exact (IH ltac:(auto) k x Hx Hd).
    + rewrite nth_error_set_nth in Hx. destruct (_ && _); [injection Hx as <-; destruct Hd|].
      exact (IH ltac:(auto) k x Hx Hd).
Qed.

(** All invariants together. *)
Record inv (n : nat) (s : sys) : Prop := {
  i_len : length (s_workers s) = n;
  i_fut : fut_inv n s;
  i_last : forall w, In w (s_workers s) -> last_ok s w;
  i_credit : credit s;
  i_flags : flags_inv n s;
  i_dead : dead_inv n s }.

Lemma inv_init n jobs sv : few n -> inv n (init n jobs sv).
Proof.
  intros Hn. constructor.
  - apply repeat_length.
  - apply fut_init.
  - intros w Hw. cbn [init s_workers] in Hw. apply repeat_spec in Hw. subst w. intros l E.
    injection E as <-. split; [easy|]. intros _. split; [easy|]. cbn. lia.
  - exact I.
  - apply flags_init. easy.
  - intros _ i w Hi Hd. cbn [init s_workers] in Hi. apply nth_error_In, repeat_spec in Hi. subst w. destruct Hd.
Qed.
Lemma inv_step n s a s' : few n -> inv n s -> step (cls n) a s s' -> inv n s'.
Proof.
  intros Hn [H1 H2 H3 H4 H5 H6] Hs. constructor.
  - inversion Hs; subst; sys_cbn; rewrite ?length_set_nth, ?map_length; try easy.
    match goal with E : wake_one _ _ |- _ => inversion E; subst; rewrite ?length_set_nth; easy end.
  - exact (fut_step n s a s' Hn Hs H2).
  - exact (last_step n s a s' Hn H2 Hs H3).
  - exact (credit_step n s a s' Hn H2 H3 Hs H4).
  - exact (flags_step n s a s' Hs H5).
  - exact (dead_step n s a s' H1 H3 H5 Hs H6).
Qed.
Lemma inv_exec n jobs sv tr s : few n -> exec (cls n) (init n jobs sv) tr s -> inv n s.
Proof.
  intros Hn H. induction H as [|tr s a s' H IH Hs]; [apply inv_init; easy|].
  exact (inv_step n s a s' Hn IH Hs).
Qed.

(** *** Progress *)
Lemma awake_steps futex st w q c : awake futex w -> exists q' c' w', worker_step futex st q c w q' c' w'.
Proof.
  destruct w as [l|l|l|l|l j|l j|l m|j|p]; cbn [awake]; intros H; try easy.
  - eexists _, _, _. apply w_signal. congruence.
  - eexists _, _, _. apply w_no_sleep. congruence.
  - destruct q as [|j q].
    + destruct (N.eq_dec l 0) as [E|E]; eexists _, _, _; [apply w_finished|apply w_empty]; easy.
    + eexists _, _, _. apply w_take.
  - destruct st; eexists _, _, _; [apply w_refuse|apply w_start]; easy.
  - eexists _, _, _. apply w_ok.
  - destruct m; eexists _, _, _; [apply w_send_ok|apply w_send_killed|apply w_send_err].
  - eexists _, _, _. apply w_send_panic.
Qed.
Lemma held_awake futex w : held w <> [] -> awake futex w.
Proof. destruct w; easy. Qed.
Lemma ck_awake futex w : 0 < ck futex w -> awake futex w.
Proof.
  destruct w as [l|l|l|l|l j|l j|l m|j|p]; cbn; try lia; try easy;
    (destruct (N.eqb_spec l futex); [lia|congruence]).
Qed.
Lemma idl_awake futex w : idl futex w = 0 -> awake futex w \/ done w = true.
Proof.
  destruct w as [l|l|l|l|l j|l j|l m|j|p]; cbn; try lia; try (left; exact I); try (right; reflexivity);
    (destruct (N.eqb_spec l futex); [discriminate|left; congruence]).
Qed.

(** With entries left and no result to receive, some worker is awake. *)
Lemma someone_awake n jobs sv tr s : few n -> exec (cls n) (init n jobs sv) tr s ->
  (s_main s = MLoop \/ s_main s = MRecv) -> s_chan s = [] -> s_remaining s <> 0 ->
  exists i w, nth_error (s_workers s) i = Some w /\ awake (s_futex s) w.
Proof.
  intros Hn H Hm Hc Hr. destruct (inv_exec n jobs sv tr s Hn H) as [I1 I2 I3 I4 I5 I6].
  pose proof (conservation _ _ _ _ _ _ H) as Hp. pose proof (books_ok _ _ _ _ _ _ H) as Hb.
  assert (Hop : is_open (s_main s)) by (right; destruct Hm as [-> | ->]; easy).
  destruct (concat (map held (s_workers s))) as [|j js] eqn:Eheld.
  2: { assert (Hin : In j (concat (map held (s_workers s)))) by (rewrite Eheld; left; easy).
       apply in_concat in Hin. destruct Hin as (h & Hh & Hj). apply in_map_iff in Hh.
       destruct Hh as (w & <- & Hw). apply In_nth_error in Hw. destruct Hw as (i & Hi).
       exists i, w. split; [easy|]. apply held_awake. intros E. rewrite E in Hj. destruct Hj. }
  (* failed is empty while open *)
  assert (Hfail : s_failed s = []).
  { clear - H Hop. revert Hop. induction H as [|tr s a s' H IH Hs]; intros Hop; [easy|].
    unfold is_open in *. inversion Hs; subst; sys_cbn; cbn [phase_of] in *;
      try (apply IH; assumption); try (destruct Hop; discriminate);
      try (match goal with E : s_main ?s = _ |- _ => rewrite E in IH end; apply IH; auto). }
  assert (Hq : s_queue s <> []).
  { intros Eq. unfold all_jobs in Hp. rewrite Eq, Eheld, Hc, Hfail in Hp.
    assert (Eh : in_hand (s_main s) = []) by (destruct Hm as [-> | ->]; easy).
    rewrite Eh, app_nil_r in Hp. cbn [app map] in Hp. apply Permutation_length in Hp.
    unfold books in Hb. assert (Hres : result (s_main s) = None) by (destruct Hm as [-> | ->]; easy).
    rewrite Hres in Hb. destruct (Hb ltac:(discriminate)) as (_ & Hb2 & _). lia. }
  assert (Hqpos : 0 < length (s_queue s)) by (destruct (s_queue s); [easy|simpl; lia]).
  destruct (Nat.eq_dec (wsum (idl (s_futex s)) (s_workers s)) 0) as [E0|E0].
  - destruct (I5 Hop) as (l & Hl & Hne). destruct (running n l) as [|i r] eqn:Er; [easy|].
    assert (Hi : In i (running n l)) by (rewrite Er; left; easy).
    assert (Hin : i < n) by (apply running_in in Hi; easy).
    destruct (nth_error (s_workers s) i) as [w|] eqn:Ew.
    2: { apply nth_error_None in Ew. lia. }
    exists i, w. split; [easy|].
    destruct (idl_awake (s_futex s) w) as [Ha|Hd]; [|exact Ha|].
    { apply (wsum_zero _ _ E0). eapply nth_error_In; eassumption. }
    exfalso. destruct w; try discriminate.
    destruct (I6 Hop i _ Ew I) as [Hst|(j & Hj)]; [|rewrite Hc in Hj; destruct Hj].
    apply (stopped_running n l _ i Hl Hin) in Hi. congruence.
  - unfold credit in I4.
    assert (Hle : length (s_queue s) <= wsum (ck (s_futex s)) (s_workers s)).
    { destruct Hm as [Em|Em]; rewrite Em in I4; apply I4; lia. }
    destruct (wsum_pos (ck (s_futex s)) (s_workers s) ltac:(lia)) as (i & w & Hi & Hw).
    exists i, w. split; [easy|]. apply ck_awake. easy.
Qed.

Lemma worker_can_step n s i w : nth_error (s_workers s) i = Some w -> awake (s_futex s) w ->
  exists s', step (cls n) (Worker i) s s'.
Proof.
  intros Hi Ha.
  destruct (awake_steps _ (stopped (cls n) (s_flags s) i) w (s_queue s) (s_chan s) Ha) as (q' & c' & w' & Hw).
  eexists. eapply st_worker; eassumption.
Qed.

Theorem progress n jobs sv tr s : few n -> exec (cls n) (init n jobs sv) tr s ->
  (exists r, s_main s = MDone r) \/
  exists s1 a s2, (s1 = s \/ step (cls n) Idle s s1) /\ step (cls n) a s1 s2 /\ productive a = true.
Proof.
  intros Hn H.
  assert (Hmain : forall s2, step (cls n) Main s s2 ->
    exists s1 a s2, (s1 = s \/ step (cls n) Idle s s1) /\ step (cls n) a s1 s2 /\ productive a = true)
    by (intros s2 Hs; exists s, Main, s2; auto).
  assert (Hrecv : forall s1, (s1 = s \/ step (cls n) Idle s s1) -> s_main s1 = MRecv -> s_chan s1 <> [] ->
    exists s1 a s2, (s1 = s \/ step (cls n) Idle s s1) /\ step (cls n) a s1 s2 /\ productive a = true).
  { intros s1 H1 Em Hc. destruct (s_chan s1) as [|[j|j|j] c] eqn:Ec; [easy| | |].
    - exists s1, Main. eexists. split; [exact H1|]. split; [|reflexivity]. eapply st_recv_ok; eassumption.
    - exists s1, Main. eexists. split; [exact H1|]. split; [|reflexivity]. eapply st_recv_killed; eassumption.
    - exists s1, Main. eexists. split; [exact H1|]. split; [|reflexivity]. eapply st_recv_err; eassumption. }
  assert (Hwork : (s_main s = MLoop \/ s_main s = MRecv) -> s_chan s = [] -> s_remaining s <> 0 ->
    exists s1 a s2, (s1 = s \/ step (cls n) Idle s s1) /\ step (cls n) a s1 s2 /\ productive a = true).
  { intros Hm Hc Hr. destruct (someone_awake n jobs sv tr s Hn H Hm Hc Hr) as (i & w & Hi & Ha).
    destruct (worker_can_step n s i w Hi Ha) as (s2 & Hs2). exists s, (Worker i), s2. auto. }
  destruct (s_main s) as [| | | |j| | |r|r|r|r] eqn:Em.
  - right. eapply Hmain. apply st_start. easy.
  - right. eapply Hmain. apply st_start_wake. easy.
  - right. destruct (Nat.eq_dec (s_remaining s) 0) as [Er|Er].
    + eapply Hmain. apply st_finish with (r := ROk); auto.
    + destruct (s_kill s) eqn:Ek.
      * eapply Hmain. apply st_killed; auto.
      * destruct (s_chan s) as [|m c] eqn:Ec; [apply Hwork; auto|].
        apply (Hrecv (to_main s MRecv)); [right; apply st_iterate; auto|easy|cbn; congruence].
  - right. destruct (s_chan s) as [|m c] eqn:Ec.
    + apply Hwork; auto. intros Er.
      (* the receiving state is only entered with entries left *)
      clear - H Em Er. revert Em Er. induction H as [|tr s a s' H IH Hs]; intros Em Er; [discriminate|].
      inversion Hs; subst; sys_cbn; try congruence; try (apply IH; assumption); try discriminate.
    + apply (Hrecv s); [auto|easy|congruence].
  - right. eapply Hmain. apply st_push. eassumption.
  - right. eapply Hmain. apply st_push_signal. easy.
  - right.
    assert (Hex : exists ws, wake_one (s_workers s) ws).
    { destruct (Nat.eq_dec (wsum slp (s_workers s)) 0) as [E0|E0].
      - exists (s_workers s). apply wake_one_none. intros l Hin.
        pose proof (wsum_zero _ _ E0 _ Hin) as Hz. discriminate.
      - destruct (wsum_pos slp (s_workers s) ltac:(lia)) as (i & w & Hi & Hw).
        destruct w; cbn in Hw; try lia. eexists. eapply wake_one_some. eassumption. }
    destruct Hex as (ws & Hws). eapply Hmain. eapply st_push_wake; eassumption.
  - right. eapply Hmain. eapply st_close. eassumption.
  - right. eapply Hmain. eapply st_close_wake. eassumption.
  - right. destruct (forallb done (s_workers s)) eqn:Ed.
    + eapply Hmain. eapply st_join; eassumption.
    + destruct (inv_exec n jobs sv tr s Hn H) as [I1 I2 I3 I4 I5 I6].
      assert (Hex : exists w, In w (s_workers s) /\ done w = false).
      { clear - Ed. induction (s_workers s) as [|w ws IH]; [discriminate|]. simpl in Ed.
        destruct (done w) eqn:E; [|exists w; split; [left; easy|easy]].
        destruct (IH Ed) as (w' & H1 & H2). exists w'. split; [right; easy|easy]. }
      destruct Hex as (w & Hw & Hd). pose proof (I3 w Hw) as Hl.
      unfold credit in I4. rewrite Em in I4. pose proof (wsum_zero _ _ I4 w Hw) as Hz.
      destruct I2 as [_ I2]. rewrite Em in I2. cbn [phase_of] in I2.
      apply In_nth_error in Hw. destruct Hw as (i & Hi).
      assert (Ha : awake (s_futex s) w).
      { rewrite I2. destruct w as [l|l|l|l|l j|l j|l m|j|p]; cbn in *; try easy;
          (apply (proj1 (Hl l eq_refl)); exact I). }
      destruct (worker_can_step n s i w Hi Ha) as (s2 & Hs2). exists s, (Worker i), s2. auto.
  - left. exists r. easy.
Qed.

(** In the joining phase, every worker that has not ended can act. *)
Theorem join_all_can_act n jobs sv tr s r : few n -> exec (cls n) (init n jobs sv) tr s ->
  s_main s = MJoin r -> forall i w, nth_error (s_workers s) i = Some w -> done w = false ->
  exists s', step (cls n) (Worker i) s s'.
Proof.
  intros Hn H Em i w Hi Hd. destruct (inv_exec n jobs sv tr s Hn H) as [I1 I2 I3 I4 I5 I6].
  pose proof (nth_error_In _ _ Hi) as Hw. pose proof (I3 w Hw) as Hl.
  unfold credit in I4. rewrite Em in I4. pose proof (wsum_zero _ _ I4 w Hw) as Hz.
  destruct I2 as [_ I2]. rewrite Em in I2. cbn [phase_of] in I2.
  apply (worker_can_step n s i w Hi).
  rewrite I2. destruct w as [l|l|l|l|l j|l j|l m|j|p]; cbn in *; try easy;
    (apply (proj1 (Hl l eq_refl)); exact I).
Qed.

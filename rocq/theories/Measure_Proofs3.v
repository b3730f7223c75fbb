(** Proofs about the threads: no job is lost or duplicated. *)
From Coq Require Import NArith Permutation.
From Verif Require Import Base Measure_Model Measure_Spec Measure_Proofs1 Measure_Proofs2.
Local Open Scope nat_scope.

Fixpoint wsum (g : worker -> nat) (ws : list worker) : nat :=
  match ws with [] => 0 | w :: r => g w + wsum g r end.
Lemma wsum_set g : forall ws i w w', nth_error ws i = Some w ->
  wsum g (set_nth ws i w') + g w = wsum g ws + g w'.
Proof.
  induction ws as [|x ws IH]; intros [|i] w w' H; simpl in *; try discriminate.
  - injection H as ->. lia.
  - specialize (IH i w w' H). lia.
Qed.
Lemma wsum_map g h ws : (forall w, g (h w) = g w) -> wsum g (map h ws) = wsum g ws.
Proof. intros H. induction ws as [|x ws IH]; simpl; [easy|]. rewrite H, IH. easy. Qed.
Lemma wsum_ext g h ws : (forall w, In w ws -> g w = h w) -> wsum g ws = wsum h ws.
Proof.
  induction ws as [|x ws IH]; intros H; simpl; [easy|].
  rewrite (H x (or_introl eq_refl)), IH; [easy|]. intros w Hw. apply H. right. easy.
Qed.
Lemma wsum_le g h ws : (forall w, In w ws -> g w <= h w) -> wsum g ws <= wsum h ws.
Proof.
  induction ws as [|x ws IH]; intros H; simpl; [lia|].
  pose proof (H x (or_introl eq_refl)). specialize (IH (fun w Hw => H w (or_intror Hw))). lia.
Qed.
Lemma wsum_in g ws w : In w ws -> g w <= wsum g ws.
Proof.
  induction ws as [|x ws IH]; intros H; simpl in *; [easy|].
  destruct H as [->|H]; [lia|]. specialize (IH H). lia.
Qed.
Lemma wsum_pos g ws : 0 < wsum g ws -> exists i w, nth_error ws i = Some w /\ 0 < g w.
Proof.
  induction ws as [|x ws IH]; simpl; intros H; [lia|].
  destruct (g x) as [|k] eqn:E.
  - destruct (IH ltac:(lia)) as (i & w & H1 & H2). exists (S i), w. easy.
  - exists 0, x. split; [easy|lia].
Qed.

Definition cnt (x : job) (l : list job) : nat := count_occ N.eq_dec l x.
Lemma cnt_app x a b : cnt x (a ++ b) = cnt x a + cnt x b.
Proof. apply count_occ_app. Qed.
Lemma cnt_held x ws : cnt x (concat (map held ws)) = wsum (fun w => cnt x (held w)) ws.
Proof.
  induction ws as [|w ws IH]; simpl; [easy|]. rewrite cnt_app, IH. easy.
Qed.
Definition tally (x : job) (s : sys) : nat :=
  cnt x (s_queue s) + wsum (fun w => cnt x (held w)) (s_workers s) + cnt x (map msg_job (s_chan s))
  + cnt x (in_hand (s_main s)) + cnt x (s_written s) + cnt x (s_failed s).
Lemma tally_all x s : cnt x (all_jobs s) = tally x s.
Proof. unfold all_jobs, tally. rewrite !cnt_app, cnt_held. lia. Qed.

Lemma worker_step_tally futex st q c w q' c' w' x :
  worker_step futex st q c w q' c' w' ->
  cnt x q + cnt x (held w) + cnt x (map msg_job c) = cnt x q' + cnt x (held w') + cnt x (map msg_job c').
Proof.
  intros H. inversion H; subst; simpl held; rewrite ?map_app, ?cnt_app; simpl map; try (cbn; lia).
  - change (j :: q') with ([j] ++ q'). rewrite cnt_app. cbn [cnt count_occ]. lia.
Qed.

Lemma wake_held x w : cnt x (held (wake w)) = cnt x (held w).
Proof. destruct w; easy. Qed.
Lemma wake_one_sum g ws ws' : wake_one ws ws' -> (forall l, g (WWaiting l) = g (WSleeping l)) ->
  wsum g ws' = wsum g ws.
Proof.
  intros H Hg. inversion H; subst; [easy|].
  match goal with E : nth_error _ _ = _ |- _ =>
    pose proof (wsum_set g _ _ _ (WWaiting last) E) as Hs end.
  rewrite Hg in Hs. lia.
Qed.

Ltac sys_cbn := cbn [s_queue s_futex s_flags s_chan s_workers s_main s_server s_kill s_remaining
  s_written s_callbacks s_failed to_main with_futex with_queue with_chan with_workers with_monitor
  with_kill row_written step_done job_failed in_hand] in *.

Lemma cnt_cons x j l : cnt x (j :: l) = cnt x [j] + cnt x l.
Proof. change (j :: l) with ([j] ++ l). apply cnt_app. Qed.

Lemma step_tally clients a s s' x : step clients a s s' -> tally x s' = tally x s.
Proof.
  intros H. unfold tally. inversion H; subst; sys_cbn; try easy;
    try (match goal with E : s_main ?s = _ |- _ => rewrite E end; sys_cbn);
    try (match goal with E : s_chan ?s = _ |- _ => rewrite E end; sys_cbn);
    try (rewrite ?map_cons; cbn [map msg_job]; rewrite ?cnt_app, ?(cnt_cons x _ (map _ _));
         cbn [cnt count_occ]; lia).
  - match goal with E : nth_error _ _ = _ |- _ =>
      pose proof (wsum_set (fun w => cnt x (held w)) _ _ _ w' E) as Hs end.
    match goal with E : worker_step _ _ _ _ _ _ _ _ |- _ =>
      pose proof (worker_step_tally _ _ _ _ _ _ _ _ x E) as Hw end.
    cbv beta in Hs. lia.
  - match goal with E : nth_error _ _ = _ |- _ =>
      pose proof (wsum_set (fun w => cnt x (held w)) _ _ _ (WWaiting last) E) as Hs end.
    cbv beta in Hs. cbn [held] in Hs. lia.
  - rewrite wsum_map by (intros; apply wake_held). easy.
  - match goal with E : wake_one _ _ |- _ =>
      rewrite (wake_one_sum (fun w => cnt x (held w)) _ _ E) by easy end. easy.
  - rewrite wsum_map by (intros; apply wake_held). easy.
Qed.

Theorem conservation clients n jobs sv tr s :
  exec clients (init n jobs sv) tr s -> Permutation jobs (all_jobs s).
Proof.
  intros H. apply (Permutation_count_occ N.eq_dec). intros x.
  change (cnt x jobs = cnt x (all_jobs s)). rewrite tally_all.
  induction H as [|tr s a s' H IH Hs].
  - unfold tally, init. sys_cbn. rewrite (wsum_ext _ (fun _ => 0)).
    2: { intros w Hw. apply repeat_spec in Hw. subst. easy. }
    assert (E : forall ws, wsum (fun _ => 0) ws = 0) by (induction ws; simpl in *; auto).
    rewrite E. cbn. lia.
  - rewrite (step_tally _ _ _ _ x Hs). exact IH.
Qed.

(** Bookkeeping of the main thread. *)
Definition result (m : main_state) : option measure_result :=
  match m with MClose r | MCloseWake r | MJoin r | MDone r => Some r | _ => None end.
Definition books (total : nat) (s : sys) : Prop :=
  result (s_main s) <> Some RPanicked ->
  s_callbacks s = length (s_written s) /\ s_remaining s + length (s_written s) = total /\
  (result (s_main s) = Some ROk -> s_remaining s = 0).

Lemma all_length jobs s : Permutation jobs (all_jobs s) ->
  length (s_written s) + length (s_chan s) <= length jobs.
Proof.
  intros H. apply Permutation_length in H. rewrite H. unfold all_jobs.
  rewrite !app_length, map_length. lia.
Qed.

Lemma books_ok clients n jobs sv tr s :
  exec clients (init n jobs sv) tr s -> books (length jobs) s.
Proof.
  induction 1 as [|tr s a s' H IH Hs].
  - intros _. unfold init. sys_cbn. simpl. split; [easy|]. split; [lia|easy].
  - pose proof (all_length jobs s (conservation _ _ _ _ _ _ H)) as Hlen.
    unfold books in *. inversion Hs; subst; sys_cbn; try exact IH;
      try (match goal with E : s_main ?s = _ |- _ => rewrite E in IH end; cbn [result] in *;
           intros Hne; specialize (IH ltac:(discriminate || congruence));
           destruct IH as (I1 & I2 & I3); split; [lia|]; split; [lia|]; intros E';
           first [discriminate|congruence|apply I3; congruence]).
    + match goal with E : s_main ?s = _ |- _ => rewrite E in IH end; cbn [result] in *.
      intros Hne. specialize (IH ltac:(discriminate)). destruct IH as (I1 & I2 & I3).
      match goal with E : s_chan ?s = _ |- _ => rewrite E in Hlen end. cbn [length] in Hlen.
      rewrite app_length. cbn [length]. split; [lia|]. split; [lia|]. discriminate.
    + intros Hne. cbn [result] in Hne. easy.
    + match goal with E : s_main ?s = _ |- _ => rewrite E in IH end; cbn [result] in *.
      intros Hne. destruct (existsb panicked (s_workers s)); [easy|].
      specialize (IH Hne). easy.
Qed.

Theorem success_exact clients n jobs sv tr s :
  exec clients (init n jobs sv) tr s -> s_main s = MDone ROk ->
  Permutation jobs (s_written s) /\ s_callbacks s = length jobs /\
  s_queue s = [] /\ s_chan s = [] /\ s_failed s = [].
Proof.
  intros H Hm. pose proof (conservation _ _ _ _ _ _ H) as Hp.
  pose proof (books_ok _ _ _ _ _ _ H) as Hb. unfold books in Hb. rewrite Hm in Hb. cbn [result] in Hb.
  destruct (Hb ltac:(discriminate)) as (H1 & H2 & H3). specialize (H3 eq_refl).
  assert (Hlen : length (all_jobs s) = length (s_written s))
    by (rewrite <- (Permutation_length Hp); lia).
  unfold all_jobs in Hlen, Hp. rewrite !app_length in Hlen.
  assert (Eq : s_queue s = []) by (apply length_zero_iff_nil; lia).
  assert (Ew : concat (map held (s_workers s)) = []) by (apply length_zero_iff_nil; lia).
  assert (Ec : map msg_job (s_chan s) = []) by (apply length_zero_iff_nil; lia).
  assert (Ef : s_failed s = []) by (apply length_zero_iff_nil; lia).
  rewrite Eq, Ew, Ec, Ef, Hm in Hp. cbn [app in_hand] in Hp. rewrite app_nil_r in Hp.
  split; [exact Hp|]. split; [lia|]. split; [easy|]. split; [|easy].
  destruct (s_chan s); [easy|discriminate].
Qed.

(** What a failed measurement leaves when no error is reported, and what a success means *)
From Coq Require Import Relation_Operators.
From Verif Require Import Base Files_Model Files_Spec Files_Proofs.

Lemma restore_silent f fault1 fault2 f' : restore_or_delete f fault1 fault2 = (f', false) ->
  (f_out f' = f_bak f /\ f_bak f' = None) \/ (f_out f' = None /\ f_bak f' = f_bak f).
Proof.
  unfold restore_or_delete, rename, remove_file. destruct f as [o b d n], fault1, fault2; cbn.
  - intros H; discriminate.
  - destruct o; cbn; intros H; injection H as <-; right; split; reflexivity.
  - destruct b; cbn; [intros H; injection H as <-; left; split; reflexivity|intros H; discriminate].
  - destruct b; cbn; [intros H; injection H as <-; left; split; reflexivity|].
    destruct o; cbn; intros H; injection H as <-; left; split; reflexivity.
Qed.

(** During a measurement the backup path has the previous trace *)
Lemma trace_silent faulty f0 m : fs_ok f0 -> trace_reach faulty false f0 m -> t_pc m = TFailed false ->
  (read (t_fs m) Out = match read f0 Out with Some T => Some T | None => read f0 Bak end /\ read (t_fs m) Bak = None) \/
  (read (t_fs m) Out = None /\ read (t_fs m) Bak = match read f0 Out with Some T => Some T | None => read f0 Bak end).
Proof.
  intros Hf0 Hr. induction Hr as [|m m' Hr IH Hs]; [discriminate|]. intros Hpc.
  pose proof (tinv_reach faulty f0 Hf0 m Hr) as Hi. unfold tinv in Hi.
  destruct Hs as [m fault f' ok Hpc' Hft Hb|m ok Hpc'|m f' op' Ha Hc|m success Hpc' Ha|m Hpc'|m Ha Hpc'|m fault f' e Hpc' Hft Hc|m fault1 fault2 f' e Hpc' Hft Hq];
    cbn [t_pc t_fs] in *; try discriminate; try (destruct ok; discriminate); try (destruct success; discriminate).
  - rewrite Hpc in Hi. destruct Hi as [Hi _]. congruence.
  - rewrite Hpc in Hi. destruct Hi as [Hi _]. congruence.
  - rewrite Hpc' in Hi. injection Hpc as ->. destruct Hi as ((Hok & Hbk & Hio) & Ha).
    pose proof (restore_spec faulty f0 _ _ _ _ _ (conj Hok (conj Hbk Hio)) Hft Hq) as (_ & _ & K3 & _).
    apply restore_silent in Hq.
    assert (R : option_map (f_data f') (bk f0) = match read f0 Out with Some T => Some T | None => read f0 Bak end).
    { rewrite K3. unfold read. cbn [entry]. unfold bk in *. destruct (f_out f0) as [i|]; cbn.
      - destruct (Hio i eq_refl) as [_ ->]. reflexivity.
      - destruct (f_bak f0) as [i|]; cbn; [|reflexivity]. destruct (Hio i eq_refl) as [_ ->]. reflexivity. }
    change (read f' Out) with (option_map (f_data f') (f_out f')). change (read f' Bak) with (option_map (f_data f') (f_bak f')).
    destruct Hq as [[-> ->]|[-> ->]]; rewrite Hbk; [left|right]; split; try reflexivity; exact R.
Qed.

(** A success that is reported comes from a thread that wrote a profile *)
Lemma success_ran faulty f0 m : build_reach faulty f0 m -> measure_profile_returns m = true ->
  b_thread m = HDone /\ b_success m = true /\
  exists m1 i, build_reach faulty f0 m1 /\ b_thread m1 = HRun i.
Proof.
  intros Hr. induction Hr as [|m m' Hr IH Hs]; [discriminate|]. unfold measure_profile_returns in *.
  destruct Hs as [m fault f' ok Hpc Hft Hb|m Hpc|m Hpc|m fault1 fault2 f' e Hpc Hft Hq|m Hpc Hd|m f' i Ht Hc|m Ht Hft|m i c Ht|m i ok Ht];
    cbn [b_outcome b_thread b_success] in *; try discriminate; try exact IH.
  - intros H. apply IH in H. destruct H as (H & _). congruence.
  - intros H. apply IH in H. destruct H as (H & _). congruence.
  - destruct ok; [|discriminate]. intros _. split; [reflexivity|]. split; [reflexivity|].
    exists m, i. split; assumption.
Qed.

(** A measurement can succeed with any output, and can always be cancelled. *)
Theorem trace_can_succeed f0 c : exists m, trace_reach false false f0 m /\
  t_pc m = TSuccess false /\ t_result m = Some c.
Proof.
  assert (Hb : backup_new f0 false = (fst (backup_new f0 false), true)).
  { unfold backup_new, rename. destruct (entry f0 Out); reflexivity. }
  set (f1 := fst (backup_new f0 false)) in *.
  destruct (create f1 Out) as [f2 i] eqn:E2.
  assert (Ho : f_out f2 = Some i).
  { revert E2. unfold create. cbn [entry]. destruct (f_out f1) eqn:E; intros H; injection H as <- <-; reflexivity. }
  assert (Hc : cleanup (write f2 i c) false = (fst (cleanup (write f2 i c) false), false)).
  { unfold cleanup, remove_file. destruct (entry (write f2 i c) Bak); reflexivity. }
  eexists. split; [|split].
  - eapply tr_step; [eapply tr_step; [eapply tr_step; [eapply tr_step; [eapply tr_step; [eapply tr_step; [apply tr_init|]|]|]|]|]|].
    + apply (ts_backup false false (trace_init f0) false f1 true); [reflexivity|discriminate|exact Hb].
    + match goal with |- trace_step _ _ ?m _ => apply (ts_start false false m true) end. reflexivity.
    + match goal with |- trace_step _ _ ?m _ => apply (ts_clang false false m f2 [i]) end; [reflexivity|].
      apply cw_create. exact E2.
    + match goal with |- trace_step _ _ ?m _ => apply (ts_clang false false m (write f2 i c) [i]) end; [reflexivity|].
      apply cw_write. left. reflexivity.
    + match goal with |- trace_step _ _ ?m _ => apply (ts_exit false false m true) end; reflexivity.
    + match goal with |- trace_step _ _ ?m _ => apply (ts_cleanup false false m false (fst (cleanup (write f2 i c) false)) false) end;
        [reflexivity|discriminate|exact Hc].
  - reflexivity.
  - cbn [t_result t_fs]. unfold read. cbn [entry write f_out]. rewrite Ho. unfold write. cbn [option_map f_data].
    now rewrite Nat.eqb_refl.
Qed.

(** From wherever it is, a measurement that has not ended can end. *)
Lemma run_step faulty lingers x y z : trace_step faulty lingers x y -> trace_run faulty lingers y z -> trace_run faulty lingers x z.
Proof. apply rt1n_trans. Qed.
Theorem trace_can_end faulty lingers m :
  exists m', trace_run faulty lingers m m' /\
    (t_pc m' = TRefused \/ exists e, t_pc m' = TSuccess e \/ t_pc m' = TFailed e) /\
    (forall e, t_pc m' = TSuccess e -> t_pc m = TCleanup \/ t_pc m = TSuccess e).
Proof.
  set (fails := fun x => exists m', trace_run faulty lingers x m' /\ exists e, t_pc m' = TFailed e).
  assert (HR : forall x, t_pc x = TRestore -> fails x).
  { intros x H. destruct (restore_or_delete (t_fs x) false false) as [f' e] eqn:E.
    eexists. split; [eapply run_step; [apply (ts_restore faulty lingers x false false f' e H)|constructor]|exists e; reflexivity];
      [intros [X|X]; discriminate|exact E]. }
  assert (HRun : forall x, t_pc x = TRun -> fails x).
  { intros x Hp. edestruct HR as (m' & Hr & He); [|exists m'; split; [eapply run_step; [apply (ts_kill faulty lingers x Hp)|exact Hr]|exact He]].
    reflexivity. }
  assert (HStart : forall x, t_pc x = TStart -> fails x).
  { intros x Hp. edestruct HRun as (m' & Hr & He); [|exists m'; split; [eapply run_step; [apply (ts_start faulty lingers x true Hp)|exact Hr]|exact He]].
    reflexivity. }
  assert (HW : fails m -> exists m', trace_run faulty lingers m m' /\
    (t_pc m' = TRefused \/ exists e, t_pc m' = TSuccess e \/ t_pc m' = TFailed e) /\
    (forall e, t_pc m' = TSuccess e -> t_pc m = TCleanup \/ t_pc m = TSuccess e)).
  { intros (m' & Hr & e & He). exists m'. split; [exact Hr|]. split; [right; exists e; right; exact He|].
    intros e' X. rewrite He in X. discriminate. }
  destruct (t_pc m) eqn:Hp.
  - apply HW. assert (Hb : backup_new (t_fs m) false = (fst (backup_new (t_fs m) false), true)).
    { unfold backup_new, rename. destruct (entry (t_fs m) Out); reflexivity. }
    edestruct HStart as (m' & Hr & He);
      [|exists m'; split; [eapply run_step; [apply (ts_backup faulty lingers m false _ true Hp ltac:(discriminate) Hb)|exact Hr]|exact He]].
    reflexivity.
  - apply HW, (HStart m Hp).
  - apply HW, (HRun m Hp).
  - destruct (cleanup (t_fs m) false) as [f' e] eqn:Hc. eexists.
    split; [eapply run_step; [apply (ts_cleanup faulty lingers m false f' e Hp ltac:(discriminate) Hc)|constructor]|].
    split; [right; exists e; left; reflexivity|]. intros e' _. left. reflexivity.
  - apply HW, (HR m Hp).
  - exists m. split; [constructor|]. split; [left; exact Hp|]. intros e X. congruence.
  - exists m. split; [constructor|]. split; [right; exists error; left; exact Hp|]. intros e X. right. congruence.
  - exists m. split; [constructor|]. split; [right; exists error; right; exact Hp|]. intros e X. congruence.
Qed.

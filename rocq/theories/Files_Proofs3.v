(** When errors of the backup are reported. *)
From Verif Require Import Base Files_Model Files_Spec.
Local Open Scope nat_scope. Local Open Scope bool_scope. Local Open Scope list_scope.

Lemma removed f n fault f' r : remove_file f n fault = (f', r) ->
  (r = IoOther -> fault = true) /\ (r <> IoOther -> entry f' n = None).
Proof.
  unfold remove_file. destruct fault; [intros [= <- <-]; split; [reflexivity|congruence]|].
  destruct (entry f n) eqn:E; intros [= <- <-]; (split; [discriminate|intros _]); [destruct n; reflexivity|exact E].
Qed.
Lemma renamed f a b fault f' r : rename f a b fault = (f', r) -> r = IoOther -> fault = true.
Proof. unfold rename. destruct fault; [reflexivity|]. destruct (entry f a); intros [= <- <-]; discriminate. Qed.
Lemma backup_refused f fault f' : backup_new f fault = (f', false) -> fault = true.
Proof.
  unfold backup_new. destruct (rename f Out Bak fault) as [g r] eqn:E0. pose proof (renamed _ _ _ _ _ _ E0) as E.
  destruct r; [discriminate|discriminate|]. intros _. now apply E.
Qed.
Lemma cleanup_end f fault f' e : cleanup f fault = (f', e) ->
  (e = true -> fault = true) /\ (e = false -> entry f' Bak = None).
Proof.
  unfold cleanup. destruct (remove_file f Bak fault) as [g r] eqn:E. apply removed in E as [E1 E2].
  destruct r; intros [= <- <-]; (split; [|]); try discriminate; intros _; ((now apply E1) || (apply E2; discriminate)).
Qed.
Lemma restore_error f a b f' : restore_or_delete f a b = (f', true) -> b = true.
Proof.
  unfold restore_or_delete. destruct (rename f Bak Out a) as [g r].
  destruct r; [discriminate| |]; (destruct (remove_file g Out b) as [h q] eqn:E; apply removed in E as [E _];
    destruct q; try discriminate; intros _; now apply E).
Qed.
Lemma clang_leaves_backup f op f' op' : clang_writes f op f' op' -> f_bak f' = f_bak f.
Proof.
  intros H. destruct H as [f op f' i H|f op i c H|f op]; [|reflexivity|].
  - unfold create in H. destruct (entry f Out); injection H as <- _; reflexivity.
  - unfold remove_file. destruct (entry f Out); reflexivity.
Qed.

Lemma reported faulty lingers f0 m : trace_reach faulty lingers f0 m ->
  (t_pc m = TRefused \/ t_pc m = TSuccess true \/ t_pc m = TFailed true -> faulty = true) /\
  (t_pc m = TSuccess false -> read (t_fs m) Bak = None).
Proof.
  induction 1 as [|m m' _ IH S]; [split; [intros [H|[H|H]]; discriminate H|discriminate]|].
  destruct S as [m fault f' ok Hp Hf Hb|m ok Hp|m f' op' Ha Hw|m success Hp Ha|m Hp|m Ha Hp|m fault f' e Hp Hf Hc|m a b f' e Hp Hf Hr];
    cbn [t_pc t_fs].
  - destruct ok; (split; [|discriminate]); intros [H|[H|H]]; try discriminate. apply Hf. eapply backup_refused. exact Hb.
  - destruct ok; (split; [|discriminate]); intros [H|[H|H]]; discriminate.
  - destruct IH as [I1 I2]. split; [exact I1|]. intros H. specialize (I2 H). apply clang_leaves_backup in Hw.
    unfold read, entry in *. rewrite Hw. destruct (f_bak (t_fs m)); [discriminate|reflexivity].
  - destruct success; (split; [|discriminate]); intros [H|[H|H]]; discriminate.
  - split; [|discriminate]. intros [H|[H|H]]; discriminate.
  - exact IH.
  - apply cleanup_end in Hc as [H1 H2]. split.
    + intros [H|[H|H]]; try discriminate. injection H as ->. auto.
    + intros [= ->]. unfold read. now rewrite H2.
  - split; [|discriminate]. intros [H|[H|H]]; try discriminate. injection H as ->. apply restore_error in Hr. auto.
Qed.

Lemma build_reported faulty f0 m : build_reach faulty f0 m ->
  b_ui m = URefused \/ b_restored m = Some true -> faulty = true.
Proof.
  induction 1 as [|m m' _ IH S]; [intros [H|H]; discriminate H|].
  destruct S as [m fault f' ok Hp Hf Hb|m Hp|m Hp|m a b f' e Hp Hf Hr|m Hp Hj|m f' i Ht Hc|m Ht Hf|m i c Ht|m i ok Ht];
    cbn [b_ui b_restored].
  - destruct ok; intros [H|H]; try discriminate. apply Hf. eapply backup_refused. exact Hb.
  - intros [H|H]; [discriminate|]. apply IH. now right.
  - intros [H|H]; [destruct (b_success m); discriminate|]. apply IH. now right.
  - intros [H|H]; [discriminate|]. injection H as ->. apply restore_error in Hr. auto.
  - intros [H|H]; [discriminate|]. apply IH. now right.
  - exact IH.
  - intros _. exact Hf.
  - exact IH.
  - exact IH.
Qed.

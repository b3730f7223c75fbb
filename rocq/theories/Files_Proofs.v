(** Proofs about the files of measurements. *)
From Verif Require Import Base Files_Model Files_Spec.

Definition inode_ok (f : fs) (bk : option nat) (d : nat -> str) : Prop :=
  forall i, bk = Some i -> i < f_next f /\ f_data f i = d i.

(** *** File operations *)
Lemma create_spec f f' i : fs_ok f -> create f Out = (f', i) ->
  fs_ok f' /\ f_bak f' = f_bak f /\ f_out f' = Some i /\ i < f_next f' /\ f_next f <= f_next f' /\
  f_data f' i = [] /\ (forall j, j <> i -> f_data f' j = f_data f j) /\
  (f_out f = Some i \/ (f_out f = None /\ i = f_next f)).
Proof.
  intros [H1 H2]. unfold create. cbn [entry]. destruct (f_out f) as [k|] eqn:E; intros H; injection H as <- <-.
  - split.
    { split; [intros [] j Hj; cbn in Hj; [apply (H1 Out); cbn; congruence|apply (H1 Bak); exact Hj]|intros j; exact (H2 j)]. }
    cbn. split; [easy|]. split; [easy|]. split; [apply (H1 Out); exact E|]. split; [lia|]. split; [now rewrite Nat.eqb_refl|].
    split; [|auto]. intros j Hj. destruct (Nat.eqb_spec j k); [contradiction|easy].
  - cbn [set_entry f_out f_bak f_data f_next]. split.
    { split; cbn.
      - intros [] j Hj; cbn in Hj; [injection Hj as <-; lia|]. specialize (H1 Bak j Hj). lia.
      - intros j Hj Hb. injection Hj as <-. specialize (H1 Bak _ Hb). lia. }
    split; [easy|]. split; [easy|]. split; [lia|]. split; [lia|]. split; [now rewrite Nat.eqb_refl|].
    split; [|auto]. intros j Hj. destruct (Nat.eqb_spec j (f_next f)); [contradiction|easy].
Qed.
Lemma write_spec f i c : fs_ok f ->
  fs_ok (write f i c) /\ f_bak (write f i c) = f_bak f /\ f_out (write f i c) = f_out f /\ f_next (write f i c) = f_next f /\
  f_data (write f i c) i = c /\ (forall j, j <> i -> f_data (write f i c) j = f_data f j).
Proof.
  intros [H1 H2]. split; [split; [intros [] j; [exact (H1 Out j)|exact (H1 Bak j)]|exact H2]|]. cbn.
  rewrite Nat.eqb_refl. repeat split.
  intros j Hj. destruct (Nat.eqb_spec j i); [contradiction|easy].
Qed.
Lemma remove_spec f n fault f' r : fs_ok f -> remove_file f n fault = (f', r) ->
  fs_ok f' /\ f_next f' = f_next f /\ f_data f' = f_data f /\
  (r = IoOther -> fault = true) /\
  (r = IoOther /\ f' = f \/ r <> IoOther /\ entry f' n = None /\ forall n', n' <> n -> entry f' n' = entry f n').
Proof.
  intros [H1 H2]. unfold remove_file. destruct fault.
  { intros H. injection H as <- <-. split; [easy|]. repeat split. left. split; reflexivity. }
  destruct (entry f n) as [i|] eqn:E; intros H; injection H as <- <-.
  - destruct n; cbn in *.
    + split; [split; cbn|].
      * intros [] j Hj; cbn in Hj; [discriminate|exact (H1 Bak j Hj)].
      * intros j Hj. discriminate.
      * split; [easy|]. split; [easy|]. split; [discriminate|]. right. split; [discriminate|]. split; [easy|].
        intros [] Hn; easy.
    + split; [split; cbn|].
      * intros [] j Hj; cbn in Hj; [exact (H1 Out j Hj)|discriminate].
      * intros j Hj. discriminate.
      * split; [easy|]. split; [easy|]. split; [discriminate|]. right. split; [discriminate|]. split; [easy|].
        intros [] Hn; easy.
  - split; [easy|]. split; [easy|]. split; [easy|]. split; [discriminate|]. right. split; [discriminate|]. auto.
Qed.
Lemma rename_spec f a b fault f' r : a <> b -> fs_ok f -> rename f a b fault = (f', r) ->
  fs_ok f' /\ f_next f' = f_next f /\ f_data f' = f_data f /\
  (r = IoOther -> fault = true) /\
  (match r with
   | IoOk => entry f a <> None /\ entry f' b = entry f a /\ entry f' a = None
   | IoNotFound => entry f a = None /\ f' = f
   | IoOther => f' = f
   end).
Proof.
  intros Hab [H1 H2]. unfold rename. destruct fault; [intros H; injection H as <- <-; easy|].
  destruct (entry f a) as [i|] eqn:E; intros H; injection H as <- <-; [|easy].
  destruct a, b; try easy; cbn in *.
  - split; [split; cbn|].
    + intros [] j Hj; cbn in Hj; [discriminate|]. injection Hj as <-. exact (H1 Out i E).
    + discriminate.
    + repeat split; discriminate || auto.
  - split; [split; cbn|].
    + intros [] j Hj; cbn in Hj; [|discriminate]. injection Hj as <-. exact (H1 Bak i E).
    + discriminate.
    + repeat split; discriminate || auto.
Qed.

(** *** Traces *)
Section Trace.
  Variables faulty : bool.
  Variable f0 : fs.
  Hypothesis Hf0 : fs_ok f0.

  (** The file that the backup path should refer to during the measurement *)
  Definition bk : option nat := match f_out f0 with Some i => Some i | None => f_bak f0 end.
  Lemma bk_lt i : bk = Some i -> i < f_next f0.
  Proof.
    unfold bk. destruct Hf0 as [H1 _]. destruct (f_out f0) as [j|] eqn:E; intros H.
    - injection H as <-. apply (H1 Out). exact E.
    - apply (H1 Bak). exact H.
  Qed.

  Definition during (f : fs) : Prop :=
    fs_ok f /\ f_bak f = bk /\ inode_ok f bk (f_data f0).
  Definition tinv (m : trace_measure) : Prop :=
    match t_pc m with
    | TBackup => m = trace_init f0
    | TStart => during (t_fs m) /\ t_alive m = false /\ f_out (t_fs m) = None
    | TRun => during (t_fs m) /\ (forall i, In i (t_open m) -> i < f_next (t_fs m) /\ bk <> Some i)
    | TCleanup => during (t_fs m) /\ t_alive m = false /\ t_result m = read (t_fs m) Out
    | TRestore => during (t_fs m) /\ t_alive m = false
    | TRefused => t_fs m = f0 /\ t_alive m = false
    | TSuccess e => t_alive m = false /\ fs_ok (t_fs m) /\ read (t_fs m) Out = t_result m /\ (faulty = false -> f_bak (t_fs m) = None)
    | TFailed e => t_alive m = false /\ fs_ok (t_fs m) /\ inode_ok (t_fs m) bk (f_data f0) /\
        ((f_out (t_fs m) = bk /\ f_bak (t_fs m) = None) \/ (faulty = true /\ f_bak (t_fs m) = bk))
    end.

  Lemma backup_spec fault f' ok : (fault = true -> faulty = true) -> backup_new f0 fault = (f', ok) ->
    if ok then during f' /\ f_out f' = None else f' = f0.
  Proof.
    intros Hft. unfold backup_new. destruct (rename f0 Out Bak fault) as [f1 r] eqn:E.
    apply rename_spec in E; [|discriminate|exact Hf0]. destruct E as (K1 & K2 & K3 & K4 & K5).
    assert (Hin : inode_ok f1 bk (f_data f0)).
    { intros i Hi. rewrite K2, K3. split; [apply bk_lt; exact Hi|reflexivity]. }
    destruct r; intros H; injection H as <- <-.
    - cbn [entry] in K5. destruct K5 as (Hn & Hb & Ho). split; [|exact Ho]. split; [exact K1|]. split; [|exact Hin].
      unfold bk. destruct (f_out f0); [exact Hb|]. contradiction.
    - cbn [entry] in K5. destruct K5 as (Ho & ->). split; [|exact Ho]. split; [exact K1|]. split; [|exact Hin].
      unfold bk. rewrite Ho. reflexivity.
    - exact K5.
  Qed.
  Lemma restore_spec f fault1 fault2 f' e : during f -> (fault1 = true \/ fault2 = true -> faulty = true) ->
    restore_or_delete f fault1 fault2 = (f', e) ->
    fs_ok f' /\ f_next f' = f_next f /\ f_data f' = f_data f /\
    ((f_out f' = bk /\ f_bak f' = None) \/ (faulty = true /\ f_bak f' = bk)).
  Proof.
    intros (Hok & Hb & Hi) Hft. unfold restore_or_delete. destruct (rename f Bak Out fault1) as [f1 r1] eqn:E1.
    apply rename_spec in E1; [|discriminate|exact Hok]. destruct E1 as (K1 & K2 & K3 & K4 & K5).
    destruct r1.
    - intros H. injection H as <- <-. split; [easy|]. split; [easy|]. split; [easy|]. left. cbn [entry] in K5.
      destruct K5 as (_ & Ho & Hbk). split; [congruence|easy].
    - destruct K5 as (Hbn & ->). cbn [entry] in Hbn. destruct (remove_file f Out fault2) as [f2 r2] eqn:E2.
      apply remove_spec in E2; [|exact Hok]. destruct E2 as (L1 & L2 & L3 & L4 & L5).
      intros H. assert (Hf : f' = f2) by (destruct r2; injection H as <- _; reflexivity). subst f'.
      split; [easy|]. split; [easy|]. split; [easy|].
      destruct L5 as [[-> ->]|(_ & Ho & Hrest)].
      + right. split; [apply Hft; right; apply L4; reflexivity|exact Hb].
      + left. cbn [entry] in Ho. specialize (Hrest Bak ltac:(discriminate)). cbn [entry] in Hrest. split; congruence.
    - subst f1. destruct (remove_file f Out fault2) as [f2 r2] eqn:E2.
      apply remove_spec in E2; [|exact Hok]. destruct E2 as (L1 & L2 & L3 & L4 & L5).
      intros H. assert (Hf : f' = f2) by (destruct r2; injection H as <- _; reflexivity). subst f'.
      split; [easy|]. split; [easy|]. split; [easy|]. right. split; [apply Hft; left; apply K4; reflexivity|].
      destruct L5 as [[_ ->]|(_ & _ & Hrest)]; [exact Hb|].
      specialize (Hrest Bak ltac:(discriminate)). cbn [entry] in Hrest. congruence.
  Qed.

  Lemma tinv_step m m' : tinv m -> trace_step faulty false m m' -> tinv m'.
  Proof.
    intros Hi Hs. destruct Hs as [m fault f' ok Hpc Hft Hb|m ok Hpc|m f' op' Ha Hc|m success Hpc Ha|m Hpc|m Ha Hpc|m fault f' e Hpc Hft Hc|m fault1 fault2 f' e Hpc Hft Hr];
      unfold tinv in Hi; try rewrite Hpc in Hi.
    - subst m. cbn in Hb. apply backup_spec in Hb; [|exact Hft]. unfold tinv. destruct ok; cbn; [|easy].
      destruct Hb as [Hd Ho]. easy.
    - destruct Hi as (Hd & Ha & Ho). unfold tinv. destruct ok; cbn; [|easy]. split; [exact Hd|]. intros i [].
    - assert (Hrun : t_pc m = TRun).
      { destruct (t_pc m) eqn:Epc; try (destruct Hi as [? ?]; congruence); try (destruct Hi as [? [? ?]]; congruence); try reflexivity.
        subst m. discriminate. }
      rewrite Hrun in Hi. unfold tinv. cbn [t_pc t_fs t_open]. rewrite Hrun. destruct Hi as ((Hok & Hb & Hio) & Hop).
      destruct Hc as [f op f' i E|f op i c Hin|f op].
      + apply create_spec in E; [|exact Hok]. destruct E as (K1 & K2 & K3 & K4 & K5 & K6 & K7 & K8).
        assert (Hne : bk <> Some i).
        { intros Hbi. destruct K8 as [K8|[_ ->]].
          - destruct Hok as [_ Hok]. apply (Hok i K8). congruence.
          - apply Hio in Hbi. lia. }
        split.
        * split; [exact K1|]. split; [congruence|]. intros j Hj. destruct (Hio j Hj) as [Hl Hd]. split; [lia|].
          rewrite K7; [exact Hd|]. intros ->. contradiction.
        * intros j [<-|Hj]; [split; [lia|exact Hne]|]. destruct (Hop j Hj) as [Hl Hn]. split; [lia|exact Hn].
      + destruct (write_spec f i c Hok) as (K1 & K2 & K3 & K4 & K5 & K6). split.
        * split; [exact K1|]. split; [congruence|]. intros j Hj. destruct (Hio j Hj) as [Hl Hd]. rewrite K4. split; [exact Hl|].
          rewrite K6; [exact Hd|]. intros ->. destruct (Hop i Hin) as [_ Hn]. contradiction.
        * rewrite K4. exact Hop.
      + destruct (remove_file f Out false) as [f2 r] eqn:E. apply remove_spec in E; [|exact Hok]. cbn [fst].
        destruct E as (K1 & K2 & K3 & K4 & K5). unfold inode_ok. split.
        * split; [exact K1|]. split.
          -- destruct K5 as [[_ ->]|(_ & _ & K5)]; [exact Hb|]. specialize (K5 Bak ltac:(discriminate)). cbn [entry] in K5. congruence.
          -- intros j Hj. destruct (Hio j Hj) as [Hl Hd]. rewrite K2, K3. easy.
        * rewrite K2. exact Hop.
    - destruct Hi as (Hd & Hop). unfold tinv. destruct success; cbn; easy.
    - destruct Hi as (Hd & Hop). unfold tinv. cbn. easy.
    - exfalso. destruct (t_pc m) eqn:Epc; try (destruct Hi as [? ?]; congruence); try (destruct Hi as [? [? ?]]; congruence).
      subst m. discriminate.
    - destruct Hi as ((Hok & Hb & Hio) & Ha & Hres). unfold tinv. cbn [t_pc t_alive t_fs t_result].
      split; [exact Ha|]. unfold cleanup in Hc. destruct (remove_file (t_fs m) Bak fault) as [f1 r] eqn:E.
      apply remove_spec in E; [|exact Hok]. destruct E as (K1 & K2 & K3 & K4 & K5).
      assert (Hf : f' = f1) by (destruct r; injection Hc as <- _; reflexivity). subst f'.
      split; [exact K1|]. destruct K5 as [[-> ->]|(_ & Kn & K5)].
      + split; [symmetry; exact Hres|]. intros Hnf. rewrite Hft in Hnf by (apply K4; reflexivity). discriminate.
      + specialize (K5 Out ltac:(discriminate)). unfold read in *. rewrite K5, K3. split; [symmetry; exact Hres|]. intros _. exact Kn.
    - destruct Hi as (Hd & Ha). unfold tinv. cbn [t_pc t_alive t_fs]. split; [exact Ha|].
      pose proof (restore_spec _ _ _ _ _ Hd Hft Hr) as (K1 & K2 & K3 & K4). split; [exact K1|]. split; [|exact K4].
      destruct Hd as (_ & _ & Hio). intros i Hi. rewrite K2, K3. apply Hio. exact Hi.
  Qed.
  Lemma tinv_reach m : trace_reach faulty false f0 m -> tinv m.
  Proof. induction 1 as [|m m' _ IH Hs]; [reflexivity|]. eapply tinv_step; eassumption. Qed.

  Lemma bk_read T : read f0 Out = Some T -> exists i, bk = Some i /\ f_data f0 i = T.
  Proof.
    unfold read, bk. cbn [entry]. destruct (f_out f0) as [i|]; [|discriminate]. cbn. intros H. injection H as <-. eauto.
  Qed.
  Lemma bk_found f n T : inode_ok f bk (f_data f0) -> entry f n = bk -> read f0 Out = Some T -> read f n = Some T.
  Proof.
    intros Hi He HT. destruct (bk_read T HT) as (i & Hb & Hd). unfold read. rewrite He, Hb. cbn.
    destruct (Hi i Hb) as [_ ->]. rewrite Hd. reflexivity.
  Qed.

  Theorem trace_kept T m : read f0 Out = Some T -> trace_reach faulty false f0 m ->
    (forall e, t_pc m <> TSuccess e) -> read (t_fs m) Out = Some T \/ read (t_fs m) Bak = Some T.
  Proof.
    intros HT Hr Hns. pose proof (tinv_reach m Hr) as Hi. unfold tinv in Hi. destruct (t_pc m) eqn:Epc.
    - subst m. left. exact HT.
    - destruct Hi as ((_ & Hb & Hio) & _). right. apply bk_found; easy.
    - destruct Hi as ((_ & Hb & Hio) & _). right. apply bk_found; easy.
    - destruct Hi as ((_ & Hb & Hio) & _). right. apply bk_found; easy.
    - destruct Hi as ((_ & Hb & Hio) & _). right. apply bk_found; easy.
    - destruct Hi as [-> _]. left. exact HT.
    - exfalso. eapply Hns. reflexivity.
    - destruct Hi as (_ & _ & Hio & [[Ho _]|[_ Hb]]); [left|right]; apply bk_found; easy.
  Qed.
End Trace.

Theorem trace_restored f0 m e : fs_ok f0 -> trace_reach false false f0 m -> t_pc m = TFailed e ->
  read (t_fs m) Bak = None /\
  read (t_fs m) Out = match read f0 Out with Some T => Some T | None => read f0 Bak end.
Proof.
  intros Hf0 Hr Hpc. pose proof (tinv_reach false f0 Hf0 m Hr) as Hi. unfold tinv in Hi. rewrite Hpc in Hi.
  destruct Hi as (_ & _ & Hio & [[Ho Hb]|[H _]]); [|discriminate].
  unfold read. cbn [entry]. rewrite Ho, Hb. split; [reflexivity|]. unfold bk in *.
  destruct (f_out f0) as [i|]; cbn.
  - destruct (Hio i eq_refl) as [_ ->]. reflexivity.
  - destruct (f_bak f0) as [i|]; cbn; [|reflexivity]. destruct (Hio i eq_refl) as [_ ->]. reflexivity.
Qed.
Theorem trace_success f0 m e : fs_ok f0 -> trace_reach false false f0 m -> t_pc m = TSuccess e ->
  read (t_fs m) Bak = None /\ read (t_fs m) Out = t_result m.
Proof.
  intros Hf0 Hr Hpc. pose proof (tinv_reach false f0 Hf0 m Hr) as Hi. unfold tinv in Hi. rewrite Hpc in Hi.
  destruct Hi as (_ & _ & Ho & Hb). split; [|exact Ho]. unfold read. cbn [entry]. rewrite Hb by reflexivity. reflexivity.
Qed.
Lemma reach_fs_ok f0 m : fs_ok f0 -> trace_reach false false f0 m -> (exists e, t_pc m = TFailed e) \/ (exists e, t_pc m = TSuccess e) ->
  fs_ok (t_fs m).
Proof.
  intros Hf0 Hr Hpc. pose proof (tinv_reach false f0 Hf0 m Hr) as Hi. unfold tinv in Hi.
  destruct Hpc as [[e Hpc]|[e Hpc]]; rewrite Hpc in Hi; apply Hi.
Qed.

Theorem session_right f l f' : session f l f' -> fs_ok f -> read f Bak = None ->
  read f' Bak = None /\ read f' Out = expected (read f Out) l.
Proof.
  induction 1 as [f|f l m Hr Hpc f' H IH|f l m Hr Hpc f' H IH]; intros Hok Hb.
  - easy.
  - pose proof (trace_success f m false Hok Hr Hpc) as [Hb' Ho']. cbn [expected].
    destruct IH as [H1 H2]; [eapply reach_fs_ok; eauto|exact Hb'|]. split; [exact H1|]. rewrite H2, Ho'. reflexivity.
  - pose proof (trace_restored f m false Hok Hr Hpc) as [Hb' Ho']. cbn [expected].
    destruct IH as [H1 H2]; [eapply reach_fs_ok; eauto|exact Hb'|]. split; [exact H1|]. rewrite H2, Ho', Hb.
    destruct (read f Out); reflexivity.
Qed.

(** *** Full-build profiles *)
Section Build.
  Variables faulty : bool.
  Variable f0 : fs.
  Hypothesis Hf0 : fs_ok f0.
  Notation bk := (bk f0).

  Definition binv (m : build_measure) : Prop :=
    match b_ui m with
    | UBackup => m = build_init f0
    | URefused => b_fs m = f0 /\ b_thread m = HNone /\ b_restored m = None
    | _ =>
        fs_ok (b_fs m) /\
        (b_thread m <> HNone) /\
        (b_success m = true -> b_thread m = HDone /\ b_outcome m = Some true) /\
        (forall i, b_thread m = HRun i -> i < f_next (b_fs m)) /\
        match b_restored m with
        | None =>
            f_bak (b_fs m) = bk /\ inode_ok (b_fs m) bk (f_data f0) /\
            (forall i, b_thread m = HRun i -> bk <> Some i /\ f_out (b_fs m) = Some i) /\
            (b_ui m = UJoin \/ b_ui m = UOver -> b_success m = true) /\
            (b_success m = true -> exists i, f_out (b_fs m) = Some i)
        | Some e =>
            (b_ui m = UJoin \/ b_ui m = UOver) /\
            (faulty = false -> b_early m = false ->
               b_thread m <> HCreate /\
               f_out (b_fs m) = bk /\ f_bak (b_fs m) = None /\ inode_ok (b_fs m) bk (f_data f0) /\
               (forall i, b_thread m = HRun i -> bk <> Some i))
        end
    end.

  Lemma binv_step m m' : binv m -> build_step faulty m m' -> binv m'.
  Proof.
    intros Hi Hs.
    destruct Hs as [m fault f' ok Hpc Hft Hb|m Hpc|m Hpc|m fault1 fault2 f' e Hpc Hft Hr|m Hpc Hd|m f' i Ht Hc|m Ht Hft|m i c Ht|m i ok Ht].
    - unfold binv in Hi. rewrite Hpc in Hi. subst m. apply (backup_spec faulty f0 Hf0) in Hb; [|exact Hft].
      unfold binv. destruct ok; cbn.
      + destruct Hb as ((K1 & K2 & K3) & K4). split; [exact K1|]. split; [discriminate|]. split; [discriminate|].
        split; [discriminate|]. split; [exact K2|]. split; [exact K3|]. split; [discriminate|].
        split; [intros [H|H]; discriminate|discriminate].
      + split; [exact Hb|]. split; reflexivity.
    - unfold binv in *. rewrite Hpc in Hi. cbn [b_ui b_fs b_thread b_success b_restored b_outcome b_early].
      destruct Hi as (K1 & K2 & K3 & K4 & K5). split; [exact K1|]. split; [exact K2|]. split; [exact K3|]. split; [exact K4|].
      destruct (b_restored m) as [e|].
      + destruct K5 as [[H|H] _]; discriminate.
      + destruct K5 as (L1 & L2 & L3 & L4 & L5). split; [exact L1|]. split; [exact L2|]. split; [exact L3|].
        split; [intros [H|H]; discriminate|exact L5].
    - unfold binv in *. rewrite Hpc in Hi. destruct Hi as (K1 & K2 & K3 & K4 & K5).
      cbn [b_ui b_fs b_thread b_success b_restored b_outcome b_early].
      destruct (b_success m) eqn:Es.
      + split; [exact K1|]. split; [exact K2|]. split; [exact K3|]. split; [exact K4|]. destruct (b_restored m) as [e|].
        * destruct K5 as [[H|H] _]; discriminate.
        * destruct K5 as (L1 & L2 & L3 & L4 & L5). split; [exact L1|]. split; [exact L2|]. split; [exact L3|]. auto.
      + split; [exact K1|]. split; [exact K2|]. split; [exact K3|]. split; [exact K4|]. destruct (b_restored m) as [e|].
        * destruct K5 as [[H|H] _]; discriminate.
        * destruct K5 as (L1 & L2 & L3 & L4 & L5). split; [exact L1|]. split; [exact L2|]. split; [exact L3|].
          split; [intros [H|H]; discriminate|exact L5].
    - unfold binv in *. rewrite Hpc in Hi. destruct Hi as (K1 & K2 & K3 & K4 & K5).
      cbn [b_ui b_fs b_thread b_success b_restored b_outcome b_early].
      destruct (b_restored m) as [e'|].
      { destruct K5 as [[H|H] _]; discriminate. }
      destruct K5 as (L1 & L2 & L3 & L4 & L5).
      pose proof (restore_spec faulty f0 _ _ _ _ _ (conj K1 (conj L1 L2)) Hft Hr) as (M1 & M2 & M3 & M4).
      split; [exact M1|]. split; [exact K2|]. split; [exact K3|]. split; [rewrite M2; exact K4|].
      split; [left; reflexivity|]. intros Hnf He. split; [destruct (b_thread m); discriminate|].
      destruct M4 as [[Ho Hb]|[H _]]; [|congruence]. split; [exact Ho|]. split; [exact Hb|]. split.
      + intros j Hj. rewrite M2, M3. apply L2. exact Hj.
      + intros j Hj. apply L3. exact Hj.
    - unfold binv in *. rewrite Hpc in Hi. destruct Hi as (K1 & K2 & K3 & K4 & K5).
      cbn [b_ui b_fs b_thread b_success b_restored b_outcome b_early].
      rewrite Hd. split; [exact K1|]. split; [discriminate|]. split; [intros H; split; [reflexivity|apply K3; exact H]|]. split; [discriminate|].
      destruct (b_restored m) as [e'|].
      + destruct K5 as [_ K5]. split; [right; reflexivity|]. intros Hnf He. destruct (K5 Hnf He) as (L1 & L2 & L3 & L4 & L5).
        split; [discriminate|]. split; [exact L2|]. split; [exact L3|]. split; [exact L4|discriminate].
      + destruct K5 as (L1 & L2 & L3 & L4 & L5). split; [exact L1|]. split; [exact L2|]. split; [discriminate|].
        split; [intros _; apply L4; left; reflexivity|exact L5].
    - (* create *)
      unfold binv in *. cbn [b_ui b_fs b_thread b_success b_restored b_outcome b_early].
      destruct (b_ui m) eqn:Eu; [subst m; discriminate| | | | | destruct Hi as (_ & H & _); congruence | ].
      all: destruct Hi as (K1 & K2 & K3 & K4 & K5); apply create_spec in Hc; [|exact K1];
        destruct Hc as (M1 & M2 & M3 & M4 & M5 & M6 & M7 & M8);
        (split; [exact M1|]; split; [discriminate|]; split; [intros H; apply K3 in H; destruct H; congruence|];
         split; [intros j Hj; injection Hj as <-; exact M4|]);
        (destruct (b_restored m) as [e|];
         [ destruct K5 as [K5 K6]; split; [exact K5|]; intros Hnf He; destruct (K6 Hnf He) as (L1 & _); contradiction
         | destruct K5 as (L1 & L2 & L3 & L4 & L5);
           assert (Hne : bk <> Some i) by
             (intros Hbi; destruct M8 as [M8|[_ ->]];
              [destruct K1 as [_ K1]; apply (K1 i M8); congruence|apply L2 in Hbi; lia]);
           split; [congruence|]; split;
           [ intros j Hj; destruct (L2 j Hj) as [Hl Hd]; split; [lia|]; rewrite M7; [exact Hd|intros ->; contradiction]
           | split; [intros j Hj; injection Hj as <-; auto|]; split; [exact L4|intros _; exists i; exact M3] ] ]).
    - unfold binv in *. cbn [b_ui b_fs b_thread b_success b_restored b_outcome b_early].
      destruct (b_ui m) eqn:Eu; [subst m; discriminate| | | | | destruct Hi as (_ & H & _); congruence | ].
      all: destruct Hi as (K1 & K2 & K3 & K4 & K5);
        (split; [exact K1|]; split; [discriminate|]; split; [discriminate|]; split; [discriminate|]);
        (destruct (b_restored m) as [e|];
         [ destruct K5 as [K5 K6]; split; [exact K5|]; intros Hnf; congruence
         | destruct K5 as (L1 & L2 & L3 & L4 & L5); split; [exact L1|]; split; [exact L2|]; split; [discriminate|];
           split; [intros H; apply L4 in H; apply K3 in H; destruct H; congruence|discriminate] ]).
    - unfold binv in *. cbn [b_ui b_fs b_thread b_success b_restored b_outcome b_early].
      destruct (b_ui m) eqn:Eu; [subst m; discriminate| | | | | destruct Hi as (_ & H & _); congruence | ].
      all: destruct Hi as (K1 & K2 & K3 & K4 & K5); destruct (write_spec (b_fs m) i c K1) as (M1 & M2 & M3 & M4 & M5 & M6);
        (split; [exact M1|]; split; [discriminate|]; split; [intros H; apply K3 in H; destruct H; congruence|];
         split; [intros j Hj; injection Hj as <-; rewrite M4; apply K4; exact Ht|]);
        (destruct (b_restored m) as [e|];
         [ destruct K5 as [K5 K6]; split; [exact K5|]; intros Hnf He; destruct (K6 Hnf He) as (L1 & L2 & L3 & L4 & L5);
           split; [discriminate|]; split; [congruence|]; split; [congruence|]; split;
           [ intros j Hj; destruct (L4 j Hj) as [Hl Hd]; rewrite M4; split; [exact Hl|]; rewrite M6; [exact Hd|];
             intros ->; apply (L5 i Ht); exact Hj
           | intros j Hj; injection Hj as <-; apply L5; exact Ht ]
         | destruct K5 as (L1 & L2 & L3 & L4 & L5); split; [congruence|]; split;
           [ intros j Hj; destruct (L2 j Hj) as [Hl Hd]; rewrite M4; split; [exact Hl|]; rewrite M6; [exact Hd|];
             intros ->; apply (L3 i Ht); exact Hj
           | split; [intros j Hj; injection Hj as <-; rewrite M3; apply L3; exact Ht|]; split; [exact L4|rewrite M3; exact L5] ] ]).
    - unfold binv in *. cbn [b_ui b_fs b_thread b_success b_restored b_outcome b_early].
      destruct (b_ui m) eqn:Eu; [subst m; discriminate| | | | | destruct Hi as (_ & H & _); congruence | ].
      all: destruct Hi as (K1 & K2 & K3 & K4 & K5);
        (split; [exact K1|]; split; [discriminate|]; split; [intros ->; split; reflexivity|]; split; [discriminate|]);
        (destruct (b_restored m) as [e|];
         [ destruct K5 as [K5 K6]; split; [exact K5|]; intros Hnf He; destruct (K6 Hnf He) as (L1 & L2 & L3 & L4 & L5);
           split; [discriminate|]; split; [exact L2|]; split; [exact L3|]; split; [exact L4|discriminate]
         | destruct K5 as (L1 & L2 & L3 & L4 & L5); split; [exact L1|]; split; [exact L2|]; split; [discriminate|];
           split; [intros H; apply L4 in H; apply K3 in H; destruct H; congruence|intros _; exists i; apply L3; exact Ht] ]).
  Qed.
  Lemma binv_reach m : build_reach faulty f0 m -> binv m.
  Proof. induction 1 as [|m m' _ IH Hs]; [reflexivity|]. eapply binv_step; eassumption. Qed.

  (** Until it is restored, the previous profile is at the backup path. *)
  Theorem profile_kept T m : read f0 Out = Some T -> build_reach faulty f0 m -> b_restored m = None ->
    read (b_fs m) Out = Some T \/ read (b_fs m) Bak = Some T.
  Proof.
    intros HT Hr Hn. pose proof (binv_reach m Hr) as Hi. unfold binv in Hi. destruct (b_ui m) eqn:Eu.
    - subst m. left. exact HT.
    - rewrite Hn in Hi. destruct Hi as (_ & _ & _ & _ & L1 & L2 & _). right. apply (bk_found f0); easy.
    - rewrite Hn in Hi. destruct Hi as (_ & _ & _ & _ & L1 & L2 & _). right. apply (bk_found f0); easy.
    - rewrite Hn in Hi. destruct Hi as (_ & _ & _ & _ & L1 & L2 & _). right. apply (bk_found f0); easy.
    - rewrite Hn in Hi. destruct Hi as (_ & _ & _ & _ & L1 & L2 & _). right. apply (bk_found f0); easy.
    - destruct Hi as [-> _]. left. exact HT.
    - rewrite Hn in Hi. destruct Hi as (_ & _ & _ & _ & L1 & L2 & _). right. apply (bk_found f0); easy.
  Qed.
  (** When the measurement is over and was not undone, it succeeded; the backup remains. *)
  Theorem profile_success m : build_reach faulty f0 m -> b_ui m = UOver -> b_restored m = None ->
    measure_profile_returns m = true /\ read (b_fs m) Out <> None /\
    read (b_fs m) Bak = match read f0 Out with Some T => Some T | None => read f0 Bak end.
  Proof.
    intros Hr Hu Hn. pose proof (binv_reach m Hr) as Hi. unfold binv in Hi. rewrite Hu, Hn in Hi.
    destruct Hi as (_ & _ & K3 & _ & L1 & L2 & _ & L4 & L5). specialize (L4 (or_intror eq_refl)).
    split; [unfold measure_profile_returns; destruct (K3 L4) as [_ ->]; reflexivity|].
    destruct (L5 L4) as (i & Hi). unfold read. cbn [entry]. rewrite Hi, L1. split; [discriminate|]. unfold Files_Proofs.bk in *.
    destruct (f_out f0) as [j|]; cbn.
    - destruct (L2 j eq_refl) as [_ ->]. reflexivity.
    - destruct (f_bak f0) as [j|]; cbn; [|reflexivity]. destruct (L2 j eq_refl) as [_ ->]. reflexivity.
  Qed.
End Build.
(** When measure_profile returns, nothing happens to the files any more. *)
Theorem over_is_final faulty f0 m m' : build_reach faulty f0 m -> b_ui m = UOver -> ~ build_step faulty m m'.
Proof.
  intros Hr Hu.
  assert (Hd : b_thread m = HDone).
  { revert Hu. induction Hr as [|m1 m2 Hr IH Hs]; [discriminate|].
    destruct Hs as [m fault f' ok Hpc Hft Hb|m Hpc|m Hpc|m fault1 fault2 f' e Hpc Hft Hr'|m Hpc Hd|m f' i Ht Hc|m Ht Hft|m i c Ht|m i ok Ht];
      cbn [b_ui b_thread]; intros Hu.
    - destruct ok; discriminate.
    - discriminate.
    - destruct (b_success m); discriminate.
    - discriminate.
    - exact Hd.
    - specialize (IH Hu). congruence.
    - reflexivity.
    - specialize (IH Hu). congruence.
    - reflexivity. }
  intros Hs. destruct Hs; congruence.
Qed.
(** When the thread has created its file before the restoration, the previous profile is back, for good. *)
Theorem profile_restored f0 m e : fs_ok f0 -> build_reach false f0 m -> b_restored m = Some e -> b_early m = false ->
  read (b_fs m) Bak = None /\
  read (b_fs m) Out = match read f0 Out with Some T => Some T | None => read f0 Bak end.
Proof.
  intros Hf0 Hr Hn He. pose proof (binv_reach false f0 Hf0 m Hr) as Hi. unfold binv in Hi.
  assert (H : f_out (b_fs m) = bk f0 /\ f_bak (b_fs m) = None /\ inode_ok (b_fs m) (bk f0) (f_data f0)).
  { destruct (b_ui m) eqn:Eu.
    - subst m. discriminate.
    - rewrite Hn in Hi. destruct Hi as (_ & _ & _ & _ & _ & Hi). destruct (Hi eq_refl He) as (_ & H1 & H2 & H3 & _). auto.
    - rewrite Hn in Hi. destruct Hi as (_ & _ & _ & _ & _ & Hi). destruct (Hi eq_refl He) as (_ & H1 & H2 & H3 & _). auto.
    - rewrite Hn in Hi. destruct Hi as (_ & _ & _ & _ & _ & Hi). destruct (Hi eq_refl He) as (_ & H1 & H2 & H3 & _). auto.
    - rewrite Hn in Hi. destruct Hi as (_ & _ & _ & _ & _ & Hi). destruct (Hi eq_refl He) as (_ & H1 & H2 & H3 & _). auto.
    - destruct Hi as (_ & _ & Hi). congruence.
    - rewrite Hn in Hi. destruct Hi as (_ & _ & _ & _ & _ & Hi). destruct (Hi eq_refl He) as (_ & H1 & H2 & H3 & _). auto. }
  destruct H as (Ho & Hb & Hio). unfold read. cbn [entry]. rewrite Ho, Hb. split; [reflexivity|]. unfold bk in *.
  destruct (f_out f0) as [i|]; cbn.
  - destruct (Hio i eq_refl) as [_ ->]. reflexivity.
  - destruct (f_bak f0) as [i|]; cbn; [|reflexivity]. destruct (Hio i eq_refl) as [_ ->]. reflexivity.
Qed.

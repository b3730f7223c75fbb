(** Proofs about the threads: no wakeup is lost. *)
From Coq Require Import NArith Permutation.
From Verif Require Import Base Measure_Model Measure_Spec Measure_Proofs1 Measure_Proofs2 Measure_Proofs3.
Local Open Scope nat_scope.

Definition cls (n : nat) : list stop_client := map client_of (seq 0 n).
Lemma stopped_running n l f i : stops n l f -> i < n ->
  stopped (cls n) f i = false <-> In i (running n l).
Proof.
  intros Hs Hi. unfold stopped, cls. rewrite nth_error_map.
  rewrite (nth_error_nth' _ 0) by (rewrite seq_length; lia). rewrite seq_nth by lia. cbn [option_map].
  destruct (stops_repr n l f Hs) as (Hr & _ & _). simpl plus.
  rewrite (must_stop_repr n f _ i Hr Hi), running_in, negb_involutive, <- not_true_iff_false, existsb_exists.
  split.
  - intros H. split; [easy|]. intros Hin. apply H. exists i. split; [easy|apply Nat.eqb_refl].
  - intros [_ H] (j & Hj & E). apply Nat.eqb_eq in E. subst. easy.
Qed.

(** *** Classes of workers *)
Definition live (w : worker) : nat := if done w then 0 else 1.
Definition ck (f : N) (w : worker) : nat :=
  match w with
  | WLooking _ => 1
  | WWaiting last | WCalling last => if N.eqb last f then 0 else 1
  | _ => 0
  end.
Definition eqi (f : N) (w : worker) : nat :=
  match w with
  | WWaiting last | WCalling last | WSleeping last => if N.eqb last f then 1 else 0
  | _ => 0
  end.
Definition slp (w : worker) : nat := match w with WSleeping _ => 1 | _ => 0 end.
Definition idl (f : N) (w : worker) : nat :=
  match w with
  | WWaiting last | WCalling last => if N.eqb last f then 1 else 0
  | WSleeping _ => 1
  | _ => 0
  end.
Definition kch (c : list msg) : nat :=
  length (filter (fun m => match m with MKilled _ => true | _ => false end) c).
Definition pp (m : main_state) : nat := match m with MPush _ | MPushSignal => 1 | _ => 0 end.
Lemma kch_app a b : kch (a ++ b) = kch a + kch b.
Proof. unfold kch. rewrite filter_app, app_length. easy. Qed.

Inductive phase := PStart | POpen | PClose | PClosed.
Definition phase_of (m : main_state) : phase :=
  match m with
  | MStart => PStart
  | MClose _ => PClose
  | MCloseWake _ | MJoin _ | MDone _ => PClosed
  | _ => POpen
  end.

(** *** Number of workers *)
Lemma exec_len cl n jobs sv tr s : exec cl (init n jobs sv) tr s -> length (s_workers s) = n.
Proof.
  induction 1 as [|tr s a s' H IH Hs]; [apply repeat_length|].
  inversion Hs; subst; sys_cbn; rewrite ?length_set_nth, ?map_length; try easy.
  match goal with E : wake_one _ _ |- _ => inversion E; subst; rewrite ?length_set_nth; easy end.
Qed.

(** *** Futex *)
Definition fut_inv (n : nat) (s : sys) : Prop :=
  wsum live (s_workers s) + kch (s_chan s) + pp (s_main s) <= n /\
  match phase_of (s_main s) with
  | PStart => s_futex s = 1%N
  | PClosed => s_futex s = 0%N
  | _ => (2 <= s_futex s)%N /\
         N.to_nat (s_futex s) + wsum live (s_workers s) + kch (s_chan s) + pp (s_main s) <= n + 2
  end.
Lemma worker_step_live futex st q c w q' c' w' : worker_step futex st q c w q' c' w' ->
  live w' + kch c' <= live w + kch c.
Proof. intros H. inversion H; subst; rewrite ?kch_app; cbn; lia. Qed.
Lemma wake_live w : live (wake w) = live w.
Proof. destruct w; easy. Qed.

Lemma fut_step n s a s' : few n -> step (cls n) a s s' -> fut_inv n s -> fut_inv n s'.
Proof.
  intros [_ Hn] Hs [H1 H2]. unfold fut_inv.
  inversion Hs; subst; sys_cbn;
    try (match goal with E : s_main ?s = _ |- _ => rewrite E in H1, H2 end);
    try (match goal with E : s_chan ?s = _ |- _ => rewrite E in H1, H2; try rewrite E end);
    cbn [phase_of pp] in *; unfold futex_initial; change (N.to_nat (1 + 1)) with 2;
    try (unfold kch in *; cbn [filter length] in *; split; [lia|]; try lia; easy).
  - match goal with E : nth_error _ _ = _ |- _ =>
      pose proof (wsum_set live _ _ _ w' E) as Hw end.
    match goal with E : worker_step _ _ _ _ _ _ _ _ |- _ =>
      pose proof (worker_step_live _ _ _ _ _ _ _ _ E) as Hl end.
    split; [lia|]. destruct (phase_of (s_main s)); try easy; lia.
  - match goal with E : nth_error _ _ = _ |- _ =>
      pose proof (wsum_set live _ _ _ (WWaiting last) E) as Hw end.
    cbn [live done] in Hw. split; [lia|]. destruct (phase_of (s_main s)); try easy; lia.
  - rewrite wsum_map by (intros; apply wake_live). easy.
  - split; [lia|]. destruct H2 as [H2 H3]. unfold futex_next.
    destruct (N.eqb_spec (s_futex s) (2 ^ 32 - 1)) as [E|E].
    + exfalso. rewrite E in H3. change (2 ^ 32 - 1)%N with 4294967295%N in *.
      change (2 ^ 32)%N with 4294967296%N in *. lia.
    + rewrite N2Nat.inj_add. change (N.to_nat 1) with 1. lia.
  - match goal with E : wake_one _ _ |- _ =>
      rewrite (wake_one_sum live _ _ E) by easy end. split; [lia|]. lia.
  - rewrite wsum_map by (intros; apply wake_live). easy.
Qed.

Lemma wsum_const k ws : wsum (fun _ => k) ws = k * length ws.
Proof. induction ws; simpl; lia. Qed.
Lemma wsum_repeat g w n : wsum g (repeat w n) = n * g w.
Proof. induction n; simpl; lia. Qed.

Lemma fut_init n jobs sv : fut_inv n (init n jobs sv).
Proof. unfold fut_inv, init. sys_cbn. rewrite wsum_repeat. cbn. split; [lia|easy]. Qed.

(** *** Last observed values *)
Definition last_of (w : worker) : option N :=
  match w with
  | WWaiting l | WCalling l | WSleeping l | WLooking l | WTook l _ | WRunning l _ | WSending l _ => Some l
  | _ => None
  end.
Definition waits (w : worker) : Prop :=
  match w with WWaiting _ | WCalling _ | WSleeping _ => True | _ => False end.
Definition last_ok (s : sys) (w : worker) : Prop :=
  forall l, last_of w = Some l ->
    (waits w -> l <> 0%N) /\
    (phase_of (s_main s) <> PClosed -> l <> 0%N /\ (l <= s_futex s)%N).

Lemma in_set_nth {A} (l : list A) i x y : In y (set_nth l i x) -> y = x \/ In y l.
Proof.
  intros H. apply In_nth_error in H. destruct H as [j H]. rewrite nth_error_set_nth in H.
  destruct (_ && _); [left; congruence|right; eapply nth_error_In; eassumption].
Qed.

Ltac keep IH :=
  intros l El; destruct (IH l El) as [K1 K2]; split; [exact K1|];
  first [intros _; apply K2; discriminate|intros Hp; exfalso; apply Hp; reflexivity].

Lemma last_step n s a s' : few n -> fut_inv n s -> step (cls n) a s s' ->
  (forall w, In w (s_workers s) -> last_ok s w) -> (forall w, In w (s_workers s') -> last_ok s' w).
Proof.
  intros [_ Hn] Hfut Hs IH.
  assert (Hwake : forall m, phase_of m <> PClosed \/ phase_of (s_main s) = PClosed ->
    (phase_of m <> PClosed -> phase_of (s_main s) <> PClosed) ->
    forall w, In w (map wake (s_workers s)) -> last_ok (to_main (with_workers s (map wake (s_workers s))) m) w).
  { intros m Hm Hm' w Hw. apply in_map_iff in Hw. destruct Hw as (w0 & <- & Hw0).
    specialize (IH w0 Hw0). unfold last_ok in *. sys_cbn. intros l Hl.
    destruct w0; cbn [wake last_of waits] in *; specialize (IH l Hl); (split; [easy|]);
      intros Hp; apply IH; auto. }
  inversion Hs; subst; sys_cbn;
    try (match goal with E : s_main ?s = _ |- _ => pose proof E as Em end).
  - (* worker *)
    intros x Hx. apply in_set_nth in Hx. destruct Hx as [->|Hx]; [|apply (IH x Hx)].
    assert (Hw : last_ok s w) by (apply IH; eapply nth_error_In; eassumption).
    unfold last_ok in *. sys_cbn. destruct Hfut as [_ Hfut].
    match goal with E : worker_step _ _ _ _ _ _ _ _ |- _ => inversion E; subst end;
      cbn [last_of waits] in *; intros l El; try discriminate; injection El as <-;
      try (specialize (Hw _ eq_refl)); try easy.
    (* signal *) split; [easy|]. intros Hp. destruct (Hw) as [_ Hw2].
      specialize (Hw2 Hp). destruct (phase_of (s_main s)); try easy; lia.
  - intros x Hx. apply in_set_nth in Hx. destruct Hx as [->|Hx]; [|apply (IH x Hx)].
    assert (Hw : last_ok s (WSleeping last)) by (apply IH; eapply nth_error_In; eassumption).
    exact Hw.
  - exact IH.
  - intros x Hx. exact (IH x Hx).
  - (* start *) intros x Hx. specialize (IH x Hx). unfold last_ok in *. sys_cbn. rewrite Em in IH.
    destruct Hfut as [_ Hfut]. rewrite Em in Hfut. cbn [phase_of] in *. intros l El.
    specialize (IH l El). destruct IH as [I1 I2]. split; [exact I1|]. intros _.
    specialize (I2 ltac:(discriminate)). rewrite Hfut in I2. unfold futex_initial. lia.
  - apply Hwake; rewrite Em; cbn; try (left; discriminate); discriminate.
  - intros x Hx. specialize (IH x Hx). unfold last_ok in *. sys_cbn. rewrite Em in IH. keep IH.
  - intros x Hx. specialize (IH x Hx). unfold last_ok in *. sys_cbn. rewrite Em in IH. keep IH.
  - intros x Hx. specialize (IH x Hx). unfold last_ok in *. sys_cbn. rewrite Em in IH. keep IH.
  - intros x Hx. specialize (IH x Hx). unfold last_ok in *. sys_cbn. rewrite Em in IH. keep IH.
  - intros x Hx. specialize (IH x Hx). unfold last_ok in *. sys_cbn. rewrite Em in IH. keep IH.
  - intros x Hx. specialize (IH x Hx). unfold last_ok in *. sys_cbn. rewrite Em in IH. keep IH.
  - intros x Hx. specialize (IH x Hx). unfold last_ok in *. sys_cbn. rewrite Em in IH. keep IH.
  - intros x Hx. specialize (IH x Hx). unfold last_ok in *. sys_cbn. rewrite Em in IH. keep IH.
  - intros x Hx. specialize (IH x Hx). unfold last_ok in *. sys_cbn. rewrite Em in IH. keep IH.
  - intros x Hx. specialize (IH x Hx). unfold last_ok in *. sys_cbn. rewrite Em in IH. keep IH.
  - intros x Hx. specialize (IH x Hx). unfold last_ok in *. sys_cbn. rewrite Em in IH. keep IH.
  - intros x Hx. specialize (IH x Hx). unfold last_ok in *. sys_cbn. rewrite Em in IH. keep IH.
  - (* push signal *) intros x Hx. specialize (IH x Hx). unfold last_ok in *. sys_cbn. rewrite Em in IH.
    destruct Hfut as [_ Hfut]. rewrite Em in Hfut. cbn [phase_of] in *. intros l El.
    specialize (IH l El). destruct IH as [I1 I2]. split; [exact I1|]. intros _.
    specialize (I2 ltac:(discriminate)). unfold futex_next.
    destruct (N.eqb_spec (s_futex s) (2 ^ 32 - 1)) as [E|E]; [|lia].
    exfalso. rewrite E in Hfut. change (2 ^ 32 - 1)%N with 4294967295%N in *.
    change (2 ^ 32)%N with 4294967296%N in *. lia.
  - (* push wake *) intros x Hx.
    match goal with E : wake_one _ _ |- _ => inversion E; subst end.
    + specialize (IH x Hx). unfold last_ok in *. sys_cbn. rewrite Em in IH. keep IH.
    + apply in_set_nth in Hx. destruct Hx as [->|Hx].
      * assert (Hw : last_ok s (WSleeping last)) by (apply IH; eapply nth_error_In; eassumption).
        unfold last_ok in *. sys_cbn. rewrite Em in Hw. keep Hw.
      * specialize (IH x Hx). unfold last_ok in *. sys_cbn. rewrite Em in IH. keep IH.
  - (* close *) intros x Hx. specialize (IH x Hx). unfold last_ok in *. sys_cbn. rewrite Em in IH.
    cbn [phase_of] in *. intros l El. specialize (IH l El). split; [apply IH|]. easy.
  - apply Hwake; rewrite Em; cbn; try (right; easy); easy.
  - intros x Hx. specialize (IH x Hx). unfold last_ok in *. sys_cbn. rewrite Em in IH. keep IH.
Qed.

(** *** Sleepers and the queue *)
Definition credit (s : sys) : Prop :=
  let f := s_futex s in
  let q := length (s_queue s) in
  let ws := s_workers s in
  match s_main s with
  | MStartWake => q = 0 \/ wsum (eqi f) ws = 0
  | MLoop | MRecv | MPush _ => 0 < wsum (idl f) ws -> q <= wsum (ck f) ws
  | MPushSignal => 0 < wsum (idl f) ws -> q <= wsum (ck f) ws + 1
  | MPushWake => q = 0 \/ wsum (eqi f) ws = 0 /\ (0 < wsum slp ws -> q <= wsum (ck f) ws + 1)
  | MJoin _ | MDone _ => wsum slp ws = 0
  | _ => True
  end.

Lemma wsum_zero g ws : wsum g ws = 0 -> forall w, In w ws -> g w = 0.
Proof. intros H w Hw. pose proof (wsum_in g ws w Hw). lia. Qed.
Lemma wsum_zero' g ws : (forall w, In w ws -> g w = 0) -> wsum g ws = 0.
Proof.
  induction ws as [|x ws IH]; intros H; simpl; [easy|].
  rewrite (H x (or_introl eq_refl)), IH; [easy|]. intros w Hw. apply H. right. easy.
Qed.
Lemma set_nth_eq {A} (l : list A) i x : nth_error l i = Some x -> set_nth l i x = l.
Proof.
  revert i. induction l as [|y l IH]; intros [|i] H; simpl in *; try discriminate.
  - congruence.
  - rewrite IH; easy.
Qed.

Ltac eqb_cases :=
  repeat match goal with
  | |- context [N.eqb ?a ?b] => destruct (N.eqb_spec a b)
  | H : context [N.eqb ?a ?b] |- _ => destruct (N.eqb_spec a b)
  end.

Lemma credit_step n s a s' : few n -> fut_inv n s -> (forall w, In w (s_workers s) -> last_ok s w) ->
  step (cls n) a s s' -> credit s -> credit s'.
Proof.
  intros Hn Hfut Hlast Hs IH. unfold credit in *.
  inversion Hs; subst; sys_cbn;
    try (match goal with E : s_main ?s = _ |- _ => pose proof E as Em; rewrite Em in IH end);
    try exact I; try exact IH; try (intros; apply IH; easy).
  - (* worker *)
    match goal with E : nth_error _ _ = Some w |- _ => pose proof E as Ei end.
    pose proof (wsum_set (ck (s_futex s)) _ _ _ w' Ei) as Hck.
    pose proof (wsum_set (eqi (s_futex s)) _ _ _ w' Ei) as Heqi.
    pose proof (wsum_set (idl (s_futex s)) _ _ _ w' Ei) as Hidl.
    pose proof (wsum_set slp _ _ _ w' Ei) as Hslp.
    pose proof (wsum_in (eqi (s_futex s)) _ _ (nth_error_In _ _ Ei)) as Hie.
    pose proof (Hlast w (nth_error_In _ _ Ei)) as Hl.
    assert (Hl0 : forall l, last_of w = Some l -> (waits w -> l <> 0%N)) by (intros l El; apply (Hl l El)).
    clear Hl. destruct Hfut as [_ Hfut].
    match goal with E : worker_step _ _ _ _ _ _ _ _ |- _ => inversion E; subst end;
      match goal with
      | Eq : [] = s_queue s |- _ => rewrite <- Eq in *
      | Eq : _ :: _ = s_queue s |- _ => rewrite <- Eq in *
      | _ => idtac
      end;
      cbn [ck eqi idl slp last_of waits length] in *;
      rewrite ?N.eqb_refl in *;
      try (match goal with E : s_futex s <> ?l |- _ =>
             replace (N.eqb l (s_futex s)) with false in * by (symmetry; apply N.eqb_neq; congruence) end);
      destruct (s_main s) eqn:Em; try exact I; cbn [phase_of] in Hfut; try lia.
    all: try (eqb_cases; lia).
    all: try (exfalso; unfold futex_finished in *; eapply Hl0; [reflexivity|exact I|];
              try congruence; fail).
    all: try (specialize (Hl0 _ eq_refl I); rewrite Hfut in *; congruence).
  - (* spurious *)
    match goal with E : nth_error _ _ = Some (WSleeping last) |- _ => pose proof E as Ei end.
    pose proof (wsum_set (ck (s_futex s)) _ _ _ (WWaiting last) Ei) as Hck.
    pose proof (wsum_set (eqi (s_futex s)) _ _ _ (WWaiting last) Ei) as Heqi.
    pose proof (wsum_set (idl (s_futex s)) _ _ _ (WWaiting last) Ei) as Hidl.
    pose proof (wsum_set slp _ _ _ (WWaiting last) Ei) as Hslp.
    cbn [ck eqi idl slp] in *.
    destruct (s_main s) eqn:Em; try exact I; eqb_cases; lia.
  - (* start *) right. apply wsum_zero'. intros w Hw. specialize (Hlast w Hw). unfold last_ok in Hlast.
    rewrite Em in Hlast. destruct Hfut as [_ Hfut]. rewrite Em in Hfut. cbn [phase_of] in *.
    destruct w as [l|l|l|l|l j|l j|l m|j|p]; cbn [eqi]; try easy;
      (destruct (Hlast l eq_refl) as [_ Hb]; specialize (Hb ltac:(discriminate)); rewrite Hfut in Hb;
       unfold futex_initial; destruct (N.eqb_spec l (1 + 1)); [lia|easy]).
  - (* start wake *)
    destruct IH as [IH|IH]; [lia|]. intros Hpos. exfalso.
    enough (E : wsum (idl (s_futex s)) (map wake (s_workers s)) = 0) by lia.
    apply wsum_zero'. intros w Hw. apply in_map_iff in Hw. destruct Hw as (w0 & <- & Hw0).
    pose proof (wsum_zero _ _ IH w0 Hw0) as Hz. destruct w0; cbn in *; easy.
  - (* push *) rewrite app_length. cbn [length]. intros Hpos. specialize (IH Hpos). lia.
  - (* push signal *)
    assert (Hne : forall w l, In w (s_workers s) -> last_of w = Some l -> l <> futex_next (s_futex s)).
    { intros w l Hw El. specialize (Hlast w Hw l El). rewrite Em in Hlast. cbn [phase_of] in Hlast.
      destruct Hlast as [_ Hb]. specialize (Hb ltac:(discriminate)). destruct Hb as [Hb0 Hb].
      destruct Hfut as [_ Hfut]. rewrite Em in Hfut. cbn [phase_of] in Hfut. destruct Hfut as [H2 H3].
      unfold futex_next. destruct (N.eqb_spec (s_futex s) (2 ^ 32 - 1)) as [E|E]; [|lia].
      destruct Hn as [_ Hn]. rewrite E in H3. change (2 ^ 32 - 1)%N with 4294967295%N in *.
      change (2 ^ 32)%N with 4294967296%N in *. lia. }
    right. split.
    + apply wsum_zero'. intros w Hw.
      destruct w as [l|l|l|l|l j|l j|l m|j|p]; cbn [eqi]; try easy;
        (destruct (N.eqb_spec l (futex_next (s_futex s))) as [E|]; [|easy];
         exfalso; exact (Hne _ l Hw eq_refl E)).
    + intros Hpos.
      assert (H1 : 0 < wsum (idl (s_futex s)) (s_workers s)).
      { assert (wsum slp (s_workers s) <= wsum (idl (s_futex s)) (s_workers s)); [|lia].
        apply wsum_le. intros w _. destruct w; cbn; lia. }
      specialize (IH H1).
      assert (wsum (ck (s_futex s)) (s_workers s) <= wsum (ck (futex_next (s_futex s))) (s_workers s)); [|lia].
      apply wsum_le. intros w Hw.
      destruct w as [l|l|l|l|l j|l j|l m|j|p]; cbn [ck]; try lia;
        (destruct (N.eqb_spec l (futex_next (s_futex s))) as [E|];
         [exfalso; exact (Hne _ l Hw eq_refl E)|]; destruct (N.eqb l (s_futex s)); lia).
  - (* push wake *)
    destruct IH as [IH|[IH1 IH2]]; [lia|]. intros Hpos.
    match goal with E : wake_one _ _ |- _ => inversion E; subst end.
    + exfalso. enough (Ez : wsum (idl (s_futex s)) (s_workers s) = 0).
      { match goal with E : s_workers s = _ |- _ => rewrite E in Ez end || idtac. lia. }
      apply wsum_zero'. intros w Hw. pose proof (wsum_zero _ _ IH1 w Hw) as Hz.
      destruct w; cbn in *; try easy. exfalso. match goal with Hn : forall l, ~ In _ _ |- _ => eapply Hn; exact Hw end.
    + match goal with E : nth_error _ _ = Some (WSleeping last) |- _ => pose proof E as Ei end.
      pose proof (wsum_set (ck (s_futex s)) _ _ _ (WWaiting last) Ei) as Hck.
      pose proof (wsum_zero _ _ IH1 _ (nth_error_In _ _ Ei)) as Hz.
      assert (Hsl : 0 < wsum slp (s_workers s)).
      { pose proof (wsum_in slp _ _ (nth_error_In _ _ Ei)) as H'. cbn in H'. lia. }
      specialize (IH2 Hsl). cbn [eqi ck] in *. destruct (N.eqb last (s_futex s)); [easy|]. lia.
  - (* close wake *) apply wsum_zero'. intros w Hw. apply in_map_iff in Hw. destruct Hw as (w0 & <- & Hw0).
    destruct w0; easy.
Qed.

(** * Dialogs opened by the global shortcuts *)

From Coq Require Import List PeanoNat NArith Bool Lia.
From Verif Require Import Screen_Model Screen_Spec Screen_Proofs7.
Import ListNotations.
Local Open Scope nat_scope.
Local Open Scope bool_scope.
Local Open Scope list_scope.

(** Whether the session began with the table of the build never changes. *)
Definition same_mode (s : state) (w : world) : Prop :=
  match w with Running s' => full_build s' = full_build s | _ => True end.

Lemma same_eq s s' w : full_build s' = full_build s -> same_mode s' w -> same_mode s w.
Proof. intros E H. destruct w; cbn in *; congruence. Qed.

Lemma ask_same W s l tr s' : ask W s = Some (l, tr, s') -> full_build s' = full_build s.
Proof.
  unfold ask. destruct (nth_error (threads s) (cur s)) as [t|]; [|discriminate].
  destruct (load_all W (t_queue t) (t_data t)) as [k|]; [|discriminate].
  destruct (W k) as [x|]; [|discriminate]. intros H. injection H as _ _ <-. reflexivity.
Qed.

Lemma show_same W s name norm rows src o k : same_mode s (show_profile W s name norm rows src o k).
Proof.
  unfold show_profile. destruct (match cfg_dd s with Some d => _ | None => _ end); [|exact I].
  cbn [bind]. destruct (ask W _) as [[[l tr] s1]|] eqn:Ea; [|exact I]. cbn [bind].
  destruct (negb (describable tr rows)); [exact I|]. destruct rows; [exact I|].
  apply ask_same in Ea. exact Ea.
Qed.

Lemma loader_same s : same_mode s (show_loader s).
Proof. unfold show_loader. destruct (nth_error _ _); [|exact I]. reflexivity. Qed.

Lemma loaded_same W s l : same_mode s (loaded W s l).
Proof.
  unfold loaded. destruct (mem l (canceled s)); [reflexivity|].
  destruct (W l); [|reflexivity].
  destruct (ask W _) as [[[src tr] s2]|] eqn:Ea; [|exact I]. cbn [bind].
  destruct (percent_norm _); [|exact I]. cbn [bind].
  apply ask_same in Ea. eapply same_eq; [|apply show_same]. exact Ea.
Qed.

Lemma step_same W s e w : step W s e = Some w -> same_mode s w.
Proof.
  intros Hs.
  assert (R : same_mode s (Running s)) by reflexivity.
  destruct e as [ | | | | | |wz|create f|row|c| | |idx| |t|m r|m| ]; cbn [step] in *.
  - injection Hs as <-. unfold exit_current_layer.
    destruct (1 <? length (screen s)); [|exact R].
    destruct (no_escape s); [exact R|]. destruct (_ =? _); exact R.
  - injection Hs as <-. unfold switch_duration_unit. destruct (stack s); [exact R|].
    destruct (cfg_dd s) as [d|]; [|exact R].
    destruct (match d with Time => _ | Percentage _ _ => _ end); [|exact I]. cbn [bind].
    destruct (restyle_all _ _ _ _); [|exact I]. exact R.
  - injection Hs as <-. unfold global_dialog. destruct (existsb _ _); exact R.
  - injection Hs as <-. unfold global_dialog. destruct (existsb _ _); [exact R|].
    destruct (backtrace_dialog s); exact R.
  - injection Hs as <-. unfold global_dialog. destruct (existsb _ _); [exact R|].
    destruct (help_dialog s); exact R.
  - destruct (screen s) as [|[| | | | | |v] r]; try discriminate. injection Hs as <-.
    unfold toggle. destruct (stack s) as [|e0 st]; [exact I|].
    destruct (p_other v) as [q|rows src].
    + destruct (ask W _) as [[[l tr] s2]|] eqn:Ea; [|exact I].
      destruct (match q with Some _ => _ | None => _ end); [|exact I]. cbn [bind].
      apply ask_same in Ea. eapply same_eq; [|apply show_same]. exact Ea.
    + cbn [bind]. eapply same_eq; [|apply show_same]. exact R.
  - destruct (screen s) as [|[| | | | | |v] r]; try discriminate. injection Hs as <-.
    destruct wz; try exact R. apply loader_same.
  - destruct (screen s) as [|[|ex| | | | |v] r]; try discriminate. injection Hs as <-.
    destruct create; [destruct f; exact R|].
    cbv zeta. destruct ex; [exact (loader_same (pop s))|exact R].
  - destruct (screen s) as [|[| | | | | |v] r] eqn:Sc; try discriminate.
    destruct (p_kind v); [|discriminate]. destruct (row <? length (p_rows v)); [|discriminate].
    injection Hs as <-. unfold zoom.
    destruct (find_table _ _) as [v'|]; [|exact I]. cbn [bind].
    destruct (nth_error (p_rows v') row) as [a|]; [|exact I]. cbn [bind].
    destruct (a_kids a); cbn [negb]; [|exact R].
    destruct (ask W s) as [[[l tr] s1]|] eqn:Ea; [|exact I]. cbn [bind].
    destruct (direct_children tr (a_id a)) as [[|k0 kr]|]; try exact I. cbn [bind].
    destruct (percent_norm (a_dur a)); [|exact I]. cbn [bind].
    apply ask_same in Ea. eapply same_eq; [exact Ea|]. apply show_same.
  - destruct (screen s) as [|[| | | | | |v] r]; try discriminate.
    destruct (has_column v c (p_dd v)); [|discriminate]. injection Hs as <-.
    unfold sort_profiles. destruct (stack s); [exact I|].
    destruct (cfg_dd s); [|exact I]. cbn [bind].
    destruct (sort_all _ _ _ _); [|exact I]. exact R.
  - destruct (screen s) as [|[| | |g| | |v] r]; try discriminate; injection Hs as <-; exact R.
  - destruct (screen s) as [|[| | |[| |n b]| | |v] r]; try discriminate. injection Hs as <-. exact I.
  - destruct (screen s) as [|[| | |[| |n b]| | |v] r]; try discriminate.
    destruct (idx <? n); [|discriminate]. injection Hs as <-. exact R.
  - destruct (screen s) as [|[| | | |l|m|v] r]; try discriminate; injection Hs as <-; [|exact R].
    unfold abort_load. destruct (screen _); [exact I|]. exact R.
  - destruct (nth_error (threads s) t) as [th|]; [|discriminate].
    destruct (load_next W th) as [[th' c]|]; [|discriminate]. injection Hs as <-. exact R.
  - destruct (get_job m (jobs s)) as [[|]|]; try discriminate. injection Hs as <-. exact R.
  - destruct (get_job m (jobs s)) as [[[|c l]|]|]; try discriminate. injection Hs as <-. exact R.
  - destruct (callbacks s) as [|c r]; [discriminate|]. injection Hs as <-.
    destruct c; cbn [run_callback]; try exact R.
    + eapply same_eq; [|apply loaded_same]. exact R.
    + eapply same_eq; [|apply loader_same]. exact R.
Qed.

Lemma exec_same W : forall evs s s', exec W s evs = Some (Running s') -> full_build s' = full_build s.
Proof.
  induction evs as [|e r IH]; intros s s' H; cbn [exec] in H; [injection H as <-; reflexivity|].
  destruct (step W s e) as [[s1| |]|] eqn:Es; try discriminate; try (destruct r; discriminate).
  rewrite (IH s1 s' H). exact (step_same W s e _ Es).
Qed.

Lemma no_dialog s : (forall d, ~ on_screen s (LDialog d)) -> existsb is_global (screen s) = false.
Proof.
  unfold on_screen. intros H. destruct (existsb is_global (screen s)) eqn:E; [|reflexivity]. exfalso.
  apply existsb_exists in E. destruct E as [x [In1 Ex]]. destruct x; try discriminate.
  exact (H _ In1).
Qed.

Lemma stack_length W s : mirrors W s -> length (stack s) = length (profiles s).
Proof.
  intros [[-> ->]|(l & tr & _ & _ & F & _)]; [reflexivity|].
  induction F; cbn [length]; congruence.
Qed.

Lemma global_dialogs W s0 evs s :
  well_labelled W -> initial s0 -> calm W s0 evs -> exec W s0 evs = Some (Running s) ->
  ((exists d, on_screen s (LDialog d)) ->
     forall e, e = KeyQ \/ e = KeyB \/ e = KeyH -> step W s e = Some (Running s))
  /\ ((forall d, ~ on_screen s (LDialog d)) ->
      (exists s', step W s KeyQ = Some (Running s') /\ stack s' = stack s
         /\ screen s' = LDialog QuitDialog :: screen s)
      /\ (profiles s = [] -> step W s KeyB = Some (Running s))
      /\ (profiles s <> [] -> exists s' b, step W s KeyB = Some (Running s') /\ stack s' = stack s
            /\ screen s' = LDialog (Backtrace (length (profiles s)) b) :: screen s)
      /\ (profiles s = [] -> s0 = start_with_trace -> step W s KeyH = Some (Running s))
      /\ (profiles s <> [] \/ s0 = start_with_build ->
            exists s', step W s KeyH = Some (Running s') /\ stack s' = stack s
              /\ screen s' = LDialog HelpDialog :: screen s)).
Proof.
  intros WL I C H. pose proof (exec_same W evs s0 s H) as F.
  destruct (mirror W s0 evs s WL I C H) as [M _]. pose proof (stack_length W s M) as L.
  split.
  - intros [d D] e He. assert (X : existsb is_global (screen s) = true).
    { apply existsb_exists. exists (LDialog d). auto. }
    destruct He as [-> | [-> | ->]]; cbn [step]; unfold global_dialog; rewrite X; reflexivity.
  - intros D. pose proof (no_dialog s D) as X. cbn [step]. unfold global_dialog. rewrite X.
    unfold backtrace_dialog, help_dialog. rewrite F, L.
    assert (A : forall d, exists s', Some (Running (push (LDialog d) s)) = Some (Running s')
                  /\ stack s' = stack s /\ screen s' = LDialog d :: screen s).
    { intros d. eexists. repeat split. }
    destruct (stack s) as [|e es] eqn:S1; destruct (profiles s) as [|v vs]; try discriminate L.
    + split; [apply A|]. split; [reflexivity|]. split; [congruence|].
      split; [intros _ ->; reflexivity|].
      intros [N | ->]; [congruence|]. apply A.
    + split; [apply A|]. split; [congruence|].
      split; [intros _; destruct (A (Backtrace (length (v :: vs)) (below s))) as [s' A']; eauto|].
      split; [congruence|].
      intros _. apply A.
Qed.

(** Proofs about the non-interactive report: profiles of a whole trace, and the report. *)
From Coq Require Import String QArith Permutation Sorted.
From Verif Require Import Base Tree_Model Tree_Spec Tree_Proofs Tree_Proofs2 UI_Model UI_Spec
  UI_Proofs UI_Proofs2 UI_Proofs3 UI_Proofs4 Stdio_Model Stdio_Spec Stdio_Proofs.
Local Open Scope nat_scope.
Local Open Scope bool_scope.
Local Open Scope list_scope.
Local Notation "' s" := (of_string s) (at level 0, s at level 0).

Section Trace.
  Variable w : str -> nat.
  Variable graphemes : str -> list str.
  Variable round2 : Z -> Z -> Z.
  Variable two_decimals : number -> str.
  Variable sort_desc : forall A : Type, (A -> Z) -> list A -> list A.
  Context (Hw : widths w) (Hg : splits graphemes) (Hr : rounds round2) (Hs : sorts sort_desc).
  Variable xs : list (stat activity).
  Variable t : tree activity.
  Context (Ht : tree_of xs t) (Hd : Forall (fun s => describable w (s_act s)) xs)
          (Hn : Forall (fun s => (0 <= s_dur s)%Z) xs).

  Lemma acts_length : length (t_acts t) = length xs.
  Proof.
    destruct (all_listed _ xs t Ht) as [E _]. unfold all_activities in E.
    apply (f_equal (@length (nat * stat activity))) in E.
    rewrite !combine_length, !seq_length, map_length in E. lia.
  Qed.
  Lemma acts_stats : map n_stat (t_acts t) = xs.
  Proof.
    destruct (all_listed _ xs t Ht) as [E _]. unfold all_activities in E.
    apply (f_equal (map snd)) in E. rewrite acts_length in E.
    assert (S : forall (l : list (stat activity)) k, map snd (combine (seq k (length l)) l) = l).
    { induction l as [|a l IH]; intros k; simpl; [reflexivity|]. rewrite IH. reflexivity. }
    rewrite S in E. rewrite <- acts_length in E.
    assert (L : length (t_acts t) = length (map n_stat (t_acts t))) by (rewrite map_length; reflexivity).
    rewrite L, S in E. exact E.
  Qed.
  Lemma node_facts i n : nth_error (t_acts t) i = Some n ->
    reported xs i (n_stat n) /\ (0 <= s_dur (n_stat n))%Z /\ (0 <= n_self n)%Z /\
    describable w (s_act (n_stat n)) /\ activity_trace t i = Ret n.
  Proof.
    intros E.
    assert (R : reported xs i (n_stat n)).
    { unfold reported. rewrite <- acts_stats. apply map_nth_error. exact E. }
    assert (Hin : In (n_stat n) xs) by (eapply nth_error_In; exact R).
    split; [exact R|]. rewrite Forall_forall in Hd, Hn.
    split; [apply Hn, Hin|]. split; [|split; [apply Hd, Hin|]].
    - destruct (self_nonneg _ xs t Ht) with (b := i) as (d & Ed & Hdd).
      + intros j s Hj. apply Hn. eapply nth_error_In. exact Hj.
      + apply nth_error_Some. unfold reported in R. congruence.
      + unfold self_duration, activity_trace in Ed. rewrite E in Ed. cbn in Ed.
        injection Ed as <-. exact Hdd.
    - unfold activity_trace. rewrite E. reflexivity.
  Qed.
  Lemma node_at i : i < length xs -> exists n, nth_error (t_acts t) i = Some n.
  Proof.
    intros H. destruct (nth_error (t_acts t) i) eqn:E; [eauto|].
    apply nth_error_None in E. rewrite acts_length in E. lia.
  Qed.

  (** *** The flat profile *)
  Definition timed : list (nat * Z) := combine (seq 0 (length (t_acts t))) (map n_self (t_acts t)).
  Definition of_timed (e : nat * Z) : activity * Z :=
    (match nth_error (t_acts t) (fst e) with
     | Some n => s_act (n_stat n)
     | None => mk_activity [] None Panic
     end, snd e).
  Lemma timed_at e : In e timed -> exists n, nth_error (t_acts t) (fst e) = Some n /\ n_self n = snd e.
  Proof.
    unfold timed. set (l := t_acts t).
    assert (G : forall (l : list (node activity)) k, In e (combine (seq k (length l)) (map n_self l)) ->
              exists n, k <= fst e /\ nth_error l (fst e - k) = Some n /\ n_self n = snd e).
    { clear. induction l as [|n l IH]; intros k H; simpl in H; [easy|]. destruct H as [<-|H].
      - exists n. simpl. rewrite Nat.sub_diag. easy.
      - destruct (IH (S k) H) as (m & H1 & H2 & H3). exists m. split; [lia|].
        replace (fst e - k) with (S (fst e - S k)) by lia. easy. }
    intros H. destruct (G l 0 H) as (n & _ & H1 & H2). rewrite Nat.sub_0_r in H1. exists n. easy.
  Qed.
  Lemma timed_activities :
    map of_timed timed = map (fun n => (s_act (n_stat n), n_self n)) (t_acts t).
  Proof.
    unfold timed, of_timed. set (l := t_acts t).
    assert (G : forall r k, (forall i, nth_error r i = nth_error l (k + i)) ->
              map (fun e => (match nth_error l (fst e) with
                             | Some n => s_act (n_stat n)
                             | None => mk_activity [] None Panic
                             end, snd e)) (combine (seq k (length r)) (map n_self r))
              = map (fun n => (s_act (n_stat n), n_self n)) r).
    { induction r as [|n r IH]; intros k H; simpl; [reflexivity|]. f_equal.
      - pose proof (H 0) as H0. rewrite Nat.add_0_r in H0. simpl in H0. rewrite <- H0. reflexivity.
      - apply IH. intros i. rewrite Nat.add_succ_comm. exact (H (S i)). }
    apply G. reflexivity.
  Qed.

  Lemma flat_ok total p max : (0 < total)%Z -> 3 <= max ->
    exists ls,
      flat_section w graphemes two_decimals (map (fun n => (s_act (n_stat n), n_self n)) (t_acts t)) total p max ls /\
      print_flat_profile w graphemes round2 two_decimals sort_desc t total (over100 (Fin p)) max
        = (map Stdout ((newline :: ' "Hottest activities by self-duration:") :: ls), Ret tt).
  Proof.
    intros Htot Hm. unfold print_flat_profile. fold timed.
    destruct (hot_ok sort_desc Hs timed snd total p Htot) as (hidden & Hp & H1 & H2 & H3).
    set (hot := hottest sort_desc timed snd total (over100 (Fin p))) in *.
    assert (Hin : forall e, In e (hot ++ hidden) -> In e timed).
    { intros e He. apply (Permutation_in _ (Permutation_sym Hp)), He. }
    destruct (flat_lines_ok w graphemes round2 two_decimals Hw Hg Hr t total max Htot Hm hot)
      as (texts & T1 & T2).
    { apply Forall_forall. intros e He.
      destruct (timed_at e (Hin e (in_or_app _ _ _ (or_introl He)))) as (n & N1 & N2).
      destruct (node_facts _ _ N1) as (_ & _ & N3 & N4 & N5). exists n. rewrite <- N2. easy. }
    assert (Hl : length timed = length hot + length hidden)
      by (rewrite (Permutation_length Hp), app_length; reflexivity).
    destruct (threshold_back p) as (q & Eq & Hq).
    set (last := match hidden with
                 | [] => []
                 | _ => [' "- ... and " ++ digits (Z.of_nat (length hidden)) ++ ' " other "
                           ++ ' "activities" ++ ' " below " ++ two_decimals (Fin q) ++ ' "% ..."]
                 end).
    exists (texts ++ last). split.
    - exists (map of_timed hot), (map of_timed hidden), texts, last.
      split; [rewrite <- timed_activities, <- map_app; apply Permutation_map; exact Hp|].
      split. { clear -H1. induction hot as [|a l IH]; [exact I|]. destruct l as [|b l]; [exact I|].
               destruct H1 as [X Y]. split; [exact X|exact (IH Y)]. }
      split; [apply Forall_map; exact H2|]. split; [apply Forall_map; exact H3|].
      split. { clear -T1. induction T1 as [|e text l1 l2 (n & desc & E1 & E2 & E3) _ IH]; [constructor|].
               constructor; [|exact IH]. exists desc. split; [|exact E3].
               unfold of_timed. cbn [fst snd]. unfold activity_trace in E1.
               destruct (nth_error (t_acts t) (fst e)) as [m|]; [|discriminate].
               cbn in E1. injection E1 as <-. exact E2. }
      split; [|reflexivity]. rewrite map_length. unfold last.
      destruct hidden as [|h r]; [left; easy|right]. split; [simpl; lia|]. exists q. easy.
    - set (tail := if Nat.ltb (length hot) (length timed) then _ else _).
      assert (Etail : tail = (map Stdout last, Ret tt)).
      { unfold tail, last. rewrite Hl. destruct hidden as [|h r].
        - cbn [length]. rewrite Nat.add_0_r, Nat.ltb_irrefl. reflexivity.
        - assert (El : Nat.ltb (length hot) (length hot + length (h :: r)) = true)
            by (apply Nat.ltb_lt; simpl; lia). rewrite El.
          replace (length hot + length (h :: r) - length hot) with (length (h :: r)) by lia.
          rewrite Eq. reflexivity. }
      rewrite Etail. unfold println. erewrite bind_out; [|rewrite T2; apply bind_out; reflexivity].
      cbn [map]. rewrite map_app. reflexivity.
  Qed.

  (** *** The hierarchical profile *)
  Lemma children_below id n : nth_error (t_acts t) id = Some n ->
    exists children, direct_children t id = Ret children /\ Forall (fun c => c < length xs) children.
  Proof.
    intros E. assert (L : id < length xs) by (rewrite <- acts_length; apply nth_error_Some; congruence).
    destruct (direct_iff _ xs t Ht id L) as (d & l & E1 & E2 & H).
    exists d. split; [exact E1|]. apply Forall_forall. intros c Hc. apply H in Hc. destruct Hc as [Hc _].
    destruct (contiguous _ xs t Ht id L) as (f & Hf & E3). rewrite E2 in E3. injection E3 as ->.
    apply in_seq in Hc. lia.
  Qed.
  Lemma omap_pairs (f : nat -> outcome Z) ids : Forall (fun c => exists d, f c = Ret d) ids ->
    exists l, omap (fun c => obind (f c) (fun d => Ret (c, d))) ids = Ret l /\
      map fst l = ids /\ Forall (fun e => f (fst e) = Ret (snd e)) l.
  Proof.
    induction 1 as [|c ids (d & E) _ (l & IH1 & IH2 & IH3)].
    - exists []. easy.
    - exists ((c, d) :: l). cbn [omap]. rewrite E. cbn [obind]. rewrite IH1. cbn [obind map fst].
      split; [reflexivity|]. split; [congruence|]. constructor; easy.
  Qed.
  Lemma omap_all {A B} (f : A -> outcome B) (P : A -> B -> Prop) l :
    Forall (fun x => exists y, f x = Ret y /\ P x y) l ->
    exists ys, omap f l = Ret ys /\ Forall2 P l ys.
  Proof.
    induction 1 as [|x l (y & E & Hy) _ (ys & IH1 & IH2)].
    - exists []. split; [reflexivity|constructor].
    - exists (y :: ys). cbn [omap]. rewrite E. cbn [obind]. rewrite IH1. cbn [obind].
      split; [reflexivity|constructor; easy].
  Qed.

  Lemma activity_tree_ok total p : (0 < total)%Z -> forall fuel id n max, max < fuel -> 1 <= max ->
    nth_error (t_acts t) id = Some n ->
    exists tree, activity_tree w graphemes round2 two_decimals sort_desc fuel t total (over100 (Fin p)) id max
        = Ret tree /\ hierarchy w graphemes two_decimals t total p max id tree.
  Proof.
    intros Htot. induction fuel as [|fuel IH]; intros id n max Hf Hm E; [lia|].
    destruct (node_facts id n E) as (_ & Hdur & _ & [Hname Hdesc] & Etr).
    destruct (forced w _ Hdesc) as (arg & Ea & A1 & A2 & A3).
    destruct (shown_ok w graphemes round2 two_decimals Hw Hg Hr _ arg max total _ Hname A1 A2 A3 Hm Htot Hdur)
      as (label & El & Hlabel).
    cbn [activity_tree]. rewrite Etr. cbn [obind]. rewrite Ea. cbn [obind]. rewrite El. cbn [obind].
    destruct (Nat.eqb_spec (max - 1 - 1) 0) as [Z0|NZ].
    - eexists. split; [reflexivity|]. apply hi_leaf with n; [lia|exact Etr|exact Hlabel].
    - destruct (children_below id n E) as (ch & Ech & Hch). rewrite Ech. cbn [obind].
      destruct (omap_pairs (duration t) ch) as (l & Eo & Hl1 & Hl2).
      { eapply Forall_impl; [|exact Hch]. intros c Hc. destruct (node_at c Hc) as (m & Em).
        exists (s_dur (n_stat m)). unfold duration, activity_trace. rewrite Em. reflexivity. }
      rewrite Eo. cbn [obind].
      destruct (hot_ok sort_desc Hs l snd total p Htot) as (hidden & Hp & P1 & P2 & P3).
      set (hot := hottest sort_desc l snd total (over100 (Fin p))) in *.
      replace (max - 1 - 1) with (max - 2) in * by lia.
      destruct (omap_all (fun c => activity_tree w graphemes round2 two_decimals sort_desc fuel t total
                            (over100 (Fin p)) (fst c) (max - 2))
                 (fun c tree => hierarchy w graphemes two_decimals t total p (max - 2) (fst c) tree) hot)
        as (trees & Eh & Htrees).
      { apply Forall_forall. intros c Hc.
        assert (Hcl : fst c < length xs).
        { rewrite Forall_forall in Hch. apply Hch. rewrite <- Hl1. apply in_map.
          apply (Permutation_in _ (Permutation_sym Hp)). apply in_or_app. left. exact Hc. }
        destruct (node_at _ Hcl) as (m & Em). apply (IH (fst c) m (max - 2)); [lia|lia|exact Em]. }
      rewrite Eh. cbn [obind].
      assert (Hlen : length ch = length hot + length hidden).
      { rewrite <- Hl1, map_length, (Permutation_length Hp), app_length. reflexivity. }
      destruct (Nat.eqb_spec (length hot) (length ch)) as [Eq|Ne].
      + eexists. split; [reflexivity|]. rewrite <- (app_nil_r trees).
        assert (hidden = []) by (destruct hidden; [reflexivity|simpl in Hlen; lia]). subst hidden.
        apply hi_node with (n := n) (children := l) (shown := hot) (hidden := []);
          try assumption; [lia| |left; easy]. rewrite Hl1. exact Ech.
      + unfold usub. assert (Eu : Nat.leb (length hot) (length ch) = true) by (apply Nat.leb_le; lia).
        rewrite Eu. cbn [obind]. eexists. split; [reflexivity|].
        apply hi_node with (n := n) (children := l) (shown := hot) (hidden := hidden);
          try assumption; [lia|rewrite Hl1; exact Ech|]. right.
        split; [intros ->; simpl in Hlen; lia|].
        destruct (threshold_back p) as (q & Eq & Hq).
        replace (length ch - length hot) with (length hidden) by lia.
        unfold callees_text. rewrite Eq.
        eexists q, _. split; [exact Hq|]. split; [reflexivity|]. cbv zeta.
        destruct (Nat.ltb_spec (max - 2) (w ([ellipsis] ++ digits (Z.of_nat (length hidden))
                    ++ ' " callee(s) below " ++ two_decimals (Fin q) ++ ' "%" ++ [ellipsis]))).
        * right. easy.
        * left. easy.
  Qed.

  Lemma hierarchy_fits total p : forall max id tree, 1 <= max ->
    hierarchy w graphemes two_decimals t total p max id tree -> fits w max tree.
  Proof.
    induction max as [max IH] using (well_founded_induction lt_wf). intros id tree Hm H.
    destruct H as [max id n label L E A|max id n label ch shown hidden trees last L E A D F P1 P2 P3 P4 F2 Hlast].
    - constructor; [eapply activity_text_fits; [exact Hw|exact A]|easy|constructor].
    - constructor; [eapply activity_text_fits; [exact Hw|exact A]|lia|].
      apply Forall_app. split.
      + apply Forall_forall. intros x Hx.
        assert (G : exists c : nat * Z, hierarchy w graphemes two_decimals t total p (max - 2) (fst c) x).
        { clear -F2 Hx. induction F2 as [|c y l1 l2 H _ IHf]; [easy|]. destruct Hx as [<-|Hx]; [eauto|auto]. }
        destruct G as (c & G). apply (IH (max - 2) ltac:(lia) (fst c)); [lia|exact G].
      + destruct Hlast as [[_ ->]|(_ & q & text & _ & -> & Htext)]; [constructor|].
        constructor; [|constructor]. constructor; [|easy|constructor].
        cbv zeta in Htext. destruct Htext as [[H ->]|[_ ->]]; [exact H|].
        rewrite (w_ell w Hw). lia.
  Qed.

  Lemma hierarchy_lines_fit total p max id tree : 1 <= max ->
    hierarchy w graphemes two_decimals t total p max id tree -> Forall (fun l => w l <= max) (render_tree tree).
  Proof.
    intros Hm H. apply hierarchy_fits in H; [|exact Hm]. destruct tree as [l leaves]. cbn [render_tree].
    constructor; [inversion H; assumption|].
    apply (tree_lines_ok w Hw _ max [] 0 H). rewrite (w_nil w Hw). lia.
  Qed.
End Trace.

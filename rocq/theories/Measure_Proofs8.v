(** Process trees. *)
From Coq Require Import NArith Permutation Relations.
From Verif Require Import Base Measure_Model Measure_Spec.
Local Open Scope nat_scope.

Lemma NoDup_app_intro {A} (a b : list A) : NoDup a -> NoDup b -> (forall x, In x a -> ~ In x b) ->
  NoDup (a ++ b).
Proof.
  intros Ha Hb H. induction Ha as [|x a Hx Ha IH]; [easy|]. simpl. constructor.
  - rewrite in_app_iff. intros [H'|H']; [easy|]. apply (H x); [left; easy|easy].
  - apply IH. intros y Hy. apply H. right. easy.
Qed.
Lemma NoDup_app_split {A} (a b : list A) : NoDup (a ++ b) -> NoDup b.
Proof. induction a as [|x a IH]; intros H; [easy|]. apply IH. inversion H. easy. Qed.

Section Tree.
  Variable table : list process.

  Inductive path : nat -> pid -> pid -> Prop :=
  | path_0 p : path 0 p p
  | path_S k p q r : path k p q -> child_rel table q r -> path (S k) p r.

  Lemma path_app k1 k2 p q r : path k1 p q -> path k2 q r -> path (k1 + k2) p r.
  Proof.
    intros H1 H2. revert k1 p H1. induction H2 as [q|k q r s H2 IH Hc]; intros k1 p H1.
    - rewrite Nat.add_0_r. easy.
    - rewrite Nat.add_succ_r. econstructor; [apply IH; eassumption|easy].
  Qed.
  Lemma path_descendant p q : descendant table p q <-> exists k, path k p q.
  Proof.
    split.
    - intros H. unfold descendant in H. apply clos_rt_rtn1 in H. induction H as [|q r Hc _ [k IH]].
      + exists 0. constructor.
      + exists (S k). econstructor; eassumption.
    - intros [k H]. induction H as [p|k p q r H IH Hc]; [apply rt_refl|].
      eapply rt_trans; [exact IH|]. apply rt_step. easy.
  Qed.
  Lemma path_trans p q : clos_trans pid (child_rel table) p q <-> exists k, path (S k) p q.
  Proof.
    split.
    - intros H. apply clos_trans_tn1_iff in H. induction H as [r Hc|r s Hc _ [k IH]].
      + exists 0. econstructor; [constructor|easy].
      + exists (S k). econstructor; eassumption.
    - intros [k H]. revert q H. induction k as [|k IH]; intros q H; inversion H; subst.
      + inversion H1; subst. apply t_step. easy.
      + eapply t_trans; [apply IH; eassumption|]. apply t_step. easy.
  Qed.
  Lemma path_prefix k1 k2 p r : path (k1 + k2) p r -> exists q, path k1 p q /\ path k2 q r.
  Proof.
    revert r. induction k2 as [|k2 IH]; intros r H.
    - rewrite Nat.add_0_r in H. exists r. split; [easy|constructor].
    - rewrite Nat.add_succ_r in H. inversion H; subst. destruct (IH _ H1) as (q' & A & B).
      exists q'. split; [easy|]. econstructor; eassumption.
  Qed.

  Lemma children_in parents c : In c (children_of table parents) <->
    exists p, In p parents /\ child_rel table p c.
  Proof.
    unfold children_of. rewrite in_flat_map. split.
    - intros (p & Hp & Hc). apply in_map_iff in Hc. destruct Hc as (x & <- & Hx).
      apply filter_In in Hx. destruct Hx as [Hx Hi]. unfold is_child_of in Hi.
      exists p. split; [easy|]. exists x. split; [easy|]. split; [easy|].
      destruct (p_parent x) as [q|]; [|discriminate]. apply N.eqb_eq in Hi. congruence.
    - intros (p & Hp & x & Hx & <- & Hpar). exists p. split; [easy|]. apply in_map, filter_In.
      split; [easy|]. unfold is_child_of. rewrite Hpar. apply N.eqb_refl.
  Qed.

  Variable root : pid.
  Fixpoint level (k : nat) : list pid :=
    match k with 0 => [root] | S k => children_of table (level k) end.
  Lemma level_path k p : In p (level k) <-> path k root p.
  Proof.
    revert p. induction k as [|k IH]; intros p; simpl.
    - split; [intros [<-|[]]; constructor|]. intros H. inversion H. auto.
    - rewrite children_in. split.
      + intros (q & Hq & Hc). econstructor; [apply IH; eassumption|easy].
      + intros H. inversion H; subst. exists q. split; [apply IH; easy|easy].
  Qed.

  Definition upto (k m : nat) : list pid := flat_map level (seq k m).
  Lemma refresh_levels fuel k tree t : refresh_loop fuel table (level k) tree = Some t ->
    exists m, t = tree ++ upto k m /\ level (k + m) = [].
  Proof.
    revert k tree. induction fuel as [|fuel IH]; intros k tree H; cbn [refresh_loop] in H.
    - destruct (level k) eqn:E; [|discriminate]. injection H as <-. exists 0.
      rewrite Nat.add_0_r. unfold upto. simpl. rewrite app_nil_r. auto.
    - destruct (level k) as [|p r] eqn:E.
      + injection H as <-. exists 0. rewrite Nat.add_0_r. unfold upto. simpl. rewrite app_nil_r. auto.
      + rewrite <- E in H. change (children_of table (level k)) with (level (S k)) in H.
        destruct (IH (S k) _ H) as (m & -> & Hm). exists (S m). split.
        * unfold upto. simpl. rewrite app_assoc. easy.
        * rewrite Nat.add_succ_r. easy.
  Qed.
  Lemma refresh_finds fuel k tree m : level (k + m) = [] -> m <= fuel ->
    exists t, refresh_loop fuel table (level k) tree = Some t.
  Proof.
    revert k tree m. induction fuel as [|fuel IH]; intros k tree m Hm Hle; cbn [refresh_loop].
    - assert (m = 0) by lia. subst m. rewrite Nat.add_0_r in Hm. rewrite Hm. eauto.
    - destruct (level k) as [|p r] eqn:E; [eauto|]. rewrite <- E.
      change (children_of table (level k)) with (level (S k)).
      destruct m as [|m]; [rewrite Nat.add_0_r in Hm; congruence|].
      apply (IH (S k) _ m); [rewrite <- Hm; f_equal; lia|lia].
  Qed.
  Lemma level_empty k m : level k = [] -> level (k + m) = [].
  Proof.
    intros H. induction m as [|m IH]; [rewrite Nat.add_0_r; easy|].
    rewrite Nat.add_succ_r. simpl. rewrite IH. easy.
  Qed.

  (** *** Cycles *)
  Lemma cyclic_levels p : descendant table root p -> clos_trans pid (child_rel table) p p ->
    forall k, level k <> [].
  Proof.
    intros Hd Hc k. apply path_descendant in Hd. destruct Hd as [k0 H0].
    apply path_trans in Hc. destruct Hc as [c Hc].
    assert (Hm : forall m, path (k0 + m * S c) root p).
    { induction m as [|m IH]; [rewrite Nat.add_0_r; easy|].
      replace (k0 + S m * S c) with ((k0 + m * S c) + S c) by lia. eapply path_app; eassumption. }
    specialize (Hm k). replace (k0 + k * S c) with (k + (k0 + k * c)) in Hm by lia.
    apply path_prefix in Hm. destruct Hm as (q & Hq & _). apply level_path in Hq.
    intros E. rewrite E in Hq. destruct Hq.
  Qed.
  Theorem cyclic_diverges p : descendant table root p -> clos_trans pid (child_rel table) p p ->
    forall fuel, refresh fuel table root = None.
  Proof.
    intros Hd Hc fuel. unfold refresh. change [root] with (level 0).
    destruct (refresh_loop fuel table (level 0) []) as [t|] eqn:E; [|easy].
    destruct (refresh_levels _ _ _ _ E) as (m & _ & Hm).
    exfalso. exact (cyclic_levels p Hd Hc _ Hm).
  Qed.

  (** *** Trees *)
  Hypothesis Hok : table_ok table.
  Hypothesis Hac : acyclic_below table root.

  Lemma unique_entry x y : In x table -> In y table -> p_pid x = p_pid y -> x = y.
  Proof.
    unfold table_ok in Hok. revert Hok. generalize table as l. clear Hac.
    induction l as [|z l IH]; intros Hnd Hx Hy E; [destruct Hx|]. cbn [map] in Hnd.
    apply NoDup_cons_iff in Hnd. destruct Hnd as [Hz Hnd].
    destruct Hx as [->|Hx], Hy as [->|Hy]; auto; exfalso; apply Hz.
    - rewrite E. apply in_map. easy.
    - rewrite <- E. apply in_map. easy.
  Qed.
  Lemma unique_parent p q c : child_rel table p c -> child_rel table q c -> p = q.
  Proof.
    intros (x & Hx & Ex & Px) (y & Hy & Ey & Py).
    assert (x = y) by (apply unique_entry; congruence). congruence.
  Qed.
  Lemma unique_depth k1 k2 p : path k1 root p -> path k2 root p -> k1 = k2.
  Proof.
    intros H1 H2.
    assert (Hlt : forall a b q, a < b -> path a root q -> path b root q -> False).
    { intros a. induction a as [|a IH]; intros b q Hab Ha Hb.
      - inversion Ha; subst. destruct b as [|b]; [lia|].
        apply (Hac q); [apply rt_refl|]. apply path_trans. exists b. easy.
      - destruct b as [|b]; [lia|]. inversion Ha; subst. inversion Hb; subst.
        assert (q0 = q1) by (eapply unique_parent; eassumption). subst q1.
        apply (IH b q0); [lia|easy|easy]. }
    destruct (lt_eq_lt_dec k1 k2) as [[H|H]|H]; [|easy|]; exfalso; eauto.
  Qed.
  Lemma NoDup_flat_map {A B} (g : A -> list B) l : NoDup l -> (forall a, In a l -> NoDup (g a)) ->
    (forall a b x, In a l -> In b l -> In x (g a) -> In x (g b) -> a = b) -> NoDup (flat_map g l).
  Proof.
    induction l as [|a l IH]; intros Hn Hg Hd; simpl; [constructor|].
    apply NoDup_cons_iff in Hn. destruct Hn as [Ha Hn].
    apply NoDup_app_intro.
    - apply Hg. left. easy.
    - apply IH; [easy| |]; intros; [apply Hg; right; easy|eapply Hd; try right; eassumption].
    - intros x Hx Hx'. apply in_flat_map in Hx'. destruct Hx' as (b & Hb & Hxb).
      assert (a = b) by (eapply Hd; [left; easy|right; eassumption|eassumption|easy]). congruence.
  Qed.
  Lemma NoDup_filter_map (f : process -> bool) : NoDup (map p_pid (filter f table)).
  Proof.
    revert Hok. unfold table_ok. generalize table as l. clear.
    induction l as [|x l IH]; intros Hn; simpl; [constructor|].
    cbn [map] in Hn. apply NoDup_cons_iff in Hn. destruct Hn as [Hx Hn].
    destruct (f x); [|apply IH; easy]. cbn [map]. constructor; [|apply IH; easy].
    intros Hin. apply Hx. apply in_map_iff in Hin. destruct Hin as (y & <- & Hy).
    apply in_map. apply filter_In in Hy. easy.
  Qed.
  Lemma level_nodup k : NoDup (level k).
  Proof.
    induction k as [|k IH]; simpl; [constructor; [easy|constructor]|].
    apply NoDup_flat_map; [easy|intros; apply NoDup_filter_map|].
    intros a b x _ _ Ha Hb.
    assert (Hc : forall p, In x (map p_pid (filter (is_child_of p) table)) -> child_rel table p x).
    { intros p Hp. destruct (proj1 (children_in [p] x)) as (p' & [<-|[]] & Hc); [|easy].
      unfold children_of. simpl. rewrite app_nil_r. easy. }
    eapply unique_parent; apply Hc; eassumption.
  Qed.
  Lemma upto_nodup m : NoDup (upto 0 m).
  Proof.
    apply NoDup_flat_map; [apply seq_NoDup|intros; apply level_nodup|].
    intros a b x _ _ Ha Hb. apply level_path in Ha, Hb. eapply unique_depth; eassumption.
  Qed.
  Lemma deep_level_empty : level (S (length table)) = [].
  Proof.
    destruct (level (S (length table))) as [|p l] eqn:E; [easy|]. exfalso.
    assert (Hne : forall k, k <= S (length table) -> level k <> []).
    { intros k Hk E'. pose proof (level_empty k (S (length table) - k) E') as H'.
      replace (k + (S (length table) - k)) with (S (length table)) in H' by lia. congruence. }
    (* the non-root part: one pid of the table per level *)
    set (pids := flat_map level (seq 1 (S (length table)))).
    assert (Hnd : NoDup pids).
    { pose proof (upto_nodup (S (S (length table)))) as H. unfold upto in H.
      cbn [seq flat_map] in H. apply NoDup_app_split in H. exact H. }
    assert (Hincl : incl pids (map p_pid table)).
    { intros x Hx. unfold pids in Hx. apply in_flat_map in Hx. destruct Hx as (k & Hk & Hx).
      apply in_seq in Hk. destruct k as [|k]; [lia|]. simpl in Hx. apply children_in in Hx.
      destruct Hx as (q & _ & y & Hy & <- & _). apply in_map. easy. }
    pose proof (NoDup_incl_length Hnd Hincl) as Hlen. rewrite map_length in Hlen.
    assert (Hbig : forall a m, (forall k, a <= k < a + m -> level k <> []) -> m <= length (flat_map level (seq a m))).
    { intros a m. revert a. induction m as [|m IH]; intros a Ha; simpl; [lia|].
      rewrite app_length. pose proof (IH (S a) (fun k Hk => Ha k ltac:(lia))) as H'.
      pose proof (Ha a ltac:(lia)) as Hn. destruct (level a); [easy|]. simpl. lia. }
    specialize (Hbig 1 (S (length table)) (fun k Hk => Hne k ltac:(lia))). fold pids in Hbig. lia.
  Qed.

  Theorem refresh_ok fuel : S (length table) <= fuel ->
    exists tree, refresh fuel table root = Some tree /\ NoDup tree /\
      forall p, In p tree <-> descendant table root p.
  Proof.
    intros Hle. unfold refresh. change [root] with (level 0).
    destruct (refresh_finds fuel 0 [] (S (length table)) deep_level_empty Hle) as (t & Ht).
    exists t. split; [easy|]. destruct (refresh_levels _ _ _ _ Ht) as (m & -> & Hm).
    cbn [app] in *. split; [apply upto_nodup|]. intros p. unfold upto. rewrite in_flat_map, path_descendant.
    split.
    - intros (k & _ & Hk). exists k. apply level_path. easy.
    - intros (k & Hk). apply level_path in Hk. exists k. split; [|easy]. apply in_seq.
      destruct (le_lt_dec m k) as [Hmk|Hmk]; [|lia]. exfalso.
      pose proof (level_empty (0 + m) (k - m) Hm) as H'. replace (0 + m + (k - m)) with k in H' by lia.
      rewrite H' in Hk. destruct Hk.
  Qed.

  Lemma find_pid x : In x table -> find (fun y => N.eqb (p_pid y) (p_pid x)) table = Some x.
  Proof.
    intros Hx. destruct (find _ table) as [y|] eqn:E.
    - apply find_some in E. destruct E as [Hy E]. apply N.eqb_eq in E. f_equal. apply unique_entry; auto.
    - pose proof (find_none _ _ E x Hx) as H. cbv beta in H. rewrite N.eqb_refl in H. discriminate.
  Qed.
  Theorem tree_processes_ok tree : NoDup tree ->
    NoDup (tree_processes table tree) /\
    forall x, In x (tree_processes table tree) <-> In x table /\ In (p_pid x) tree.
  Proof.
    intros Hn. unfold tree_processes. split.
    - apply NoDup_flat_map; [easy| |].
      + intros p _. destruct (find _ table); [constructor; [easy|constructor]|constructor].
      + assert (Hp : forall p x, In x (match find (fun y => N.eqb (p_pid y) p) table with
            Some y => [y] | None => [] end) -> p_pid x = p).
        { intros p x Hx. destruct (find _ table) as [y|] eqn:E; [|destruct Hx].
          destruct Hx as [->|[]]. apply find_some in E. apply N.eqb_eq. apply E. }
        intros a b x _ _ Ha Hb. apply Hp in Ha, Hb. congruence.
    - intros x. rewrite in_flat_map. split.
      + intros (p & Hp & Hx). destruct (find _ table) as [y|] eqn:E; [|destruct Hx].
        destruct Hx as [->|[]]. apply find_some in E. destruct E as [H1 H2]. apply N.eqb_eq in H2.
        split; [easy|subst p; easy].
      + intros [Hx Hp]. exists (p_pid x). split; [easy|]. rewrite find_pid by easy. left. easy.
  Qed.
End Tree.

Lemma sum_permutation l l' : Permutation l l' -> fold_right N.add 0%N l = fold_right N.add 0%N l'.
Proof. induction 1; simpl; lia. Qed.
Theorem memory_and_kill table root : table_ok table -> acyclic_below table root ->
  forall descends : process -> bool,
  (forall x, descends x = true <-> descendant table root (p_pid x)) ->
  forall fuel, S (length table) <= fuel ->
  exists tree, refresh fuel table root = Some tree /\
    tree_memory table tree = fold_right N.add 0%N (map p_memory (filter descends table)) /\
    Permutation (tree_killed table tree) (map p_pid (filter descends table)).
Proof.
  intros Hok Hac descends Hd fuel Hf.
  destruct (refresh_ok table root Hok Hac fuel Hf) as (tree & Ht & Hn & Hin). exists tree. split; [easy|].
  destruct (tree_processes_ok table Hok tree Hn) as [H1 H2].
  assert (Hp : Permutation (tree_processes table tree) (filter descends table)).
  { apply NoDup_Permutation; [easy|apply NoDup_filter; apply (NoDup_map_inv p_pid); exact Hok|].
    intros x. rewrite H2, filter_In, Hin, Hd. easy. }
  split; [unfold tree_memory; apply sum_permutation, Permutation_map; easy|].
  apply Permutation_map. easy.
Qed.

(** Self durations of the floating-point tree *)
From Verif Require Import Base Tree_Model Tree_Spec Tree_Proofs Tree_Proofs2 Float_Model Float_Spec Float_Proofs Float_Proofs2 Float_Proofs3.

Section Self.
  Context {A : Type}.
  Implicit Types (xs ys : list (fstat A)) (s : fstat A) (f : ftree A).

  Definition dur_of xs j : f64 := match nth_error xs j with Some s => fs_dur s | None => NotANumber end.
  Definition add_up xs (ids : list nat) (t : f64) : f64 :=
    fold_left (fun t j => fadd t (dur_of xs j)) ids t.

  Definition kept (n n' : fnode A) : Prop :=
    fn_stat n' = fn_stat n /\ fn_self n' = fn_self n /\ fn_ch0 n' = fn_ch0 n /\ fn_ch1 n' = fn_ch1 n.
  Lemma kept_refl l : Forall2 kept l l.
  Proof. induction l; constructor; auto. repeat split. Qed.
  Lemma kept_update l i q : Forall2 kept l (update l i (fun c : fnode A => fset_parent c q)).
  Proof.
    revert i. induction l as [|x l IH]; intros [|i]; simpl; constructor; auto; try apply kept_refl; repeat split.
  Qed.
  Lemma kept_trans l m n : Forall2 kept l m -> Forall2 kept m n -> Forall2 kept l n.
  Proof.
    intros H. revert n. induction H as [|x y l m (a & b & c & d) H IH]; intros n K; inversion K as [|? z ? ? (e & g & h & k)]; subst; constructor; auto.
    repeat split; congruence.
  Qed.

  Lemma walk_self fuel : forall n cur (a : fstat A) (w w' : fwalk A), finsert_walk fuel n cur a w = FWDone w' ->
    Forall2 kept (fw_acts w) (fw_acts w') /\
    exists ext, fw_children w' = fw_children w ++ ext /\
      Forall (fun j => j < length (fw_acts w)) ext /\
      fw_dur w' = add_up (map fn_stat (fw_acts w)) ext (fw_dur w).
  Proof.
    induction fuel as [|fuel IH]; intros n cur a w w' H; (destruct n as [|m];
      [injection H as <-; split; [apply kept_refl|]; exists []; rewrite app_nil_r; auto|]); [discriminate H|].
    cbn [finsert_walk] in H. destruct (nth_error (fw_acts w) m) as [c|] eqn:N; [|discriminate H].
    destruct (flt (fs_start (fn_stat c)) (fs_start a)).
    - destruct (fle (fs_end (fn_stat c)) (fs_start a)); [|discriminate H].
      injection H as <-. split; [apply kept_refl|]. exists []. rewrite app_nil_r. auto.
    - destruct (Nat.leb (fn_first c) m); [|discriminate H].
      destruct (IH _ _ _ _ _ H) as (K & ext & E1 & E2 & E3). simpl in *. clear IH H.
      split; [eapply kept_trans; [apply kept_update|exact K]|].
      exists (m :: ext). split; [rewrite E1, <- app_assoc; reflexivity|].
      rewrite map_update in E3.
      assert (L : length (update (fw_acts w) m (fun c0 : fnode A => fset_parent c0 (nonzero cur))) = length (fw_acts w)).
      { symmetry. eapply Forall2_length. apply kept_update. }
      rewrite L in E2. split.
      + constructor; [apply nth_error_Some; congruence|exact E2].
      + rewrite E3. unfold add_up at 2. simpl. unfold dur_of at 2. rewrite nth_error_map, N. reflexivity.
  Qed.

  Definition part (l : list nat) (a b : nat) := firstn (b - a) (skipn a l).
  Lemma part_app l m a b : b <= length l -> part (l ++ m) a b = part l a b.
  Proof.
    intros Hb. unfold part. destruct (Nat.le_gt_cases a b) as [H|H].
    - rewrite skipn_app. rewrite firstn_app, skipn_length.
      replace (b - a - (length l - a)) with 0 by lia. simpl. apply app_nil_r.
    - replace (b - a) with 0 by lia. reflexivity.
  Qed.
  Lemma part_tail l m : part (l ++ m) (length l) (length (l ++ m)) = m.
  Proof.
    unfold part. rewrite skipn_app, skipn_all, Nat.sub_diag. simpl. rewrite app_length.
    replace (length l + length m - length l) with (length m) by lia. apply firstn_all.
  Qed.

  Definition node_ok xs (children : list nat) (n : fnode A) : Prop :=
    fn_ch0 n <= fn_ch1 n <= length children /\
    Forall (fun j => j < length xs) (part children (fn_ch0 n) (fn_ch1 n)) /\
    fn_self n = fsub (fs_dur (fn_stat n)) (add_up xs (part children (fn_ch0 n) (fn_ch1 n)) (Num 0)).
  Lemma node_ok_grow xs ys ch more n : node_ok xs ch n -> node_ok (xs ++ ys) (ch ++ more) n.
  Proof.
    intros (H1 & H2 & H3). unfold node_ok. rewrite app_length, part_app by lia.
    split; [lia|]. split.
    - eapply Forall_impl; [|exact H2]. simpl. intros j Hj. rewrite app_length. lia.
    - rewrite H3. f_equal. unfold add_up. clear H3. generalize (Num 0).
      induction H2 as [|j l Hj H IH]; intros t; simpl; [reflexivity|].
      rewrite IH. f_equal. f_equal. unfold dur_of. rewrite nth_error_app1 by exact Hj. reflexivity.
  Qed.
  Definition book xs (b : fbuilder A) : Prop :=
    map fn_stat (fb_acts b) = xs /\ Forall (node_ok xs (fb_children b)) (fb_acts b).

  Lemma insert_book xs b a b' : book xs b -> finsert b a = (FIOk, b') -> book (xs ++ [a]) b'.
  Proof.
    intros [Hm Hn] H. pose proof (finsert_stats _ _ _ H) as Hs. rewrite Hm in Hs. split; [exact Hs|].
    unfold finsert in H. destruct (flt (fs_end a) (fb_last b)); [discriminate|].
    destruct (finsert_walk _ _ _ _ _) as [w|e w|] eqn:W; try discriminate. injection H as <-. simpl in *.
    apply walk_self in W. simpl in W. rewrite Hm in W. destruct W as (K & ext & E1 & E2 & E3).
    assert (L : length (fb_acts b) = length xs) by (rewrite <- Hm; symmetry; apply map_length).
    rewrite E1. apply Forall_app. split.
    - revert Hn. clear - K. generalize (fb_children b) as ch. induction K as [|x y l m (a1 & a2 & a3 & a4) K IH]; intros ch Hn; constructor.
      + inversion Hn as [|? ? (H1 & H2 & H3) Hn']; subst. apply node_ok_grow. unfold node_ok. rewrite a1, a2, a3, a4. auto.
      + inversion Hn; subst. apply IH. assumption.
    - constructor; [|constructor]. unfold node_ok. simpl. rewrite part_tail.
      split; [rewrite app_length; lia|]. split.
      + eapply Forall_impl; [|exact E2]. simpl. intros j Hj. rewrite app_length. lia.
      + rewrite E3. f_equal. rewrite L in E2. unfold add_up. clear E3. generalize (Num 0).
        clear - E2. induction E2 as [|j l Hj H IH]; intros t; simpl; [reflexivity|].
        rewrite IH. f_equal. f_equal. unfold dur_of. rewrite nth_error_app1 by exact Hj. reflexivity.
  Qed.
  Lemma insert_all_book ys : forall xs b b', book xs b -> finsert_all b ys = (inl tt, b') -> book (xs ++ ys) b'.
  Proof.
    induction ys as [|y ys IH]; intros xs b b' Hb H; simpl in H; [injection H as <-; rewrite app_nil_r; exact Hb|].
    destruct (finsert b y) as [[|e|] b1] eqn:E; try discriminate.
    destruct (finsert_all b1 ys) as [[[]|[j e]] b2] eqn:E2; [|discriminate]. injection H as <-.
    pose proof (insert_book _ _ _ _ Hb E) as Hb1. specialize (IH _ _ _ Hb1 E2). rewrite <- app_assoc in IH. exact IH.
  Qed.
  Lemma root_walk_ext fuel : forall n (acts : list (fnode A)) ch ch', froot_walk fuel n acts ch = Ret ch' ->
    exists more, ch' = ch ++ more.
  Proof.
    induction fuel as [|fuel IH]; intros n acts ch ch' H; (destruct n as [|m];
      [injection H as <-; exists []; symmetry; apply app_nil_r|]); [discriminate H|].
    cbn [froot_walk] in H. destruct (nth_error acts m) as [r|]; [|discriminate H].
    destruct (Nat.leb _ m); [|discriminate H]. apply IH in H. destruct H as (more & ->).
    exists (m :: more). rewrite <- app_assoc. reflexivity.
  Qed.

  Lemma tree_book xs f : ftree_of xs f -> forall b s, freported xs b s ->
    exists d, fdirect_children f b = Ret d /\ Forall (fun j => j < length xs) d /\
      fself_duration f b = Ret (fsub (fs_dur s) (add_up xs d (Num 0))).
  Proof.
    intros (bd & Hb & Hf) b s Hs.
    assert (B : book xs bd).
    { apply (insert_all_book xs [] fb_new bd); [split; [reflexivity|constructor]|exact Hb]. }
    destruct B as [Hm Hn].
    unfold fbuild in Hf. destruct (froot_walk _ _ _ _) as [ch|] eqn:R; [|discriminate]. simpl in Hf.
    destruct (Nat.eqb _ _); [|discriminate]. injection Hf as <-.
    apply root_walk_ext in R. destruct R as (more & ->).
    unfold fdirect_children, fself_duration, factivity_trace. simpl.
    unfold freported in Hs. rewrite <- Hm, nth_error_map in Hs.
    destruct (nth_error (fb_acts bd) b) as [n|] eqn:N; [|discriminate]. injection Hs as <-. simpl.
    rewrite Forall_forall in Hn. specialize (Hn n (nth_error_In _ _ N)).
    apply (node_ok_grow _ [] _ more) in Hn. rewrite app_nil_r in Hn. destruct Hn as (H1 & H2 & H3).
    exists (part (fb_children bd ++ more) (fn_ch0 n) (fn_ch1 n)). split; [|split; [exact H2|rewrite H3; reflexivity]].
    unfold nslice. replace (Nat.leb (fn_ch0 n) (fn_ch1 n)) with true by (symmetry; apply Nat.leb_le; lia).
    replace (Nat.leb (fn_ch1 n) _) with true by (symmetry; apply Nat.leb_le; lia). reflexivity.
  Qed.

  (** Sums *)
  Lemma fadd_rounds x y : rounds_to (x + y) (fadd (Num x) (Num y)).
  Proof. apply of_exact_rounds. Qed.
  Lemma total_fold ds0 ds t : total ds0 t -> Forall finite ds -> total (ds0 ++ ds) (fold_left fadd ds t).
  Proof.
    intros Ht Hd. revert ds0 t Ht. induction Hd as [|d ds (z & -> & _) Hd IH]; intros ds0 t Ht.
    - rewrite app_nil_r. exact Ht.
    - simpl. replace (ds0 ++ Num z :: ds) with ((ds0 ++ [Num z]) ++ ds) by (rewrite <- app_assoc; reflexivity).
      apply IH. destruct t as [y|q|].
      + eapply total_add; [exact Ht|]. apply fadd_rounds.
      + apply total_inf. exact Ht.
      + exfalso. clear - Ht. remember NotANumber as r eqn:E. induction Ht; subst; try discriminate.
        simpl in H. contradiction.
  Qed.
  Lemma total_not_nan ds : ~ total ds NotANumber.
  Proof. intros H. remember NotANumber as r eqn:E. destruct H; subst; try discriminate. simpl in H0. contradiction. Qed.

  Lemma f_self xs f : timed xs -> ftree_of xs f -> forall b s, freported xs b s ->
    exists d ds t r, fdirect_children f b = Ret d /\
      Forall2 (fun i x => exists c, freported xs i c /\ x = fs_dur c) d ds /\
      total ds t /\ fself_duration f b = Ret r /\ left_by (fs_dur s) t r.
  Proof.
    intros Ht Hf b s Hs. destruct (tree_book xs f Hf b s Hs) as (d & Hd & Hlt & Hself).
    assert (D : exists ds, Forall2 (fun i x => exists c, freported xs i c /\ x = fs_dur c) d ds /\ Forall finite ds /\
      forall t, add_up xs d t = fold_left fadd ds t).
    { clear Hd Hself. induction Hlt as [|j l Hj H (ds & I1 & I2 & I3)].
      - exists []. split; [constructor|]. split; [constructor|]. reflexivity.
      - destruct (nth_error xs j) as [c|] eqn:N; [|apply nth_error_None in N; lia].
        exists (fs_dur c :: ds). split; [constructor; [exists c; split; [exact N|reflexivity]|exact I1]|].
        split.
        + constructor; [|exact I2]. unfold timed in Ht. rewrite Forall_forall in Ht.
          apply (Ht c (nth_error_In _ _ N)).
        + intros t. unfold add_up. simpl. unfold dur_of at 2. rewrite N. apply I3. }
    destruct D as (ds & D1 & D2 & D3).
    pose proof (total_fold [] ds (Num 0) total_nil D2) as Tt. simpl in Tt.
    exists d, ds, (fold_left fadd ds (Num 0)). rewrite D3 in Hself.
    eexists. split; [exact Hd|]. split; [exact D1|]. split; [exact Tt|]. split; [exact Hself|].
    assert (Fs : finite (fs_dur s)).
    { unfold timed in Ht. rewrite Forall_forall in Ht. apply (Ht s (nth_error_In _ _ Hs)). }
    destruct Fs as (z & -> & _).
    destruct (fold_left fadd ds (Num 0)) as [t|q|] eqn:E.
    - simpl. unfold fsub. simpl. replace (z - t)%Z with (z + - t)%Z by lia. apply of_exact_rounds.
    - reflexivity.
    - destruct (total_not_nan _ Tt).
  Qed.

  Lemma end_rounds s : finite (fs_start s) -> finite (fs_dur s) ->
    exists x y, fs_start s = Num x /\ fs_dur s = Num y /\ rounds_to (x + y) (fs_end s) /\
      ((0 <= y)%Z -> at_most (fs_start s) (fs_end s)).
  Proof.
    intros (x & Ex & Rx) (y & Ey & Ry). exists x, y. split; [exact Ex|]. split; [exact Ey|].
    unfold fs_end. rewrite Ex, Ey. split; [apply fadd_rounds|]. intros Hy. apply rounds_above; [exact Rx|lia].
  Qed.
End Self.

(** The floating-point tree builder simulates the exact one *)
From Verif Require Import Base Tree_Model Tree_Spec Tree_Proofs Tree_Proofs2 Float_Model Float_Spec Float_Proofs.

Section Sim.
  Context {A : Type}.
  (** Times of the two models that order alike *)
  Variable T : f64 -> Z -> Prop.
  Hypothesis T_lt : forall a x b y, T a x -> T b y -> flt a b = (x <? y)%Z.
  Hypothesis T_le : forall a x b y, T a x -> T b y -> fle a b = (x <=? y)%Z.
  Hypothesis T_min : forall a x, T a x -> flt a f64_min = false.

  Definition same_stat (f : fstat A) (s : stat A) : Prop :=
    fs_act f = s_act s /\ T (fs_start f) (s_start s) /\ T (fs_end f) (s_end s).
  Definition same_node (f : fnode A) (n : node A) : Prop :=
    same_stat (fn_stat f) (n_stat n) /\ fn_first f = n_first n /\ fn_ch0 f = n_ch0 n /\
    fn_ch1 f = n_ch1 n /\ fn_parent f = n_parent n.
  Definition same_error (f : ftree_error A) (e : tree_error A) : Prop :=
    match f, e with
    | FUnexpectedOrder p c, UnexpectedOrder p' c' => T p p' /\ T c c'
    | FPartialOverlap p c, PartialOverlap p' c' => same_stat p p' /\ same_stat c c'
    | _, _ => False
    end.
  Definition same_nodes := Forall2 same_node.
  Definition same_walk (f : fwalk A) (w : walk A) : Prop :=
    same_nodes (fw_acts f) (w_acts w) /\ fw_children f = w_children w /\ fw_first f = w_first w.
  Definition same_builder (f : fbuilder A) (b : builder A) : Prop :=
    same_nodes (fb_acts f) (b_acts b) /\ fb_children f = b_children b /\
    match b_last b with Some l => T (fb_last f) l | None => fb_last f = f64_min end.

  Lemma forall2_nth {X Y} (R : X -> Y -> Prop) l m i : Forall2 R l m ->
    match nth_error l i, nth_error m i with
    | Some x, Some y => R x y
    | None, None => True
    | _, _ => False
    end.
  Proof.
    intros H. revert i. induction H as [|x y l m Hxy H IH]; intros [|i]; simpl; auto. apply IH.
  Qed.
  Lemma update_same l m i q : same_nodes l m ->
    same_nodes (update l i (fun c => fset_parent c q)) (update m i (fun c => set_parent c q)).
  Proof.
    intros H. revert i. induction H as [|x y l m Hxy H IH]; intros [|i]; simpl.
    - constructor.
    - constructor.
    - constructor; [|exact H]. destruct Hxy as (a & b & c & d & _). repeat split; simpl; auto; apply a.
    - constructor; [exact Hxy|apply IH].
  Qed.

  Lemma walk_same fuel : forall n cur fa a fw w, same_stat fa a -> same_walk fw w ->
    match finsert_walk fuel n cur fa fw, insert_walk fuel n cur a w with
    | FWDone f, WDone w => same_walk f w
    | FWErr fe f, WErr e w => same_error fe e /\ same_walk f w
    | FWPanic, WPanic => True
    | _, _ => False
    end.
  Proof.
    induction fuel as [|fuel IH]; intros n cur fa a fw w Hs Hw; (destruct n as [|m]; [exact Hw|]);
      [exact I|].
    cbn [finsert_walk insert_walk].
    destruct Hw as (Hn & Hc & Hf).
    pose proof (forall2_nth _ _ _ m Hn) as HN.
    destruct (nth_error (fw_acts fw) m) as [fc|], (nth_error (w_acts w) m) as [c|]; try contradiction; [|exact I].
    destruct HN as (HS & H1 & H2 & H3 & H4).
    destruct Hs as (Ha & Hst & Hen). destruct HS as (Ha' & Hst' & Hen').
    rewrite (T_lt _ _ _ _ Hst' Hst), (T_le _ _ _ _ Hen' Hst), H1.
    destruct (s_start (n_stat c) <? s_start a)%Z.
    - destruct (s_end (n_stat c) <=? s_start a)%Z; [repeat split; assumption|].
      repeat split; assumption.
    - destruct (Nat.leb (n_first c) m); [|exact I].
      apply IH; [repeat split; assumption|].
      split; [apply update_same; exact Hn|]. split; simpl; [rewrite Hc; reflexivity|reflexivity].
  Qed.

  Lemma insert_same fb b fa a : same_builder fb b -> same_stat fa a ->
    match finsert fb fa, insert b a with
    | (FIOk, f'), (IOk, b') => same_builder f' b'
    | (FIErr fe, f'), (IErr e, b') => same_error fe e /\ same_builder f' b'
    | (FIPanic, f'), (IPanic, b') => same_builder f' b'
    | _, _ => False
    end.
  Proof.
    intros Hb Hs. unfold finsert, insert, out_of_order.
    assert (D : flt (fs_end fa) (fb_last fb) =
                match b_last b with Some l => (s_end a <? l)%Z | None => false end).
    { destruct Hb as (_ & _ & Hl). destruct Hs as (_ & _ & He).
      destruct (b_last b) as [l|]; [apply T_lt; assumption|rewrite Hl; apply (T_min _ _ He)]. }
    rewrite D. clear D.
    assert (Go : match
        match finsert_walk (length (fb_acts fb)) (length (fb_acts fb)) (length (fb_acts fb)) fa
                (mk_fwalk (fb_acts fb) (fb_children fb) (Num 0) (length (fb_acts fb))) with
        | FWPanic => (FIPanic, fb)
        | FWErr e w => (FIErr e, mk_fbuilder (fw_acts w) (fw_children w) (fs_end fa))
        | FWDone w => (FIOk, mk_fbuilder
             (fw_acts w ++ [mk_fnode fa (fsub (fs_dur fa) (fw_dur w)) (fw_first w) (length (fb_children fb))
                              (length (fw_children w)) None]) (fw_children w) (fs_end fa))
        end,
        match insert_walk (length (b_acts b)) (length (b_acts b)) (length (b_acts b)) a
                (mk_walk (b_acts b) (b_children b) 0%Z (length (b_acts b))) with
        | WPanic => (IPanic, b)
        | WErr e w => (IErr e, mk_builder (w_acts w) (w_children w) (Some (s_end a)))
        | WDone w => (IOk, mk_builder
               (w_acts w ++ [mk_node a (s_dur a - w_dur w)%Z (w_first w) (length (b_children b))
                               (length (w_children w)) None]) (w_children w) (Some (s_end a)))
        end with
      | (FIOk, f'), (IOk, b') => same_builder f' b'
      | (FIErr fe, f'), (IErr e, b') => same_error fe e /\ same_builder f' b'
      | (FIPanic, f'), (IPanic, b') => same_builder f' b'
      | _, _ => False
      end).
    { assert (EL : length (fb_acts fb) = length (b_acts b)) by (destruct Hb as (H & _); eapply Forall2_length; exact H).
      assert (EC : fb_children fb = b_children b) by apply Hb.
      rewrite EL, EC.
      pose proof (walk_same (length (b_acts b)) (length (b_acts b)) (length (b_acts b)) fa a
                    (mk_fwalk (fb_acts fb) (b_children b) (Num 0) (length (b_acts b)))
                    (mk_walk (b_acts b) (b_children b) 0%Z (length (b_acts b))) Hs) as W.
      assert (W0 : same_walk (mk_fwalk (fb_acts fb) (b_children b) (Num 0) (length (b_acts b)))
                             (mk_walk (b_acts b) (b_children b) 0%Z (length (b_acts b)))).
      { repeat split; simpl. apply Hb. }
      specialize (W W0). clear W0.
      destruct (finsert_walk _ _ _ _ _) as [f|fe f|], (insert_walk _ _ _ _ _) as [w|e w|]; try contradiction.
      - destruct W as (W1 & W2 & W3). repeat split; simpl.
        + apply Forall2_app; [exact W1|]. constructor; [|constructor].
          repeat split; simpl; try apply Hs; [exact W3|rewrite W2; reflexivity].
        + exact W2.
        + apply Hs.
      - destruct W as (We & W1 & W2 & W3). split; [exact We|]. repeat split; simpl; [exact W1|exact W2|apply Hs].
      - exact Hb. }
    destruct (b_last b) as [l|] eqn:EB; [|exact Go].
    destruct (s_end a <? l)%Z; [|exact Go].
    split; [|exact Hb]. destruct Hb as (_ & _ & Hl). rewrite EB in Hl. split; [exact Hl|apply Hs].
  Qed.

  Lemma insert_all_same fxs : forall xs fb b, Forall2 same_stat fxs xs -> same_builder fb b ->
    match finsert_all fb fxs, insert_all b xs with
    | (inl tt, f'), (inl tt, b') => same_builder f' b'
    | (inr (i, FIErr fe), f'), (inr (j, IErr e), b') => i = j /\ same_error fe e /\ same_builder f' b'
    | (inr (i, FIPanic), f'), (inr (j, IPanic), b') => i = j /\ same_builder f' b'
    | _, _ => False
    end.
  Proof.
    induction fxs as [|fx fxs IH]; intros xs fb b HX HB; inversion HX as [|? x ? ys Hx HXs]; subst; simpl.
    - exact HB.
    - pose proof (insert_same fb b fx x HB Hx) as HI.
      destruct (finsert fb fx) as [[|fe|] f'], (insert b x) as [[|e|] b']; try contradiction.
      + specialize (IH ys f' b' HXs HI).
        destruct (finsert_all f' fxs) as [[[]|[i [|fe|]]] f''], (insert_all b' ys) as [[[]|[j [|e|]]] b''];
          try contradiction; simpl; [exact IH| |]; destruct IH as [-> IH]; split; auto.
      + split; [reflexivity|exact HI].
      + split; [reflexivity|exact HI].
  Qed.

  Lemma root_walk_same fuel : forall n fl l c, same_nodes fl l ->
    froot_walk fuel n fl c = root_walk fuel n l c.
  Proof.
    induction fuel as [|fuel IH]; intros n fl l c H; destruct n as [|m]; simpl; try reflexivity.
    pose proof (forall2_nth _ _ _ m H) as HN.
    destruct (nth_error fl m), (nth_error l m); try contradiction; [|reflexivity].
    destruct HN as (_ & E & _). rewrite E. destruct (Nat.leb _ m); [apply IH; exact H|reflexivity].
  Qed.
  Definition same_tree (f : ftree A) (t : tree A) : Prop :=
    same_nodes (ft_acts f) (t_acts t) /\ ft_children f = t_children t /\ ft_first_root f = t_first_root t.
  Lemma build_same fb b : same_builder fb b ->
    match fbuild fb, build b with
    | Ret f, Ret t => same_tree f t
    | Panic, Panic => True
    | _, _ => False
    end.
  Proof.
    intros (Hn & Hc & _). unfold fbuild, build.
    rewrite (Forall2_length _ _ _ Hn), (root_walk_same _ _ _ _ _ Hn), Hc.
    destruct (root_walk _ _ _ _) as [ch|]; simpl; [|exact I].
    destruct (Nat.eqb _ _); [|exact I]. split; [exact Hn|]. split; [reflexivity|]. simpl; rewrite ?Hc; reflexivity.
  Qed.

  Lemma accessors_same f t : same_tree f t ->
    froot_activities f = root_activities t /\
    (forall i, fdirect_children f i = direct_children t i) /\
    (forall i, fall_children f i = all_children t i) /\
    (forall i, fparent f i = parent t i).
  Proof.
    intros (Hn & Hc & Hr). unfold froot_activities, root_activities, fdirect_children, direct_children,
      fall_children, all_children, fparent, parent, factivity_trace, activity_trace.
    rewrite Hc, Hr. split; [reflexivity|].
    repeat split; intros i; pose proof (forall2_nth _ _ _ i Hn) as HN;
      destruct (nth_error (ft_acts f) i), (nth_error (t_acts t) i); try contradiction; simpl;
      try reflexivity; destruct HN as (_ & E1 & E2 & E3 & E4).
    - rewrite E2, E3. reflexivity.
    - rewrite E1. reflexivity.
    - rewrite E4. reflexivity.
  Qed.

  Lemma tree_same fxs xs : Forall2 same_stat fxs xs ->
    (forall f, ftree_of fxs f -> exists t, tree_of xs t /\ same_tree f t) /\
    (forall t, tree_of xs t -> exists f, ftree_of fxs f /\ same_tree f t).
  Proof.
    intros HX.
    assert (B0 : same_builder fb_new b_new) by (repeat split; constructor).
    pose proof (insert_all_same _ _ _ _ HX B0) as S.
    split.
    - intros f (fb & Hf & Hb). rewrite Hf in S.
      destruct (insert_all b_new xs) as [[[]|[j e]] b] eqn:E; [|contradiction].
      pose proof (build_same _ _ S) as SB. rewrite Hb in SB.
      destruct (build b) as [t|] eqn:Eb; [|contradiction].
      exists t. split; [exists b; split; [exact E|exact Eb]|exact SB].
    - intros t (b & Ht & Hb). unfold accepted in Ht. rewrite Ht in S.
      destruct (finsert_all fb_new fxs) as [[[]|[j e]] fb] eqn:E; [|destruct e; contradiction].
      pose proof (build_same _ _ S) as SB. rewrite Hb in SB.
      destruct (fbuild fb) as [f|] eqn:Eb; [|contradiction].
      exists f. split; [exists fb; split; [exact E|exact Eb]|exact SB].
  Qed.
End Sim.

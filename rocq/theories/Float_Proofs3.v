(** Trees over f64 times: order embedding into the exact model *)
From Verif Require Import Base Tree_Model Tree_Spec Tree_Proofs Tree_Proofs2 Float_Model Float_Spec Float_Proofs Float_Proofs2.

Global Opaque max_finite.

Lemma max_pos : (0 < max_finite)%Z.
Proof. rewrite P_max. pose proof P_pos. lia. Qed.

(** Numbers that are neither NaN nor minus infinity *)
Definition okf (a : f64) : Prop :=
  match a with Num z => (Z.abs z <= max_finite)%Z | Infinite s => s = false | NotANumber => False end.
Definition emb (a : f64) : Z :=
  match a with Num z => z | Infinite false => (max_finite + 1)%Z | _ => (- max_finite - 1)%Z end.
Definition T1 (a : f64) (x : Z) : Prop := okf a /\ x = emb a.

Ltac okf_cases := intros;
  repeat match goal with
  | H : T1 _ _ |- _ => destruct H as [H ?]; subst
  | a : f64 |- _ => destruct a as [?z|[]|]
  end; simpl in *; try contradiction; try discriminate.

Lemma T1_lt a x b y : T1 a x -> T1 b y -> flt a b = (x <? y)%Z.
Proof.
  okf_cases; try reflexivity; symmetry; first [apply Z.ltb_lt; lia | apply Z.ltb_ge; lia].
Qed.
Lemma T1_le a x b y : T1 a x -> T1 b y -> fle a b = (x <=? y)%Z.
Proof.
  okf_cases; try reflexivity; symmetry; first [apply Z.leb_le; lia | apply Z.leb_gt; lia].
Qed.
Lemma T1_min a x : T1 a x -> flt a f64_min = false.
Proof. unfold f64_min. okf_cases; [apply Z.ltb_ge; lia|reflexivity]. Qed.
Lemma at_most_emb a b : okf a -> okf b -> (at_most a b <-> (emb a <= emb b)%Z).
Proof. okf_cases; pose proof max_pos; try tauto; try lia; split; intros; try exact I; lia. Qed.
Lemma less_emb a b : okf a -> okf b -> (less a b <-> (emb a < emb b)%Z).
Proof. intros Ha Hb. unfold less. rewrite (at_most_emb a b), (at_most_emb b a) by assumption. lia. Qed.

Lemma finite_ok a : finite a -> okf a.
Proof. intros (z & -> & Hz). simpl. apply representable_max, Hz. Qed.
(** Sums of finite numbers *)
Lemma sum_cases a b : finite a -> finite b -> okf (fadd a b) \/ fadd a b = Infinite true.
Proof.
  intros (x & -> & Hx) (y & -> & Hy). simpl. pose proof (of_exact_rounds (x + y)) as R.
  destruct (of_exact (x + y)) as [z|[]|]; simpl in R |- *; auto.
  left. apply representable_max. apply R.
Qed.

Section Emb.
  Context {A : Type}.
  Implicit Types (xs ys : list (fstat A)) (s : fstat A) (f : ftree A).

  Definition adj (s : fstat A) : stat A :=
    mk_stat (fs_act s) (emb (fs_start s)) (emb (fs_end s) - emb (fs_start s))%Z.
  Lemma adj_end s : s_end (adj s) = emb (fs_end s).
  Proof. unfold s_end, adj. simpl. lia. Qed.

  (** No end time is minus infinity *)
  Definition ends_ok (xs : list (fstat A)) : Prop := Forall (fun s : fstat A => fs_end s <> Infinite true) xs.

  Lemma timed_end xs s : timed xs -> In s xs -> okf (fs_start s) /\ (okf (fs_end s) \/ fs_end s = Infinite true).
  Proof.
    intros Ht Hs. unfold timed in Ht. rewrite Forall_forall in Ht. destruct (Ht s Hs) as [H1 H2].
    split; [apply finite_ok, H1|]. apply sum_cases; assumption.
  Qed.
  Lemma ok_both xs : timed xs -> ends_ok xs -> forall s, In s xs -> okf (fs_start s) /\ okf (fs_end s).
  Proof.
    intros Ht He s Hs. destruct (timed_end xs s Ht Hs) as [H1 [H2|H2]]; [split; assumption|].
    unfold ends_ok in He. rewrite Forall_forall in He. destruct (He s Hs H2).
  Qed.
  Lemma adj_same xs : timed xs -> ends_ok xs -> Forall2 (same_stat T1) xs (map adj xs).
  Proof.
    intros Ht He. pose proof (ok_both xs Ht He) as H. clear Ht He.
    induction xs as [|s xs IH]; simpl; constructor.
    - destruct (H s (or_introl eq_refl)) as [H1 H2].
      split; [reflexivity|]. split; split; try assumption; [reflexivity|apply adj_end].
    - apply IH. intros q Hq. apply H. right. exact Hq.
  Qed.

  (** Accepted traces have no end at minus infinity *)
  Lemma finsert_end (b : fbuilder A) a b' : finsert b a = (FIOk, b') -> flt (fs_end a) (fb_last b) = false /\ fb_last b' = fs_end a.
  Proof.
    unfold finsert. destruct (flt (fs_end a) (fb_last b)) eqn:E; [discriminate|].
    destruct (finsert_walk _ _ _ _ _) as [w|e w|]; try discriminate. intros H. injection H as <-.
    split; reflexivity.
  Qed.
  Lemma all_ends_ok xs : forall b b', timed xs -> okf (fb_last b) ->
    finsert_all b xs = (inl tt, b') -> ends_ok xs /\ okf (fb_last b').
  Proof.
    induction xs as [|x xs IH]; intros b b' Ht Hl H; simpl in H.
    - injection H as <-. split; [constructor|exact Hl].
    - destruct (finsert b x) as [[|e|] b1] eqn:E; try discriminate.
      destruct (finsert_all b1 xs) as [[[]|[j e]] b2] eqn:E2; [|discriminate].
      injection H as <-. apply finsert_end in E. destruct E as [E1 E3].
      inversion Ht as [|? ? [F1 F2] Ht']; subst.
      assert (Hx : okf (fs_end x)).
      { destruct (sum_cases _ _ F1 F2) as [H|H]; [exact H|]. unfold fs_end in E1. rewrite H in E1.
        destruct (fb_last b) as [z|[]|]; simpl in *; try contradiction; discriminate. }
      destruct (IH b1 b2 Ht') as [I1 I2]; [rewrite E3; exact Hx|exact E2|].
      split; [constructor; [|exact I1]|exact I2].
      intros D. rewrite D in Hx. discriminate Hx.
  Qed.
  Lemma new_last_ok : okf (fb_last (fb_new : fbuilder A)).
  Proof. simpl. pose proof max_pos. lia. Qed.

  Lemma emb_tree xs f : timed xs -> ftree_of xs f ->
    ends_ok xs /\ exists t, tree_of (map adj xs) t /\ same_tree T1 f t.
  Proof.
    intros Ht Hf. assert (He : ends_ok xs).
    { destruct Hf as (b & Hb & _). exact (proj1 (all_ends_ok xs fb_new b Ht new_last_ok Hb)). }
    split; [exact He|].
    pose proof (tree_same T1 T1_lt T1_le T1_min xs (map adj xs) (adj_same xs Ht He)) as [H _].
    exact (H f Hf).
  Qed.

  Lemma reported_adj xs i s : freported xs i s -> reported (map adj xs) i (adj s).
  Proof. unfold freported, reported. intros H. rewrite nth_error_map, H. reflexivity. Qed.
  Lemma reported_adj_inv xs i (s : stat A) : reported (map adj xs) i s -> exists q, freported xs i q /\ s = adj q.
  Proof.
    unfold freported, reported. intros H. rewrite nth_error_map in H.
    destruct (nth_error xs i) as [q|]; [|discriminate]. injection H as <-. exists q. auto.
  Qed.
  Lemma freported_in xs i s : freported xs i s -> In s xs.
  Proof. intros H. apply (nth_error_In _ _ H). Qed.
  Lemma inside_adj (a b : fstat A) : okf (fs_start a) -> okf (fs_end a) -> okf (fs_start b) -> okf (fs_end b) ->
    (finside a b <-> inside (adj a) (adj b)).
  Proof.
    intros. unfold finside, inside. rewrite !adj_end. simpl.
    rewrite (at_most_emb (fs_start b)), (at_most_emb (fs_end a)) by assumption. tauto.
  Qed.
  Lemma before_adj (a b : fstat A) : okf (fs_end a) -> okf (fs_start b) -> (fbefore a b <-> before (adj a) (adj b)).
  Proof. intros. unfold fbefore, before. rewrite adj_end. simpl. apply at_most_emb; assumption. Qed.

  Lemma f_descendants xs f : timed xs -> ftree_of xs f -> forall b sb, freported xs b sb ->
    exists l, fall_children f b = Ret l /\
      forall a, In a l <-> a < b /\
        forall c sc, a <= c < b -> freported xs c sc -> at_most (fs_start sb) (fs_start sc).
  Proof.
    intros Ht Hf b sb Hb. destruct (emb_tree xs f Ht Hf) as [He (t & Htr & Hs)].
    destruct (descendants _ _ _ Htr b (adj sb) (reported_adj _ _ _ Hb)) as (l & Hl & H).
    destruct (accessors_same T1 f t Hs) as (_ & _ & Ha & _).
    exists l. split; [rewrite Ha; exact Hl|]. intros a. rewrite (H a).
    pose proof (ok_both xs Ht He) as Ok.
    split; intros [Hab HH]; (split; [exact Hab|]); intros c sc Hc Hsc.
    - apply at_most_emb; [apply Ok; eapply freported_in; eassumption..|].
      apply (HH c (adj sc) Hc (reported_adj _ _ _ Hsc)).
    - destruct (reported_adj_inv _ _ _ Hsc) as (q & Hq & ->). simpl.
      apply at_most_emb; [apply Ok; eapply freported_in; eassumption..|]. apply (HH c q Hc Hq).
  Qed.
  Lemma f_contained xs f : timed xs -> ftree_of xs f ->
    forall a sa b sb, freported xs a sa -> freported xs b sb ->
    exists l, fall_children f b = Ret l /\
      (In a l -> a < b /\ finside sa sb) /\
      (less (fs_start sa) (fs_end sa) -> a < b -> finside sa sb -> In a l).
  Proof.
    intros Ht Hf a sa b sb Ha Hb. destruct (emb_tree xs f Ht Hf) as [He (t & Htr & Hs)].
    destruct (descendants_contained _ _ _ Htr a (adj sa) b (adj sb) (reported_adj _ _ _ Ha) (reported_adj _ _ _ Hb)) as (l & Hl & H1 & H2).
    destruct (accessors_same T1 f t Hs) as (_ & _ & Hac & _).
    pose proof (ok_both xs Ht He) as Ok.
    destruct (Ok sa (freported_in _ _ _ Ha)) as [A1 A2]. destruct (Ok sb (freported_in _ _ _ Hb)) as [B1 B2].
    exists l. split; [rewrite Hac; exact Hl|].
    rewrite (inside_adj sa sb) by assumption. split; [exact H1|].
    intros Hl'. apply H2. simpl. apply less_emb in Hl'; [lia|assumption|assumption].
  Qed.
  Lemma f_direct xs f : timed xs -> ftree_of xs f -> forall b, b < length xs ->
    exists d l, fdirect_children f b = Ret d /\ fall_children f b = Ret l /\
      forall a, In a d <-> In a l /\ ~ exists c lc, In c l /\ fall_children f c = Ret lc /\ In a lc.
  Proof.
    intros Ht Hf b Hb. destruct (emb_tree xs f Ht Hf) as [He (t & Htr & Hs)].
    destruct (accessors_same T1 f t Hs) as (_ & Hd & Hac & _).
    destruct (direct_iff _ _ _ Htr b) as (d & l & H1 & H2 & H3); [rewrite map_length; exact Hb|].
    exists d, l. rewrite Hd, Hac. split; [exact H1|]. split; [exact H2|].
    intros a. rewrite (H3 a). split; intros [H4 H5]; (split; [exact H4|]); intros (c & lc & K1 & K2 & K3);
      apply H5; exists c, lc; [rewrite <- Hac|rewrite Hac]; auto.
  Qed.
  Lemma f_parent xs f : timed xs -> ftree_of xs f -> forall a, a < length xs ->
    exists q, fparent f a = Ret q /\
      forall b, q = Some b <-> b < length xs /\ exists d, fdirect_children f b = Ret d /\ In a d.
  Proof.
    intros Ht Hf a Ha. destruct (emb_tree xs f Ht Hf) as [He (t & Htr & Hs)].
    destruct (accessors_same T1 f t Hs) as (_ & Hd & _ & Hp).
    destruct (parent_iff _ _ _ Htr a) as (q & H1 & H2); [rewrite map_length; exact Ha|].
    exists q. rewrite Hp. split; [exact H1|]. intros b. rewrite (H2 b), map_length, Hd. tauto.
  Qed.
  Lemma f_roots xs f : timed xs -> ftree_of xs f ->
    exists l, froot_activities f = Ret l /\
      forall r, In r l <-> r < length xs /\ fparent f r = Ret None.
  Proof.
    intros Ht Hf. destruct (emb_tree xs f Ht Hf) as [He (t & Htr & Hs)].
    destruct (accessors_same T1 f t Hs) as (Hr & _ & _ & Hp).
    destruct (roots_iff _ _ _ Htr) as (l & H1 & H2).
    exists l. rewrite Hr. split; [exact H1|]. intros r. rewrite (H2 r), map_length, Hp. tauto.
  Qed.
  Lemma f_enclosed xs f : timed xs -> ftree_of xs f ->
    forall b d, b < length xs -> fdirect_children f b = Ret d ->
    forall i a s, In i d -> freported xs i a -> freported xs b s -> finside a s.
  Proof.
    intros Ht Hf b d Hb Hd i a s Hi Ha Hs. destruct (emb_tree xs f Ht Hf) as [He (t & Htr & Hst)].
    destruct (accessors_same T1 f t Hst) as (_ & Hdc & _ & _). rewrite Hdc in Hd.
    pose proof (ok_both xs Ht He) as Ok.
    destruct (Ok a (freported_in _ _ _ Ha)). destruct (Ok s (freported_in _ _ _ Hs)).
    apply inside_adj; try assumption.
    apply (children_enclosed _ _ _ Htr b d) with (i := i); try assumption;
      [rewrite map_length; exact Hb|apply reported_adj; assumption..].
  Qed.
  Lemma f_siblings xs f : timed xs -> ftree_of xs f ->
    forall l, (froot_activities f = Ret l \/ exists b, b < length xs /\ fdirect_children f b = Ret l) ->
    forall i j a c, In i l -> In j l -> i < j -> freported xs i a -> freported xs j c -> fbefore a c.
  Proof.
    intros Ht Hf l Hl i j a c Hi Hj Hij Ha Hc. destruct (emb_tree xs f Ht Hf) as [He (t & Htr & Hst)].
    destruct (accessors_same T1 f t Hst) as (Hr & Hdc & _ & _).
    pose proof (ok_both xs Ht He) as Ok.
    destruct (Ok a (freported_in _ _ _ Ha)). destruct (Ok c (freported_in _ _ _ Hc)).
    apply before_adj; try assumption.
    apply (siblings_apart _ _ _ Htr l) with (i := i) (j := j); try assumption; [|apply reported_adj; assumption..].
    rewrite <- Hr. destruct Hl as [Hl|(b & Hb & Hl)]; [left; exact Hl|right].
    exists b. rewrite map_length, <- Hdc. auto.
  Qed.

  (** Acceptance *)
  Lemma f_accepted xs : timed xs ->
    ((exists t, ftree_of xs t) <->
     ends_ok xs /\
     (forall i j a b, i < j -> freported xs i a -> freported xs j b -> at_most (fs_end a) (fs_end b)) /\
     (forall i j a b, i < j -> freported xs i a -> freported xs j b -> finside a b \/ fbefore a b)).
  Proof.
    intros Ht.
    assert (E : ends_ok xs -> ((exists t, ftree_of xs t) <->
      sorted_by_end (map adj xs) /\ nested_or_disjoint (map adj xs))).
    { intros He. rewrite <- accepted_iff.
      pose proof (tree_same T1 T1_lt T1_le T1_min xs (map adj xs) (adj_same xs Ht He)) as [H1 H2].
      split.
      - intros (f & Hf). destruct (H1 f Hf) as (t & (b & Hb & _) & _). exists b. exact Hb.
      - intros (b & Hb). destruct (build_total _ _ _ Hb) as (t & Hbt).
        destruct (H2 t) as (f & Hf & _); [exists b; split; assumption|]. exists f. exact Hf. }
    assert (K : ends_ok xs -> (sorted_by_end (map adj xs) /\ nested_or_disjoint (map adj xs) <->
      (forall i j a b, i < j -> freported xs i a -> freported xs j b -> at_most (fs_end a) (fs_end b)) /\
      (forall i j a b, i < j -> freported xs i a -> freported xs j b -> finside a b \/ fbefore a b))).
    { intros He. pose proof (ok_both xs Ht He) as Ok. unfold sorted_by_end, nested_or_disjoint. split; intros [H1 H2]; split.
      - intros i j a b Hij Ha Hb. apply at_most_emb; [apply Ok; eapply freported_in; eassumption..|].
        pose proof (H1 i j _ _ Hij (reported_adj _ _ _ Ha) (reported_adj _ _ _ Hb)) as H.
        rewrite !adj_end in H. exact H.
      - intros i j a b Hij Ha Hb.
        destruct (Ok a (freported_in _ _ _ Ha)). destruct (Ok b (freported_in _ _ _ Hb)).
        rewrite inside_adj, before_adj by assumption.
        apply (H2 i j _ _ Hij (reported_adj _ _ _ Ha) (reported_adj _ _ _ Hb)).
      - intros i j a b Hij Ha Hb.
        destruct (reported_adj_inv _ _ _ Ha) as (p & Hp & ->). destruct (reported_adj_inv _ _ _ Hb) as (q & Hq & ->).
        rewrite !adj_end. apply at_most_emb; [apply Ok; eapply freported_in; eassumption..|].
        apply (H1 i j p q Hij Hp Hq).
      - intros i j a b Hij Ha Hb.
        destruct (reported_adj_inv _ _ _ Ha) as (p & Hp & ->). destruct (reported_adj_inv _ _ _ Hb) as (q & Hq & ->).
        destruct (Ok p (freported_in _ _ _ Hp)). destruct (Ok q (freported_in _ _ _ Hq)).
        rewrite <- inside_adj, <- before_adj by assumption. apply (H2 i j p q Hij Hp Hq). }
    split.
    - intros (f & Hf). destruct (emb_tree xs f Ht Hf) as [He _]. split; [exact He|].
      apply (K He), (E He). exists f. exact Hf.
    - intros [He H]. apply (E He), (K He), H.
  Qed.

  (** Errors *)
  Lemma finsert_all_app xs : forall b ys, finsert_all b (xs ++ ys) =
    match finsert_all b xs with
    | (inl tt, b') => match finsert_all b' ys with
                      | (inr (i, e), b'') => (inr (length xs + i, e), b'')
                      | r => r
                      end
    | r => r
    end.
  Proof.
    induction xs as [|x xs IH]; intros b ys; simpl.
    - destruct (finsert_all b ys) as [[[]|[i e]] b']; reflexivity.
    - destruct (finsert b x) as [[|e|] b1]; try reflexivity. rewrite IH.
      destruct (finsert_all b1 xs) as [[[]|[i e]] b2]; [|reflexivity].
      destruct (finsert_all b2 ys) as [[[]|[i e]] b3]; reflexivity.
  Qed.
  Lemma finsert_all_error xs : forall b i e b', finsert_all b xs = (inr (i, e), b') ->
    exists x b0, nth_error xs i = Some x /\ finsert_all b (firstn i xs) = (inl tt, b0) /\
      finsert b0 x = (e, b') /\ finsert_all b (firstn (S i) xs) = (inr (i, e), b') /\ e <> FIOk.
  Proof.
    induction xs as [|x xs IH]; intros b i e b' H; [discriminate|]. simpl in H.
    destruct (finsert b x) as [r b1] eqn:E.
    destruct r as [|r|].
    - destruct (finsert_all b1 xs) as [[[]|[j e']] b2] eqn:E2; [discriminate|].
      injection H as <- <- <-. destruct (IH b1 j e' b2 E2) as (y & b0 & H1 & H2 & H3 & H4 & H5).
      exists y, b0. split; [exact H1|]. split; [simpl; rewrite E, H2; reflexivity|]. split; [exact H3|].
      change (firstn (S (S j)) (x :: xs)) with (x :: firstn (S j) xs). split; [cbn [finsert_all]; rewrite E, H4; reflexivity|exact H5].
    - injection H as <- <- <-. exists x, b. split; [reflexivity|]. split; [reflexivity|]. split; [exact E|].
      split; [simpl; rewrite E; reflexivity|discriminate].
    - injection H as <- <- <-. exists x, b. split; [reflexivity|]. split; [reflexivity|]. split; [exact E|].
      split; [simpl; rewrite E; reflexivity|discriminate].
  Qed.
  Lemma finsert_all_last xs : forall b b', finsert_all b xs = (inl tt, b') ->
    fb_last b' = match xs with [] => fb_last b | _ => match nth_error xs (length xs - 1) with
                                              | Some s => fs_end s | None => fb_last b end end.
  Proof.
    induction xs as [|x xs IH]; intros b b' H; simpl in H; [injection H as <-; reflexivity|].
    destruct (finsert b x) as [[|e|] b1] eqn:E; try discriminate.
    destruct (finsert_all b1 xs) as [[[]|[j e]] b2] eqn:E2; [|discriminate]. injection H as <-.
    rewrite (IH b1 b2 E2). apply finsert_end in E. destruct E as [_ E].
    destruct xs as [|y xs]; [exact E|].
    change (length (x :: y :: xs) - 1)%nat with (length (y :: xs)).
    replace (length (y :: xs) - 1)%nat with (length xs) by (simpl; lia).
    change (nth_error (x :: y :: xs) (length (y :: xs))) with (nth_error (y :: xs) (length xs)).
    destruct (nth_error (y :: xs) (length xs)) eqn:N; [reflexivity|].
    apply nth_error_None in N. simpl in N. lia.
  Qed.

  (** The nodes hold the inserted activities *)
  Lemma map_update l i q : map fn_stat (update l i (fun c : fnode A => fset_parent c q)) = map fn_stat l.
  Proof. revert i. induction l as [|x l IH]; intros [|i]; simpl; try reflexivity. rewrite IH. reflexivity. Qed.
  Lemma walk_stats fuel : forall n cur (a : fstat A) (w : fwalk A),
    match finsert_walk fuel n cur a w with
    | FWDone w' => map fn_stat (fw_acts w') = map fn_stat (fw_acts w)
    | FWErr e w' => map fn_stat (fw_acts w') = map fn_stat (fw_acts w) /\
        exists p : fstat A, e = FPartialOverlap p a /\ In p (map fn_stat (fw_acts w)) /\
                  flt (fs_start p) (fs_start a) = true /\ fle (fs_end p) (fs_start a) = false
    | FWPanic => True
    end.
  Proof.
    induction fuel as [|fuel IH]; intros n cur a w; (destruct n as [|m]; [reflexivity|]); [exact I|].
    cbn [finsert_walk]. destruct (nth_error (fw_acts w) m) as [c|] eqn:N; [|exact I].
    destruct (flt (fs_start (fn_stat c)) (fs_start a)) eqn:D1.
    - destruct (fle (fs_end (fn_stat c)) (fs_start a)) eqn:D2; [reflexivity|].
      split; [reflexivity|]. exists (fn_stat c). repeat split; try assumption.
      apply in_map. apply (nth_error_In _ _ N).
    - destruct (Nat.leb (fn_first c) m); [|exact I].
      match goal with |- context [finsert_walk fuel ?n cur a ?w'] => specialize (IH n cur a w') end.
      destruct (finsert_walk _ _ _ _ _) as [w'|e w'|]; simpl in IH; rewrite ?map_update in IH; exact IH.
  Qed.
  Lemma finsert_stats (b : fbuilder A) a b' : finsert b a = (FIOk, b') ->
    map fn_stat (fb_acts b') = map fn_stat (fb_acts b) ++ [a].
  Proof.
    unfold finsert. destruct (flt (fs_end a) (fb_last b)) eqn:E; [discriminate|].
    pose proof (walk_stats (length (fb_acts b)) (length (fb_acts b)) (length (fb_acts b)) a
                  (mk_fwalk (fb_acts b) (fb_children b) (Num 0) (length (fb_acts b)))) as W.
    destruct (finsert_walk _ _ _ _ _) as [w|e w|]; try discriminate. intros H. injection H as <-.
    simpl in *. rewrite map_app, W. reflexivity.
  Qed.
  Lemma finsert_all_stats xs : forall b b', finsert_all b xs = (inl tt, b') ->
    map fn_stat (fb_acts b') = map fn_stat (fb_acts b) ++ xs.
  Proof.
    induction xs as [|x xs IH]; intros b b' H; simpl in H; [injection H as <-; symmetry; apply app_nil_r|].
    destruct (finsert b x) as [[|e|] b1] eqn:E; try discriminate.
    destruct (finsert_all b1 xs) as [[[]|[j e]] b2] eqn:E2; [|discriminate]. injection H as <-.
    rewrite (IH b1 b2 E2), (finsert_stats _ _ _ E), <- app_assoc. reflexivity.
  Qed.
  Lemma f_listed xs f : ftree_of xs f -> forall i s, freported xs i s ->
    exists n, factivity_trace f i = Ret n /\ fn_stat n = s.
  Proof.
    intros (b & Hb & Hf) i s Hi. apply finsert_all_stats in Hb. simpl in Hb.
    unfold fbuild in Hf. destruct (froot_walk _ _ _ _) as [ch|]; [|discriminate]. simpl in Hf.
    destruct (Nat.eqb _ _); [|discriminate]. injection Hf as <-. unfold factivity_trace. simpl.
    unfold freported in Hi. rewrite <- Hb, nth_error_map in Hi.
    destruct (nth_error (fb_acts b) i) as [n|]; [|discriminate]. injection Hi as <-. exists n. split; reflexivity.
  Qed.

  Lemma timed_firstn xs i : timed xs -> timed (firstn i xs).
  Proof.
    unfold timed. rewrite !Forall_forall. intros H s Hs. apply H.
    rewrite <- (firstn_skipn i xs). apply in_or_app. left. exact Hs.
  Qed.
  Lemma nth_firstn (xs : list (fstat A)) i j s : nth_error (firstn i xs) j = Some s ->
    j < i /\ nth_error xs j = Some s.
  Proof.
    revert i j. induction xs as [|x xs IH]; intros [|i] [|j] H; simpl in H; try discriminate.
    - split; [lia|exact H].
    - destruct (IH i j H). split; [lia|assumption].
  Qed.
  Lemma firstn_nth (xs : list (fstat A)) i j s : j < i -> nth_error xs j = Some s ->
    nth_error (firstn i xs) j = Some s.
  Proof.
    revert i j. induction xs as [|x xs IH]; intros [|i] [|j] H K; simpl in *; try discriminate; try lia; auto.
    apply IH; [lia|exact K].
  Qed.
  Lemma f_built xs : timed xs -> forall b, finsert_all fb_new xs = (inl tt, b) -> exists t, fbuild b = Ret t.
  Proof.
    intros Ht b Hb. assert (He : ends_ok xs) by (exact (proj1 (all_ends_ok xs fb_new b Ht new_last_ok Hb))).
    assert (B0 : same_builder T1 (fb_new : fbuilder A) b_new) by (repeat split; constructor).
    pose proof (insert_all_same T1 T1_lt T1_le T1_min _ _ _ _ (adj_same xs Ht He) B0) as S.
    rewrite Hb in S. destruct (insert_all b_new (map adj xs)) as [[[]|[j e]] b'] eqn:E; [|contradiction].
    destruct (build_total _ _ _ E) as (t & Hbt). pose proof (build_same T1 _ _ S) as SB. rewrite Hbt in SB.
    destruct (fbuild b) as [f|]; [|contradiction]. exists f. reflexivity.
  Qed.

  Lemma f_error xs i r b : timed xs -> finsert_all fb_new xs = (inr (i, r), b) ->
    exists a, freported xs i a /\ (exists t, ftree_of (firstn i xs) t) /\
      match r with
      | FIErr (FUnexpectedOrder p c) => c = fs_end a /\ less c p /\
           ((i = 0 /\ c = Infinite true) \/ exists j s, i = S j /\ freported xs j s /\ p = fs_end s)
      | FIErr (FPartialOverlap p q) => q = a /\ less (fs_start p) (fs_start a) /\ less (fs_start a) (fs_end p) /\
           (forall j s, j < i -> freported xs j s -> at_most (fs_end s) (fs_end a)) /\
           exists j, j < i /\ freported xs j p
      | _ => False
      end.
  Proof.
    intros Ht H. destruct (finsert_all_error _ _ _ _ _ H) as (a & b0 & Ha & Hb0 & Hi & HS & NO).
    pose proof (timed_firstn _ i Ht) as Hti.
    destruct (f_built _ Hti _ Hb0) as (t0 & Hbt).
    assert (Htree : ftree_of (firstn i xs) t0) by (exists b0; split; assumption).
    exists a. split; [exact Ha|]. split; [exists t0; exact Htree|].
    assert (He : ends_ok (firstn i xs) /\ okf (fb_last b0)) by (apply (all_ends_ok _ fb_new b0 Hti new_last_ok Hb0)).
    destruct He as [He Hl].
    pose proof (finsert_all_stats _ _ _ Hb0) as St. simpl in St.
    pose proof (finsert_all_last _ _ _ Hb0) as La.
    destruct (timed_end xs a Ht (nth_error_In _ _ Ha)) as [Hsa Hea].
    assert (Li : length (firstn i xs) = i).
    { apply firstn_length_le. assert (i < length xs) by (apply nth_error_Some; congruence). lia. }
    unfold finsert in Hi. destruct (flt (fs_end a) (fb_last b0)) eqn:D.
    - injection Hi as <- <-. split; [reflexivity|]. split.
      + destruct (fs_end a) as [z|[]|], (fb_last b0) as [y|[]|]; simpl in *; try discriminate; try contradiction;
          try (destruct Hea as [Hea|Hea]; [contradiction|discriminate]).
        * apply Z.ltb_lt in D. split; simpl; lia.
        * split; simpl; auto.
        * split; simpl; auto.
        * split; simpl; auto.
      + destruct i as [|j].
        * left. split; [reflexivity|]. simpl in La. rewrite La in D. destruct Hea as [Hea|Hea]; [|exact Hea].
          exfalso. assert (T := T1_min (fs_end a) (emb (fs_end a)) (conj Hea eq_refl)). congruence.
        * right. exists j. destruct (nth_error xs j) as [s|] eqn:N.
          -- exists s. split; [reflexivity|]. split; [exact N|]. rewrite La, Li.
             replace (S j - 1)%nat with j by lia. rewrite (firstn_nth xs (S j) j s ltac:(lia) N).
             destruct (firstn (S j) xs); [discriminate Li|reflexivity].
          -- exfalso. apply nth_error_None in N. assert (S j < length xs) by (apply nth_error_Some; congruence). lia.
    - assert (Hea' : okf (fs_end a)).
      { destruct Hea as [Hea|Hea]; [exact Hea|]. rewrite Hea in D. destruct (fb_last b0) as [y|[]|]; simpl in *;
          try contradiction; discriminate. }
      pose proof (walk_stats (length (fb_acts b0)) (length (fb_acts b0)) (length (fb_acts b0)) a
                  (mk_fwalk (fb_acts b0) (fb_children b0) (Num 0) (length (fb_acts b0)))) as W.
      (* no panic: the exact model does not *)
      assert (NP : r <> FIPanic).
      { intros ->.
        assert (He' : ends_ok (firstn (S i) xs)).
        { unfold ends_ok in *. rewrite Forall_forall in He |- *. intros s Hs.
          apply In_nth_error in Hs. destruct Hs as (j & Hj). destruct (nth_firstn _ _ _ _ Hj) as [Hji Hj'].
          destruct (Nat.eq_dec j i) as [->|Hne].
          - assert (s = a) by congruence. subst s. intros Hx. rewrite Hx in Hea'. discriminate Hea'.
          - apply He. apply (nth_error_In _ j). apply firstn_nth; [lia|exact Hj']. }
        assert (B0 : same_builder T1 (fb_new : fbuilder A) b_new) by (repeat split; constructor).
        pose proof (insert_all_same T1 T1_lt T1_le T1_min _ _ _ _
                      (adj_same _ (timed_firstn _ (S i) Ht) He') B0) as Sm.
        rewrite HS in Sm. destruct (insert_all b_new (map adj (firstn (S i) xs))) as [[[]|[j e]] b'] eqn:E; [contradiction|].
        destruct e as [|e|]; try contradiction.
        destruct (error_meaning _ _ _ _ _ E) as (a' & _ & _ & []). }
      destruct (finsert_walk _ _ _ _ _) as [w|e w|]; [injection Hi as <- <-; congruence| |injection Hi as <- <-; congruence].
      injection Hi as <- <-. destruct W as [_ (p & -> & Hp & D1 & D2)]. simpl in Hp. rewrite St in Hp.
      apply In_nth_error in Hp. destruct Hp as (j & Hj). destruct (nth_firstn _ _ _ _ Hj) as [Hji Hj'].
      pose proof (ok_both _ Hti He p (nth_error_In _ _ Hj)) as [P1 P2].
      split; [reflexivity|].
      rewrite (T1_lt _ _ _ _ (conj P1 eq_refl) (conj Hsa eq_refl)) in D1. apply Z.ltb_lt in D1.
      rewrite (T1_le _ _ _ _ (conj P2 eq_refl) (conj Hsa eq_refl)) in D2. apply Z.leb_gt in D2.
      split; [apply less_emb; assumption|]. split; [apply less_emb; assumption|].
      split; [|exists j; split; [exact Hji|exact Hj']].
      intros k s Hk Hs.
      destruct i as [|i0]; [lia|].
      assert (exists l, freported xs i0 l) as (l & Hlq).
      { destruct (nth_error xs i0) as [l|] eqn:N; [exists l; exact N|].
        apply nth_error_None in N. assert (S i0 < length xs) by (apply nth_error_Some; congruence). lia. }
      assert (Hlast : fb_last b0 = fs_end l).
      { rewrite La, Li. replace (S i0 - 1)%nat with i0 by lia. rewrite (firstn_nth xs (S i0) i0 l ltac:(lia) Hlq).
        destruct (firstn (S i0) xs); [discriminate Li|reflexivity]. }
      destruct (proj1 (f_accepted _ Hti) (ex_intro _ _ Htree)) as (_ & Srt & _).
      pose proof (ok_both _ Hti He s (nth_error_In _ _ (firstn_nth _ _ _ _ Hk Hs))) as [S1 S2].
      apply at_most_emb; [assumption..|].
      assert (emb (fs_end s) <= emb (fb_last b0))%Z.
      { rewrite Hlast. rewrite Hlast in Hl. destruct (Nat.eq_dec k i0) as [->|Hne].
        - unfold freported in *. assert (s = l) by congruence. subst. lia.
        - apply at_most_emb; [assumption..|]. apply (Srt k i0 s l); [lia|apply firstn_nth; [lia|exact Hs]|apply firstn_nth; [lia|exact Hlq]]. }
      rewrite (T1_lt _ _ _ _ (conj Hea' eq_refl) (conj Hl eq_refl)) in D. apply Z.ltb_ge in D. lia.
  Qed.
End Emb.

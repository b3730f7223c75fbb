(** Proofs about the item interner (asylum/src/lib.rs). *)
From Verif Require Import Base Asylum_Model Asylum_Spec.

Lemma find_unique_some {A} (f : A -> bool) l x :
  In x l -> f x = true -> (forall y, In y l -> f y = true -> y = x) -> find f l = Some x.
Proof.
  intros Hin Hf Hu. destruct (find f l) as [y|] eqn:E.
  - apply find_some in E. destruct E as [Hy1 Hy2]. f_equal. apply Hu; assumption.
  - exfalso. eapply find_none in E; [|exact Hin]. congruence.
Qed.

Lemma find_none_iff {A} (f : A -> bool) l :
  (forall y, In y l -> f y = false) -> find f l = None.
Proof.
  intros H. destruct (find f l) as [y|] eqn:E; [|reflexivity].
  apply find_some in E. destruct E as [H1 H2]. rewrite H in H2; congruence.
Qed.

Lemma key_into_try w n k :
  key_try_from_usize w n = Some k -> key_into_usize k = n /\ (n < 2 ^ w - 1)%N.
Proof.
  unfold key_try_from_usize, key_into_usize. destruct (N.ltb_spec n (2 ^ w - 1)); [|discriminate].
  intros E; injection E as <-. split; lia.
Qed.

Section P.
  Variable Item : Type.
  Variable item_eqb : Item -> Item -> bool.
  Hypothesis item_eqb_eq : forall a b, item_eqb a b = true <-> a = b.
  Variable hash : Item -> N.
  Variable probe : N -> N -> bool.
  Hypothesis probe_refl : forall h, probe h h = true.
  Variable w : N.

  Notation intern := (it_intern Item item_eqb hash probe w).
  Notation run := (it_run Item item_eqb hash probe w).

  Record Inv (st : interner Item) : Prop := {
    inv_nodup : NoDup (it_items st);
    inv_sound : forall h k, In (h, k) (it_keys st) ->
      exists x, index (it_items st) (key_into_usize k) = Some x /\ h = hash x /\ (1 <= k)%N;
    inv_complete : forall i x, nth_error (it_items st) i = Some x ->
      In (hash x, (N.of_nat i + 1)%N) (it_keys st);
    inv_cap : (N.of_nat (length (it_items st)) <= 2 ^ w - 1)%N
  }.

  Lemma new_inv : Inv it_new.
  Proof.
    constructor; simpl.
    - constructor.
    - intros h k [].
    - intros i x H. destruct i; discriminate.
    - lia.
  Qed.

  Lemma key_of_index i : key_into_usize (N.of_nat i + 1)%N = N.of_nat i.
  Proof. unfold key_into_usize; lia. Qed.

  Lemma lookup_known st x i : Inv st -> nth_error (it_items st) i = Some x ->
    table_get probe (it_keys st) (hash x) (it_matches Item item_eqb st x) = Some (N.of_nat i + 1)%N.
  Proof.
    intros HI Hi. unfold table_get.
    rewrite (find_unique_some _ _ (hash x, (N.of_nat i + 1)%N)); [reflexivity| | |].
    - apply (inv_complete _ HI); assumption.
    - simpl. rewrite probe_refl. simpl. unfold it_matches. rewrite key_of_index.
      unfold index. rewrite Nat2N.id, Hi. apply item_eqb_eq; reflexivity.
    - intros [h k] Hin Hf. simpl in Hf. apply andb_prop in Hf. destruct Hf as [_ Hf].
      destruct (inv_sound _ HI _ _ Hin) as (y & Hy & Hh & Hk).
      unfold it_matches in Hf. rewrite Hy in Hf. apply item_eqb_eq in Hf. subst y h.
      f_equal. unfold index, key_into_usize in Hy.
      assert (Hlt : i < length (it_items st)) by (apply nth_error_Some; congruence).
      assert (E : i = N.to_nat (k - 1)).
      { apply (proj1 (NoDup_nth_error _) (inv_nodup _ HI)); [exact Hlt|congruence]. }
      lia.
  Qed.

  Lemma lookup_unknown st x : Inv st -> ~ In x (it_items st) ->
    table_get probe (it_keys st) (hash x) (it_matches Item item_eqb st x) = None.
  Proof.
    intros HI Hn. unfold table_get. rewrite find_none_iff; [reflexivity|].
    intros [h k] Hin. simpl. apply andb_false_iff. right.
    unfold it_matches. destruct (index (it_items st) (key_into_usize k)) as [y|] eqn:E; [|reflexivity].
    destruct (item_eqb y x) eqn:Ey; [|reflexivity].
    apply item_eqb_eq in Ey. subst y. exfalso. apply Hn.
    unfold index in E. eapply nth_error_In; exact E.
  Qed.

  (** Characterisation of one call. *)
  Lemma intern_known st x i : Inv st -> nth_error (it_items st) i = Some x ->
    intern st x = Ret ((N.of_nat i + 1)%N, st).
  Proof. intros HI Hi. unfold it_intern. rewrite (lookup_known _ _ _ HI Hi). reflexivity. Qed.

  Lemma intern_new st x : Inv st -> ~ In x (it_items st) ->
    intern st x =
      if (N.of_nat (length (it_items st)) <? 2 ^ w - 1)%N
      then Ret ((N.of_nat (length (it_items st)) + 1)%N,
                mk_interner (it_items st ++ [x])
                  ((hash x, (N.of_nat (length (it_items st)) + 1)%N) :: it_keys st))
      else Panic.
  Proof.
    intros HI Hn. unfold it_intern. rewrite (lookup_unknown _ _ HI Hn).
    unfold key_try_from_usize, table_insert. destruct (N.ltb _ _); reflexivity.
  Qed.

  Lemma In_nth (x : Item) l : In x l -> exists i, nth_error l i = Some x.
  Proof. apply In_nth_error. Qed.

  Lemma in_dec_eqb (x : Item) l : {In x l} + {~ In x l}.
  Proof.
    apply in_dec. intros a b. destruct (item_eqb a b) eqn:E.
    - left; apply item_eqb_eq; exact E.
    - right; intros ->. rewrite (proj2 (item_eqb_eq b b) eq_refl) in E. discriminate.
  Qed.

  Lemma push_inv st x : Inv st -> ~ In x (it_items st) ->
    (N.of_nat (length (it_items st)) < 2 ^ w - 1)%N ->
    Inv (mk_interner (it_items st ++ [x])
           ((hash x, (N.of_nat (length (it_items st)) + 1)%N) :: it_keys st)).
  Proof.
    intros HI Hn Hc. constructor; simpl.
    - rewrite <- (rev_involutive (it_items st ++ [x])). apply NoDup_rev. rewrite rev_app_distr. simpl.
      constructor; [rewrite <- in_rev; exact Hn|apply NoDup_rev, HI].
    - intros h k [E|Hin].
      + injection E as <- <-. exists x. rewrite key_of_index. unfold index. rewrite Nat2N.id.
        rewrite nth_error_app2 by lia. rewrite Nat.sub_diag. simpl. split; [reflexivity|split; [reflexivity|lia]].
      + destruct (inv_sound _ HI _ _ Hin) as (y & Hy & Hh & Hk). exists y. split; [|split; assumption].
        unfold index in *. rewrite nth_error_app1; [exact Hy|]. apply nth_error_Some. congruence.
    - intros i y Hi. destruct (Nat.lt_ge_cases i (length (it_items st))) as [Hlt|Hge].
      + right. rewrite nth_error_app1 in Hi by exact Hlt. apply (inv_complete _ HI); exact Hi.
      + rewrite nth_error_app2 in Hi by exact Hge.
        destruct (i - length (it_items st)) as [|n] eqn:E; simpl in Hi.
        * injection Hi as <-. left. f_equal. f_equal. f_equal. lia.
        * destruct n; discriminate.
    - rewrite app_length; simpl. lia.
  Qed.

  (** One call, all cases at once. *)
  Lemma intern_spec st x : Inv st ->
    (exists i, nth_error (it_items st) i = Some x /\ intern st x = Ret ((N.of_nat i + 1)%N, st))
    \/ (~ In x (it_items st) /\ (N.of_nat (length (it_items st)) < 2 ^ w - 1)%N /\
        exists st', intern st x = Ret ((N.of_nat (length (it_items st)) + 1)%N, st') /\
          it_items st' = it_items st ++ [x] /\ Inv st')
    \/ (~ In x (it_items st) /\ (N.of_nat (length (it_items st)) = 2 ^ w - 1)%N /\ intern st x = Panic).
  Proof.
    intros HI. destruct (in_dec_eqb x (it_items st)) as [Hin|Hn].
    - left. destruct (In_nth _ _ Hin) as [i Hi]. exists i. split; [exact Hi|apply intern_known; assumption].
    - right. pose proof (intern_new _ _ HI Hn) as E. pose proof (inv_cap _ HI) as Hcap.
      destruct (N.ltb_spec (N.of_nat (length (it_items st))) (2 ^ w - 1)) as [Hc|Hc].
      + left. split; [exact Hn|]. split; [exact Hc|]. eexists. split; [exact E|]. split; [reflexivity|].
        apply push_inv; assumption.
      + right. split; [exact Hn|]. split; [lia|exact E].
  Qed.

  Lemma run_spec xs : forall st ks st', Inv st -> run st xs = (ks, st') ->
    Inv st' /\ length ks = length xs /\
    (exists ext, it_items st' = it_items st ++ ext) /\
    (forall i x k, nth_error xs i = Some x -> nth_error ks i = Some (Some k) ->
       index (it_items st') (key_into_usize k) = Some x /\ (1 <= k)%N) /\
    (forall x, In x (it_items st') <-> In x (it_items st) \/ succeeded xs ks x).
  Proof.
    induction xs as [|x xs IH]; intros st ks st' HI; cbn [it_run].
    - intros E; injection E as <- <-. split; [exact HI|]. split; [reflexivity|]. split.
      + exists []. rewrite app_nil_r; reflexivity.
      + split.
        * intros i y k Hi. destruct i; discriminate.
        * intros y. split; [tauto|]. intros [H|(i & k & Hi & _)]; [exact H|]. destruct i; discriminate.
    - assert (Hstep : forall st1 k1 ks1, Inv st1 -> (exists e, it_items st1 = it_items st ++ e) ->
         (forall y, In y (it_items st1) <-> In y (it_items st) \/ (y = x /\ k1 <> None)) ->
         (forall k, k1 = Some k -> index (it_items st1) (key_into_usize k) = Some x /\ (1 <= k)%N) ->
         run st1 xs = (ks1, st') -> ks = k1 :: ks1 ->
         Inv st' /\ length ks = length (x :: xs) /\
         (exists ext, it_items st' = it_items st ++ ext) /\
         (forall i y k, nth_error (x :: xs) i = Some y -> nth_error ks i = Some (Some k) ->
            index (it_items st') (key_into_usize k) = Some y /\ (1 <= k)%N) /\
         (forall y, In y (it_items st') <-> In y (it_items st) \/ succeeded (x :: xs) ks y)).
      { intros st1 k1 ks1 HI1 (e & He) Hin Hk1 Hrun ->.
        destruct (IH _ _ _ HI1 Hrun) as (HI' & Hlen & (e' & He') & Hget & Hmem).
        split; [exact HI'|]. split; [simpl; congruence|]. split.
        { exists (e ++ e'). rewrite He', He, app_assoc. reflexivity. }
        split.
        - intros [|i] y k Hi Hk; simpl in Hi, Hk.
          + injection Hi as <-. injection Hk as Hk. destruct (Hk1 _ Hk) as [Hg Hge]. split; [|exact Hge].
            unfold index in *. rewrite He', nth_error_app1; [exact Hg|]. apply nth_error_Some. congruence.
          + eapply Hget; eassumption.
        - intros y. rewrite Hmem, Hin. split.
          + intros [[H|[-> Hne]]|(i & k & Hi & Hk)].
            * left; exact H.
            * right. destruct k1 as [k|]; [|congruence]. exists 0, k. split; reflexivity.
            * right. exists (S i), k. split; assumption.
          + intros [H|(i & k & Hi & Hk)]; [left; left; exact H|].
            destruct i as [|i]; simpl in Hi, Hk.
            * injection Hi as ->. injection Hk as ->. left; right. split; [reflexivity|discriminate].
            * right. exists i, k. split; assumption. }
      destruct (intern_spec st x HI) as [(i & Hi & E)|[(Hn & Hc & st1 & E & Hit & HI1)|(Hn & Hc & E)]];
        rewrite E; destruct (it_run Item item_eqb hash probe w _ xs) as [ks1 st1'] eqn:Er;
        intros Eq; injection Eq as <- <-.
      + eapply Hstep; [exact HI| | | |exact Er|reflexivity].
        * exists []. rewrite app_nil_r; reflexivity.
        * intros y. split; [tauto|]. intros [H|[-> _]]; [exact H|]. eapply nth_error_In; exact Hi.
        * intros k Ek; injection Ek as <-. rewrite key_of_index. unfold index. rewrite Nat2N.id. split; [exact Hi|lia].
      + eapply Hstep; [exact HI1| | | |exact Er|reflexivity].
        * exists [x]. exact Hit.
        * intros y. rewrite Hit, in_app_iff. simpl. split.
          -- intros [H|[H|[]]]; [left; exact H|]. right. split; [congruence|discriminate].
          -- intros [H|[-> _]]; [left; exact H|]. right; left; reflexivity.
        * intros k Ek; injection Ek as <-. rewrite key_of_index. unfold index. rewrite Nat2N.id, Hit.
          rewrite nth_error_app2 by lia. rewrite Nat.sub_diag. split; [reflexivity|lia].
      + eapply Hstep; [exact HI| | | |exact Er|reflexivity].
        * exists []. rewrite app_nil_r; reflexivity.
        * intros y. split; [tauto|]. intros [H|[_ H]]; [exact H|congruence].
        * intros k Ek; discriminate.
  Qed.

  Lemma keys_injective xs ks st : run it_new xs = (ks, st) ->
    forall i j a b ki kj,
      nth_error xs i = Some a -> nth_error xs j = Some b ->
      nth_error ks i = Some (Some ki) -> nth_error ks j = Some (Some kj) ->
      (ki = kj <-> a = b).
  Proof.
    intros Hr i j a b ki kj Ha Hb Hi Hj.
    destruct (run_spec _ _ _ _ new_inv Hr) as (HI & _ & _ & Hget & _).
    destruct (Hget _ _ _ Ha Hi) as [Ga Gi]. destruct (Hget _ _ _ Hb Hj) as [Gb Gj].
    split; intros E; subst.
    - congruence.
    - unfold index, key_into_usize in Ga, Gb.
      assert (Hlt : N.to_nat (ki - 1) < length (it_items st)) by (apply nth_error_Some; congruence).
      assert (E : N.to_nat (ki - 1) = N.to_nat (kj - 1)).
      { apply (proj1 (NoDup_nth_error _) (inv_nodup _ HI)); [exact Hlt|congruence]. }
      lia.
  Qed.

  Lemma run_app xs ys st : run st (xs ++ ys) =
    let (k1, s1) := run st xs in let (k2, s2) := run s1 ys in (k1 ++ k2, s2).
  Proof.
    revert st; induction xs as [|x xs IH]; intros st; cbn [it_run app].
    - destruct (run st ys); reflexivity.
    - destruct (it_intern Item item_eqb hash probe w st x) as [[k s]|]; rewrite IH;
        destruct (run _ xs) as [k1 s1]; destruct (run s1 ys) as [k2 s2]; reflexivity.
  Qed.

  Lemma retrievable xs ys ks st ks' st' :
    run it_new xs = (ks, st) -> run st ys = (ks', st') ->
    forall i x k, nth_error xs i = Some x -> nth_error ks i = Some (Some k) ->
      it_get st' k = Ret x /\ interned_get (it_finalize st') k = Ret x.
  Proof.
    intros H1 H2 i x k Hx Hk.
    destruct (run_spec _ _ _ _ new_inv H1) as (HI & _ & _ & Hget & _).
    destruct (run_spec _ _ _ _ HI H2) as (HI' & _ & (ext & He) & _ & _).
    destruct (Hget _ _ _ Hx Hk) as [Hg _].
    assert (Hg' : index (it_items st') (key_into_usize k) = Some x).
    { unfold index in *. rewrite He, nth_error_app1; [exact Hg|]. apply nth_error_Some; congruence. }
    unfold it_get, interned_get, it_finalize. rewrite Hg'. split; reflexivity.
  Qed.

  Lemma len_distinct xs ks st : run it_new xs = (ks, st) ->
    forall l, NoDup l -> (forall x, In x l <-> succeeded xs ks x) -> it_len st = length l.
  Proof.
    intros Hr l Hl Hin. destruct (run_spec _ _ _ _ new_inv Hr) as (HI & _ & _ & _ & Hmem).
    unfold it_len. apply Nat.le_antisymm.
    - apply NoDup_incl_length; [apply HI|]. intros x Hx. apply Hin. apply Hmem in Hx.
      destruct Hx as [[]|Hx]; exact Hx.
    - apply NoDup_incl_length; [exact Hl|]. intros x Hx. apply Hmem. right. apply Hin; exact Hx.
  Qed.

  Lemma panics_iff xs ks st x : run it_new xs = (ks, st) ->
    (intern st x = Panic <->
       ~ succeeded xs ks x /\ N.of_nat (it_len st) = (2 ^ w - 1)%N).
  Proof.
    intros Hr. destruct (run_spec _ _ _ _ new_inv Hr) as (HI & _ & _ & _ & Hmem).
    assert (Hm : In x (it_items st) <-> succeeded xs ks x).
    { rewrite Hmem. simpl. tauto. }
    unfold it_len.
    destruct (intern_spec st x HI) as [(i & Hi & E)|[(Hn & Hc & st1 & E & _ & _)|(Hn & Hc & E)]].
    - rewrite E. split; [discriminate|]. intros [H _]. exfalso. apply H, Hm. eapply nth_error_In; exact Hi.
    - rewrite E. split; [discriminate|]. intros [_ H]. lia.
    - split; [|intros _; exact E]. intros _. split; [rewrite <- Hm; exact Hn|lia].
  Qed.

  Lemma reintern_noop xs ks st x k i : run it_new xs = (ks, st) ->
    nth_error xs i = Some x -> nth_error ks i = Some (Some k) -> intern st x = Ret (k, st).
  Proof.
    intros Hr Hx Hk. destruct (run_spec _ _ _ _ new_inv Hr) as (HI & _ & _ & Hget & _).
    destruct (Hget _ _ _ Hx Hk) as [Hg Hge]. unfold index in Hg.
    rewrite (intern_known _ _ _ HI Hg). f_equal. f_equal. unfold key_into_usize. lia.
  Qed.
End P.

(** Proofs about activity trees. *)
From Verif Require Import Base Tree_Model Tree_Spec.

(** ** Laminar families given by "first related" indices *)
Section Chain.
  Variable fr : nat -> nat.
  Fixpoint ct (f lo n : nat) : list nat :=
    match f with
    | 0 => []
    | S f' => if Nat.leb n lo then [] else (n - 1) :: ct f' lo (fr (n - 1))
    end.
  Definition chainto (lo n : nat) : list nat := ct n lo n.

  Definition lowers (n : nat) := forall i, i < n -> fr i <= i.

  Lemma ct_fuel f : forall f' lo n, lowers n -> n <= f -> n <= f' -> ct f lo n = ct f' lo n.
  Proof.
    induction f as [|f IH]; intros f' lo n Hl H1 H2.
    - assert (n = 0) by lia. subst. destruct f'; reflexivity.
    - destruct f' as [|f']; [assert (n = 0) by lia; subst; reflexivity|]. simpl.
      destruct (Nat.leb_spec n lo); [reflexivity|]. f_equal.
      assert (fr (n - 1) <= n - 1) by (apply Hl; lia).
      apply IH; try lia. intros i Hi. apply Hl; lia.
  Qed.

  Lemma chainto_step lo m : lowers (S m) ->
    chainto lo (S m) = if Nat.leb (S m) lo then [] else m :: chainto lo (fr m).
  Proof.
    intros Hl. unfold chainto at 1. cbn [ct].
    replace (S m - 1) with m by lia. destruct (Nat.leb (S m) lo); [reflexivity|]. f_equal.
    assert (fr m <= m) by (apply Hl; lia).
    apply ct_fuel; try lia. intros i Hi. apply Hl; lia.
  Qed.

  Lemma chainto_le lo n : n <= lo -> chainto lo n = [].
  Proof.
    intros H. unfold chainto. destruct n; [reflexivity|]. cbn [ct].
    rewrite (proj2 (Nat.leb_le _ _) H). reflexivity.
  Qed.

  Variable st : nat -> Z.
  Definition FRok (n : nat) := forall i, i < n ->
    fr i <= i /\ (forall k, fr i <= k < i -> (st i <= st k)%Z) /\ (0 < fr i -> (st (fr i - 1) < st i)%Z).

  Lemma FRok_lowers n : FRok n -> lowers n.
  Proof. intros H i Hi. apply (H i Hi). Qed.
  Lemma FRok_le n m : FRok n -> m <= n -> FRok m.
  Proof. intros H Hm i Hi. apply H. lia. Qed.

  Lemma fr_nest n i j : FRok n -> i < n -> fr i <= j <= i -> fr i <= fr j.
  Proof.
    intros H Hi [H1 H2]. destruct (H i Hi) as (A1 & A2 & A3). destruct (H j ltac:(lia)) as (B1 & B2 & B3).
    destruct (Nat.le_gt_cases (fr i) (fr j)) as [|Hlt]; [assumption|exfalso].
    assert (Hk : (st j <= st (fr i - 1))%Z) by (apply B2; lia).
    assert (Hs : (st (fr i - 1) < st i)%Z) by (apply A3; lia).
    destruct (Nat.eq_dec i j) as [->|]; [lia|].
    assert ((st i <= st j)%Z) by (apply A2; lia). lia.
  Qed.

  Lemma chainto_mem lo n : FRok n -> forall i,
    In i (chainto lo n) <-> lo <= i < n /\ (forall j, i < j < n -> i < fr j).
  Proof.
    induction n as [n IH] using (well_founded_induction lt_wf). intros H i.
    destruct n as [|m]; [simpl; split; [intros []|lia]|].
    rewrite chainto_step by (apply FRok_lowers, H).
    destruct (Nat.leb_spec (S m) lo) as [Hle|Hgt]; [simpl; split; [intros []|lia]|].
    destruct (H m ltac:(lia)) as (Hm & _ & _).
    cbn [In]. rewrite (IH (fr m) ltac:(lia) (FRok_le (S m) (fr m) H ltac:(lia))). split.
    - intros [<-|[[H1 H2] H3]]; [split; [lia|intros j Hj; lia]|]. split; [lia|].
      intros j Hj. destruct (Nat.lt_ge_cases j (fr m)) as [Hlt|Hge]; [apply H3; lia|].
      assert (fr m <= fr j) by (apply (fr_nest (S m)); [exact H|lia|lia]). lia.
    - intros [[H1 H2] H3]. destruct (Nat.eq_dec i m) as [->|Hne]; [left; reflexivity|right].
      assert (i < fr m) by (apply H3; lia). split; [lia|]. intros j Hj. apply H3; lia.
  Qed.

  Lemma chainto_lt lo n : FRok n -> forall i, In i (chainto lo n) -> lo <= i < n.
  Proof. intros H i Hi. apply chainto_mem in Hi; [|exact H]. apply Hi. Qed.

  Lemma chainto_nodup lo n : FRok n -> NoDup (chainto lo n).
  Proof.
    induction n as [n IH] using (well_founded_induction lt_wf). intros H.
    destruct n as [|m]; [constructor|].
    rewrite chainto_step by (apply FRok_lowers, H). destruct (Nat.leb (S m) lo); [constructor|].
    destruct (H m ltac:(lia)) as (Hm & _ & _).
    assert (Hf : FRok (fr m)) by (apply (FRok_le (S m)); [exact H|lia]).
    constructor; [|apply IH; [lia|exact Hf]]. intros Hin. apply chainto_lt in Hin; [lia|exact Hf].
  Qed.

  Lemma chainto_cover n : FRok n -> forall i, i < n -> exists r, In r (chainto 0 n) /\ fr r <= i <= r.
  Proof.
    induction n as [n IH] using (well_founded_induction lt_wf). intros H i Hi.
    destruct n as [|m]; [lia|]. rewrite chainto_step by (apply FRok_lowers, H). simpl Nat.leb. cbv iota.
    destruct (H m ltac:(lia)) as (Hm & _ & _).
    destruct (Nat.lt_ge_cases i (fr m)) as [Hlt|Hge].
    - destruct (IH (fr m) ltac:(lia)) with (i := i) as (r & Hr & Hri); [apply (FRok_le (S m)); [exact H|lia]|exact Hlt|].
      exists r. split; [right; exact Hr|exact Hri].
    - exists m. split; [left; reflexivity|lia].
  Qed.
End Chain.

Lemma ct_ext fr fr' f : forall lo n, lowers fr n -> (forall i, i < n -> fr i = fr' i) ->
  ct fr f lo n = ct fr' f lo n.
Proof.
  induction f as [|f IH]; intros lo n Hl He; [reflexivity|]. cbn [ct].
  destruct (Nat.leb_spec n lo); [reflexivity|]. rewrite <- (He (n - 1)) by lia. f_equal.
  assert (fr (n - 1) <= n - 1) by (apply Hl; lia).
  apply IH; [intros i Hi; apply Hl; lia|intros i Hi; apply He; lia].
Qed.
Lemma chainto_ext fr fr' lo n : lowers fr n -> (forall i, i < n -> fr i = fr' i) ->
  chainto fr lo n = chainto fr' lo n.
Proof. intros Hl He. apply ct_ext; assumption. Qed.

(** ** Lists *)
Lemma update_length {B} (l : list B) i f : length (update l i f) = length l.
Proof. revert i; induction l as [|x l IH]; intros [|i]; simpl; auto. Qed.
Lemma update_nth {B} (l : list B) i f j :
  nth_error (update l i f) j = if Nat.eqb i j then option_map f (nth_error l j) else nth_error l j.
Proof.
  revert i j; induction l as [|x l IH]; intros [|i] [|j]; simpl; try reflexivity.
  - destruct (Nat.eqb i j); reflexivity.
  - apply IH.
Qed.

Lemma nslice_app l m a b r : nslice l a b = Ret r -> nslice (l ++ m) a b = Ret r.
Proof.
  unfold nslice. destruct (Nat.leb_spec a b); simpl; [|discriminate].
  destruct (Nat.leb_spec b (length l)); [|discriminate].
  rewrite app_length. destruct (Nat.leb_spec b (length l + length m)); [|lia].
  intros E; injection E as <-. f_equal. rewrite skipn_app, firstn_app, skipn_length.
  replace (b - a - (length l - a)) with 0 by lia. simpl. apply app_nil_r.
Qed.
Lemma nslice_end l m : nslice (l ++ m) (length l) (length (l ++ m)) = Ret m.
Proof.
  unfold nslice. rewrite app_length. destruct (Nat.leb_spec (length l) (length l + length m)); [|lia].
  destruct (Nat.leb_spec (length l + length m) (length l + length m)); [|lia]. simpl. f_equal.
  rewrite skipn_app, skipn_all, Nat.sub_diag. simpl. apply firstn_all2. lia.
Qed.

Section T.
  Variable A : Type.
  Implicit Types (xs : list (stat A)) (b : builder A) (t : tree A).

  Definition st xs i : Z := match nth_error xs i with Some s => s_start s | None => 0%Z end.
  Definition en xs i : Z := match nth_error xs i with Some s => s_end s | None => 0%Z end.
  Definition du xs i : Z := match nth_error xs i with Some s => s_dur s | None => 0%Z end.
  Definition sumdu xs (l : list nat) : Z := sumZ (map (du xs) l).

  Lemma sumZ_app a c : sumZ (a ++ c) = (sumZ a + sumZ c)%Z.
  Proof. unfold sumZ. induction a as [|x a IH]; simpl; [reflexivity|]. rewrite IH. lia. Qed.

  (** *** The insertion loop *)
  Definition member (l : list nat) (i : nat) : bool := existsb (Nat.eqb i) l.
  Lemma member_In l i : member l i = true <-> In i l.
  Proof.
    unfold member. rewrite existsb_exists. split.
    - intros (x & Hx & E). apply Nat.eqb_eq in E. subst; exact Hx.
    - intros H. exists i. split; [exact H|apply Nat.eqb_refl].
  Qed.

  Lemma walk_spec (fr : nat -> nat) xs (cur : nat) (a : stat A) :
    forall fuel n w,
      n <= fuel -> FRok fr (st xs) n -> n <= length (w_acts w) -> w_first w = n ->
      (forall i, i < n -> exists nd, nth_error (w_acts w) i = Some nd /\ n_first nd = fr i /\
                                     nth_error xs i = Some (n_stat nd)) ->
      match insert_walk fuel n cur a w with
      | WDone w' =>
          let f := w_first w' in
          f <= n /\ (forall k, f <= k < n -> (s_start a <= st xs k)%Z) /\
          (0 < f -> (st xs (f - 1) < s_start a)%Z /\ (en xs (f - 1) <= s_start a)%Z) /\
          w_children w' = w_children w ++ chainto fr f n /\
          w_dur w' = (w_dur w + sumdu xs (chainto fr f n))%Z /\
          chainto fr 0 n = chainto fr f n ++ chainto fr 0 f /\
          length (w_acts w') = length (w_acts w) /\
          (forall i, nth_error (w_acts w') i =
             if member (chainto fr f n) i
             then option_map (fun c => set_parent c (nonzero cur)) (nth_error (w_acts w) i)
             else nth_error (w_acts w) i)
      | WErr e w' => exists i p, i < n /\ nth_error xs i = Some p /\ e = PartialOverlap p a /\
            (s_start p < s_start a < s_end p)%Z /\ (forall k, i < k < n -> (s_start a <= st xs k)%Z)
      | WPanic => False
      end.
  Proof.
    induction fuel as [|fuel IH]; intros n w Hn Hfr Hlen Hw Hnodes.
    - destruct n as [|n]; [|lia]. cbn [insert_walk]. cbv zeta. rewrite Hw. rewrite (chainto_le fr 0 0) by lia. rewrite app_nil_r.
      unfold sumdu; simpl. split; [lia|]. split; [lia|]. split; [lia|]. split; [reflexivity|].
      split; [lia|]. split; [reflexivity|]. split; [reflexivity|]. intros i; reflexivity.
    - assert (Hstop : forall nn : nat, nn = n -> (0 < n -> (st xs (n - 1) < s_start a)%Z /\ (en xs (n - 1) <= s_start a)%Z) ->
          let f := w_first w in
          f <= n /\ (forall k, f <= k < n -> (s_start a <= st xs k)%Z) /\
          (0 < f -> (st xs (f - 1) < s_start a)%Z /\ (en xs (f - 1) <= s_start a)%Z) /\
          w_children w = w_children w ++ chainto fr f n /\
          w_dur w = (w_dur w + sumdu xs (chainto fr f n))%Z /\
          chainto fr 0 n = chainto fr f n ++ chainto fr 0 f /\
          length (w_acts w) = length (w_acts w) /\
          (forall i, nth_error (w_acts w) i =
             if member (chainto fr f n) i
             then option_map (fun c => set_parent c (nonzero cur)) (nth_error (w_acts w) i)
             else nth_error (w_acts w) i)).
      { intros _ _ Hs. rewrite Hw. cbv zeta. rewrite (chainto_le fr n n) by lia. rewrite app_nil_r.
        unfold sumdu; simpl. split; [lia|]. split; [intros; lia|]. split; [exact Hs|]. split; [reflexivity|].
        split; [lia|]. split; [reflexivity|]. split; [reflexivity|]. intros i; reflexivity. }
      destruct n as [|m]; [cbn [insert_walk]; apply (Hstop 0); [reflexivity|lia]|].
      cbn [insert_walk].
      destruct (Hnodes m ltac:(lia)) as (nd & En & Ef & Es). rewrite En.
      assert (Hst : st xs m = s_start (n_stat nd)) by (unfold st; rewrite Es; reflexivity).
      assert (Hen : en xs m = s_end (n_stat nd)) by (unfold en; rewrite Es; reflexivity).
      assert (Hdu : du xs m = s_dur (n_stat nd)) by (unfold du; rewrite Es; reflexivity).
      destruct (Z.ltb_spec (s_start (n_stat nd)) (s_start a)) as [Hlt|Hge].
      + destruct (Z.leb_spec (s_end (n_stat nd)) (s_start a)) as [Hle|Hgt].
        * apply (Hstop (S m)); [reflexivity|]. replace (S m - 1) with m by lia. intros _. lia.
        * exists m, (n_stat nd). split; [lia|]. split; [exact Es|]. split; [reflexivity|].
          split; [lia|]. intros k Hk; lia.
      + destruct (Hfr m ltac:(lia)) as (Hm & Hbelow & Hprev). rewrite Ef.
        rewrite (proj2 (Nat.leb_le (fr m) m) Hm).
        set (w' := mk_walk _ _ _ _).
        assert (IHw := IH (fr m) w' ltac:(lia) (FRok_le fr (st xs) (S m) (fr m) Hfr ltac:(lia))).
        unfold w' in IHw at 1. cbn [w_acts] in IHw. rewrite update_length in IHw.
        specialize (IHw ltac:(lia) eq_refl).
        assert (Hnodes' : forall i, i < fr m -> exists nd0, nth_error (w_acts w') i = Some nd0 /\
             n_first nd0 = fr i /\ nth_error xs i = Some (n_stat nd0)).
        { intros i Hi. unfold w'; cbn [w_acts]. rewrite update_nth.
          destruct (Nat.eqb_spec m i); [lia|]. apply Hnodes. lia. }
        specialize (IHw Hnodes').
        destruct (insert_walk fuel (fr m) cur a w') as [w2|e w2|].
        * cbv zeta in IHw |- *. destruct IHw as (I1 & I2 & I3 & I4 & I5 & I6 & I7 & I8).
          assert (Hl : lowers fr (S m)) by (eapply FRok_lowers; exact Hfr).
          assert (Hc : chainto fr (w_first w2) (S m) = m :: chainto fr (w_first w2) (fr m)).
          { rewrite chainto_step by exact Hl. destruct (Nat.leb_spec (S m) (w_first w2)); [lia|reflexivity]. }
          split; [lia|]. split.
          { intros k Hk. destruct (Nat.lt_ge_cases k (fr m)); [apply I2; lia|].
            destruct (Nat.eq_dec k m) as [->|]; [lia|]. assert ((st xs m <= st xs k)%Z) by (apply Hbelow; lia). lia. }
          split; [exact I3|]. rewrite Hc. split.
          { rewrite I4. unfold w'; cbn [w_children]. rewrite <- app_assoc. reflexivity. }
          split.
          { rewrite I5. unfold w'; cbn [w_dur]. unfold sumdu; cbn [map sumZ fold_right]. unfold sumZ; cbn [fold_right]. rewrite Hdu. lia. }
          split.
          { rewrite chainto_step by exact Hl. simpl Nat.leb. cbv iota. rewrite I6. reflexivity. }
          split.
          { rewrite I7. unfold w'; cbn [w_acts]. apply update_length. }
          { intros i. rewrite I8. unfold w' at 1 2; cbn [w_acts]. rewrite update_nth.
            unfold member; cbn [existsb]. rewrite (Nat.eqb_sym m i).
            destruct (Nat.eqb_spec i m) as [->|Hne]; simpl; [|reflexivity].
            destruct (existsb (Nat.eqb m) (chainto fr (w_first w2) (fr m))) eqn:Ex; [|reflexivity].
            exfalso. apply (member_In _ m) in Ex.
            apply chainto_lt with (st := st xs) in Ex; [lia|]. apply (FRok_le _ _ (S m)); [exact Hfr|lia]. }
        * destruct IHw as (i & p & H1 & H2 & H3 & H4 & H5). exists i, p. split; [lia|]. split; [exact H2|].
          split; [exact H3|]. split; [exact H4|]. intros k Hk.
          destruct (Nat.lt_ge_cases k (fr m)); [apply H5; lia|].
          destruct (Nat.eq_dec k m) as [->|]; [lia|]. assert ((st xs m <= st xs k)%Z) by (apply Hbelow; lia). lia.
        * exact IHw.
  Qed.

  (** *** Builder invariant *)
  Definition okpair xs i j : Prop :=
    (en xs i <= en xs j)%Z /\ ((st xs j <= st xs i)%Z \/ (en xs i <= st xs j)%Z).

  Record BInv b xs (fr : nat -> nat) : Prop := {
    bi_len : length (b_acts b) = length xs;
    bi_node : forall i, i < length xs -> exists nd,
      nth_error (b_acts b) i = Some nd /\ nth_error xs i = Some (n_stat nd) /\ n_first nd = fr i /\
      n_self nd = (du xs i - sumdu xs (chainto fr (fr i) i))%Z /\
      nslice (b_children b) (n_ch0 nd) (n_ch1 nd) = Ret (chainto fr (fr i) i) /\
      (forall p, n_parent nd = Some p <-> p < length xs /\ In i (chainto fr (fr p) p));
    bi_fr : FRok fr (st xs) (length xs);
    bi_count : length (b_children b) + length (chainto fr 0 (length xs)) = length xs;
    bi_pairs : forall i j, i < j < length xs -> okpair xs i j;
    bi_last : b_last b = match length xs with 0 => None | S m => Some (en xs m) end
  }.

  Lemma new_binv : BInv b_new [] (fun _ => 0).
  Proof.
    constructor; simpl; auto; try (intros; lia). intros i Hi. simpl in Hi. lia.
  Qed.

  Lemma nth_app_lt {B} (l : list B) x i : i < length l -> nth_error (l ++ [x]) i = nth_error l i.
  Proof. intros H. apply nth_error_app1; exact H. Qed.
  Lemma nth_app_eq {B} (l : list B) x : nth_error (l ++ [x]) (length l) = Some x.
  Proof. rewrite nth_error_app2 by lia. rewrite Nat.sub_diag. reflexivity. Qed.

  Lemma st_app xs a i : i < length xs -> st (xs ++ [a]) i = st xs i.
  Proof. intros H. unfold st. rewrite nth_app_lt by exact H. reflexivity. Qed.
  Lemma en_app xs a i : i < length xs -> en (xs ++ [a]) i = en xs i.
  Proof. intros H. unfold en. rewrite nth_app_lt by exact H. reflexivity. Qed.
  Lemma du_app xs a i : i < length xs -> du (xs ++ [a]) i = du xs i.
  Proof. intros H. unfold du. rewrite nth_app_lt by exact H. reflexivity. Qed.
  Lemma st_last xs a : st (xs ++ [a]) (length xs) = s_start a.
  Proof. unfold st. rewrite nth_app_eq. reflexivity. Qed.
  Lemma en_last xs a : en (xs ++ [a]) (length xs) = s_end a.
  Proof. unfold en. rewrite nth_app_eq. reflexivity. Qed.
  Lemma du_last xs a : du (xs ++ [a]) (length xs) = s_dur a.
  Proof. unfold du. rewrite nth_app_eq. reflexivity. Qed.
  Lemma sumdu_app xs a l : (forall i, In i l -> i < length xs) -> sumdu (xs ++ [a]) l = sumdu xs l.
  Proof.
    intros H. unfold sumdu. f_equal. apply map_ext_in. intros i Hi. apply du_app, H, Hi.
  Qed.

  Definition push_ok xs (a : stat A) : Prop :=
    forall i, i < length xs -> (en xs i <= s_end a)%Z /\ ((s_start a <= st xs i)%Z \/ (en xs i <= s_start a)%Z).

  Lemma insert_spec b xs fr a : BInv b xs fr ->
    match insert b a with
    | (IOk, b') => push_ok xs a /\ exists fr', BInv b' (xs ++ [a]) fr'
    | (IErr (UnexpectedOrder p c), b') =>
        c = s_end a /\ exists m, length xs = S m /\ p = en xs m /\ (c < p)%Z
    | (IErr (PartialOverlap p q), b') =>
        q = a /\ (forall m, length xs = S m -> (en xs m <= s_end a)%Z) /\
        exists i, i < length xs /\ nth_error xs i = Some p /\ (s_start p < s_start a < s_end p)%Z /\
                  (forall k, i < k < length xs -> (s_start a <= st xs k)%Z)
    | (IPanic, _) => False
    end.
  Proof.
    intros HI. unfold insert, out_of_order. pose proof (bi_last _ _ _ HI) as Hlast.
    assert (Hord : (exists m, length xs = S m /\ b_last b = Some (en xs m) /\ (s_end a < en xs m)%Z) \/
                   ((match b_last b with Some l => if (s_end a <? l)%Z then Some l else None | None => None end) = None /\
                    forall m, length xs = S m -> (en xs m <= s_end a)%Z)).
    { rewrite Hlast. destruct (length xs) as [|m] eqn:El; [right; split; [reflexivity|discriminate]|].
      destruct (Z.ltb_spec (s_end a) (en xs m)); [left; exists m; auto|right].
      split; [reflexivity|]. intros m' E; injection E as <-. lia. }
    destruct Hord as [(m & Hm & Hb & Hlt)|[Hnone Hle]].
    - rewrite Hb. destruct (Z.ltb_spec (s_end a) (en xs m)); [|lia]. split; [reflexivity|]. exists m. auto.
    - rewrite Hnone.
      pose proof (walk_spec fr xs (length (b_acts b)) a (length (b_acts b)) (length (b_acts b))
                    (mk_walk (b_acts b) (b_children b) 0%Z (length (b_acts b)))) as Hw.
      cbn [w_acts w_children w_dur w_first] in Hw. rewrite (bi_len _ _ _ HI) in *.
      specialize (Hw (le_n _) (bi_fr _ _ _ HI) (le_n _) eq_refl).
      assert (Hnodes : forall i, i < length xs -> exists nd, nth_error (b_acts b) i = Some nd /\ n_first nd = fr i /\
             nth_error xs i = Some (n_stat nd)).
      { intros i Hi. destruct (bi_node _ _ _ HI i Hi) as (nd & E1 & E2 & E3 & _). exists nd. auto. }
      specialize (Hw Hnodes).
      destruct (insert_walk _ _ _ _ _) as [w|e w|]; [| |contradiction].
      + cbv zeta in Hw. destruct Hw as (W1 & W2 & W3 & W4 & W5 & W6 & W7 & W8).
        set (n := length xs) in *. set (f := w_first w) in *.
        pose proof (bi_fr _ _ _ HI) as Hfr. fold n in Hfr.
        assert (Hcs : forall i, In i (chainto fr f n) -> i < n).
        { intros i Hi. apply chainto_lt with (st := st xs) in Hi; [lia|exact Hfr]. }
        split.
        { intros i Hi. fold n in Hi. assert (Hend : (en xs i <= s_end a)%Z).
          { destruct n as [|m] eqn:En; [lia|]. specialize (Hle m eq_refl).
            destruct (Nat.eq_dec i m) as [->|]; [exact Hle|].
            destruct (bi_pairs _ _ _ HI i m) as [Hp _]; [unfold n in En; lia|]. lia. }
          split; [exact Hend|].
          destruct (Nat.lt_ge_cases i f) as [Hlt|Hge]; [|left; apply W2; lia].
          right. destruct (W3 ltac:(lia)) as [_ We].
          destruct (Nat.eq_dec i (f - 1)) as [->|]; [exact We|].
          destruct (bi_pairs _ _ _ HI i (f - 1)) as [Hp _]; [unfold n in *; lia|]. lia. }
        exists (fun i => if Nat.eqb i n then f else fr i).
        set (fr' := fun i => if Nat.eqb i n then f else fr i).
        assert (Hfr' : forall i, i < n -> fr' i = fr i).
        { intros i Hi. unfold fr'. destruct (Nat.eqb_spec i n); [lia|reflexivity]. }
        assert (Hfrn : fr' n = f) by (unfold fr'; rewrite Nat.eqb_refl; reflexivity).
        assert (Hct : forall lo m, m <= n -> chainto fr' lo m = chainto fr lo m).
        { intros lo m Hm. symmetry. apply chainto_ext.
          - eapply FRok_lowers, (FRok_le _ _ n); [exact Hfr|exact Hm].
          - intros i Hi. symmetry. apply Hfr'. lia. }
        assert (Hlen' : length (xs ++ [a]) = S n) by (rewrite app_length; simpl; unfold n; lia).
        assert (Hdn : du (xs ++ [a]) n = s_dur a) by apply du_last.
        assert (Hsn : st (xs ++ [a]) n = s_start a) by apply st_last.
        assert (Hen : en (xs ++ [a]) n = s_end a) by apply en_last.
        constructor; cbn [b_acts b_children b_last].
        * rewrite Hlen', app_length, W7. simpl. lia.
        * rewrite Hlen'. intros i Hi. destruct (Nat.eq_dec i n) as [->|Hne].
          -- exists (mk_node a (s_dur a - w_dur w)%Z f (length (b_children b)) (length (w_children w)) None).
             cbn [n_stat n_self n_first n_ch0 n_ch1 n_parent]. split.
             { replace n with (length (w_acts w)) at 1 by exact W7. apply nth_app_eq. }
             split; [apply nth_app_eq|]. split; [symmetry; exact Hfrn|]. rewrite Hfrn, Hct by lia. split.
             { rewrite W5, Hdn, sumdu_app by exact Hcs. lia. }
             split; [rewrite W4; apply nslice_end|].
             intros p. split; [discriminate|]. intros [Hp Hin].
             apply chainto_lt with (st := st (xs ++ [a])) in Hin; [lia|].
             (* FRok of fr' below p *)
             intros k Hk. rewrite Hfr' by lia. destruct (Hfr k ltac:(lia)) as (F1 & F2 & F3).
             split; [exact F1|]. split.
             ++ intros l Hl. rewrite !st_app by (fold n; lia). apply F2; exact Hl.
             ++ intros Hp0. rewrite !st_app by (fold n; lia). apply F3; exact Hp0.
          -- assert (Hin : i < n) by lia. destruct (bi_node _ _ _ HI i Hin) as (nd & E1 & E2 & E3 & E4 & E5 & E6).
             assert (Hacts : nth_error (w_acts w ++ [mk_node a (s_dur a - w_dur w)%Z f (length (b_children b)) (length (w_children w)) None]) i
                             = nth_error (w_acts w) i).
             { apply nth_app_lt. rewrite W7. exact Hin. }
             rewrite Hacts, W8, E1. cbn [option_map].
             assert (Hdc : chainto fr' (fr' i) i = chainto fr (fr i) i) by (rewrite Hfr', Hct by lia; reflexivity).
             assert (Hself : n_self nd = (du (xs ++ [a]) i - sumdu (xs ++ [a]) (chainto fr' (fr' i) i))%Z).
             { rewrite Hdc, E4, du_app by exact Hin. f_equal. symmetry. apply sumdu_app.
               intros k Hk. apply chainto_lt with (st := st xs) in Hk; [fold n; lia|]. apply (FRok_le _ _ n); [exact Hfr|lia]. }
             assert (Hch : nslice (w_children w) (n_ch0 nd) (n_ch1 nd) = Ret (chainto fr' (fr' i) i)).
             { rewrite Hdc, W4. apply nslice_app. exact E5. }
             assert (Hstat : nth_error (xs ++ [a]) i = Some (n_stat nd)) by (rewrite nth_app_lt by exact Hin; exact E2).
             assert (Hpar : forall p, (p < S n /\ In i (chainto fr' (fr' p) p)) <->
                        (p < n /\ In i (chainto fr (fr p) p)) \/ (p = n /\ In i (chainto fr f n))).
             { intros p. split.
               - intros [Hp Hi2]. destruct (Nat.eq_dec p n) as [->|]; [right|left].
                 + rewrite Hfrn, Hct in Hi2 by lia. auto.
                 + rewrite Hfr', Hct in Hi2 by lia. split; [lia|exact Hi2].
               - intros [[Hp Hi2]|[-> Hi2]]; (split; [lia|]).
                 + rewrite Hfr', Hct by lia. exact Hi2.
                 + rewrite Hfrn, Hct by lia. exact Hi2. }
             destruct (member (chainto fr f n) i) eqn:Emem.
             ++ apply member_In in Emem. exists (set_parent nd (nonzero n)). cbn [set_parent n_stat n_self n_first n_ch0 n_ch1 n_parent].
                split; [reflexivity|]. split; [exact Hstat|]. split; [rewrite Hfr' by lia; exact E3|].
                split; [exact Hself|]. split; [exact Hch|]. intros p. rewrite Hpar.
                assert (Hnz : nonzero n = Some n) by (destruct n; [lia|reflexivity]). rewrite Hnz. split.
                ** intros E; injection E as <-. right; auto.
                ** intros [[Hp Hi2]|[-> _]]; [exfalso|reflexivity].
                   apply chainto_mem with (st := st xs) in Emem; [|exact Hfr]. destruct Emem as [_ Em].
                   apply chainto_lt with (st := st xs) in Hi2; [|apply (FRok_le _ _ n); [exact Hfr|lia]].
                   specialize (Em p ltac:(lia)). lia.
             ++ exists nd. split; [reflexivity|]. split; [exact Hstat|]. split; [rewrite Hfr' by lia; exact E3|].
                split; [exact Hself|]. split; [exact Hch|]. intros p. rewrite E6, Hpar. fold n. split; [auto|].
                intros [H|[_ H]]; [exact H|]. apply member_In in H. congruence.
        * rewrite Hlen'. intros i Hi. destruct (Nat.eq_dec i n) as [->|Hne].
          -- rewrite Hfrn, Hsn. split; [exact W1|]. split.
             ++ intros k Hk. rewrite st_app by (fold n; lia). apply W2; exact Hk.
             ++ intros Hp. rewrite st_app by (fold n; lia). apply W3; exact Hp.
          -- rewrite Hfr' by lia. destruct (Hfr i ltac:(lia)) as (F1 & F2 & F3). split; [exact F1|]. split.
             ++ intros k Hk. rewrite !st_app by (fold n; lia). apply F2; exact Hk.
             ++ intros Hp. rewrite !st_app by (fold n; lia). apply F3; exact Hp.
        * rewrite Hlen'.
          assert (Hl' : lowers fr' (S n)).
          { intros i Hi. destruct (Nat.eq_dec i n) as [->|]; [rewrite Hfrn; exact W1|]. rewrite Hfr' by lia.
            apply (Hfr i). lia. }
          rewrite chainto_step by exact Hl'. simpl Nat.leb. cbv iota. rewrite Hfrn, Hct by exact W1.
          rewrite W4, app_length. simpl length.
          pose proof (bi_count _ _ _ HI) as Hc. fold n in Hc. rewrite W6, app_length in Hc. lia.
        * rewrite Hlen'. intros i j Hij. unfold okpair. destruct (Nat.eq_dec j n) as [->|Hne].
          -- rewrite Hen, Hsn, st_app, en_app by (fold n; lia).
             assert (Hend : (en xs i <= s_end a)%Z).
             { destruct n as [|m] eqn:En; [lia|]. specialize (Hle m eq_refl).
               destruct (Nat.eq_dec i m) as [->|]; [exact Hle|].
               destruct (bi_pairs _ _ _ HI i m) as [Hp _]; [unfold n in En; lia|]. lia. }
             split; [exact Hend|].
             destruct (Nat.lt_ge_cases i f) as [Hlt|Hge]; [|left; apply W2; lia].
             right. destruct (W3 ltac:(lia)) as [_ We].
             destruct (Nat.eq_dec i (f - 1)) as [->|]; [exact We|].
             destruct (bi_pairs _ _ _ HI i (f - 1)) as [Hp _]; [unfold n in *; lia|]. lia.
          -- rewrite !st_app, !en_app by (fold n; lia). apply (bi_pairs _ _ _ HI). fold n. lia.
        * rewrite Hlen', Hen. reflexivity.
      + destruct Hw as (i & p & H1 & H2 & -> & H4 & H5). split; [reflexivity|]. split; [exact Hle|].
        exists i. auto.
  Qed.

  Lemma insert_all_app xs : forall b ys, insert_all b (xs ++ ys) =
    match insert_all b xs with
    | (inl tt, b1) => match insert_all b1 ys with
                      | (inr (i, e), b2) => (inr (length xs + i, e), b2)
                      | r => r
                      end
    | r => r
    end.
  Proof.
    induction xs as [|x xs IH]; intros b ys; cbn [app insert_all].
    - destruct (insert_all b ys) as [[[]|[i e]] b2]; reflexivity.
    - destruct (insert b x) as [[| |] b1]; try reflexivity. rewrite IH.
      destruct (insert_all b1 xs) as [[[]|[i e]] b2]; try reflexivity.
      destruct (insert_all b2 ys) as [[[]|[i e]] b3]; reflexivity.
  Qed.

  Lemma insert_all_binv xs ys b fr : BInv b xs fr ->
    match insert_all b ys with
    | (inl tt, b') => exists fr', BInv b' (xs ++ ys) fr'
    | (inr (i, r), b') => exists b0 fr0 a pre post, ys = pre ++ a :: post /\ i = length pre /\
         BInv b0 (xs ++ pre) fr0 /\ insert b0 a = (r, b') /\ r <> IOk /\ insert_all b pre = (inl tt, b0)
    end.
  Proof.
    revert xs b fr; induction ys as [|y ys IH]; intros xs b fr HI; cbn [insert_all].
    - exists fr. rewrite app_nil_r. exact HI.
    - pose proof (insert_spec _ _ _ y HI) as Hs. destruct (insert b y) as [[|e|] b1] eqn:Ei.
      + destruct Hs as [_ [fr1 HI1]]. specialize (IH _ _ _ HI1).
        destruct (insert_all b1 ys) as [[[]|[i r]] b2].
        * destruct IH as [fr2 H2]. exists fr2. rewrite <- app_assoc in H2. exact H2.
        * destruct IH as (b0 & fr0 & a & pre & post & E1 & E2 & E3 & E4 & E5 & E6).
          exists b0, fr0, a, (y :: pre), post. subst ys i. rewrite <- app_assoc in E3.
          split; [reflexivity|]. split; [reflexivity|]. split; [exact E3|]. split; [exact E4|]. split; [exact E5|].
          cbn [insert_all]. rewrite Ei, E6. reflexivity.
      + exists b, fr, y, [], ys. rewrite app_nil_r. split; [reflexivity|]. split; [reflexivity|]. split; [exact HI|].
        split; [exact Ei|]. split; [discriminate|reflexivity].
      + contradiction.
  Qed.

  Lemma accepted_inv xs b : accepted xs b -> exists fr, BInv b xs fr.
  Proof.
    intros H. pose proof (insert_all_binv [] xs b_new _ new_binv) as Hb. unfold accepted in H.
    rewrite H in Hb. exact Hb.
  Qed.

  (** *** build *)
  Lemma root_walk_spec fr acts : forall fuel n children,
    n <= fuel -> lowers fr n ->
    (forall i, i < n -> exists nd, nth_error acts i = Some nd /\ n_first nd = fr i) ->
    root_walk (A := A) fuel n acts children = Ret (children ++ chainto fr 0 n).
  Proof.
    induction fuel as [|fuel IH]; intros n children Hn Hl Hnodes.
    - assert (n = 0) by lia. subst n. simpl. rewrite app_nil_r. reflexivity.
    - destruct n as [|m]; [simpl; rewrite app_nil_r; reflexivity|]. cbn [root_walk].
      destruct (Hnodes m ltac:(lia)) as (nd & E & Ef). rewrite E, Ef.
      assert (Hm : fr m <= m) by (apply Hl; lia). rewrite (proj2 (Nat.leb_le _ _) Hm).
      rewrite IH; [| lia | intros i Hi; apply Hl; lia | intros i Hi; apply Hnodes; lia].
      rewrite chainto_step by exact Hl. simpl Nat.leb. cbv iota. rewrite <- app_assoc. reflexivity.
  Qed.

  Lemma build_spec b xs fr : BInv b xs fr ->
    build b = Ret (mk_tree (b_acts b) (b_children b ++ chainto fr 0 (length xs)) (length (b_children b))).
  Proof.
    intros HI. unfold build. rewrite (bi_len _ _ _ HI).
    rewrite (root_walk_spec fr); [|lia|eapply FRok_lowers, HI|].
    - simpl obind. rewrite app_length, (bi_count _ _ _ HI), Nat.eqb_refl. reflexivity.
    - intros i Hi. destruct (bi_node _ _ _ HI i Hi) as (nd & E1 & _ & E3 & _). exists nd; auto.
  Qed.

  (** *** Trees *)
  Record TInv t xs (fr : nat -> nat) : Prop := {
    ti_len : length (t_acts t) = length xs;
    ti_stats : map n_stat (t_acts t) = xs;
    ti_node : forall i, i < length xs -> exists nd, nth_error (t_acts t) i = Some nd /\
      n_first nd = fr i /\ n_self nd = (du xs i - sumdu xs (chainto fr (fr i) i))%Z /\
      nth_error xs i = Some (n_stat nd);
    ti_dc : forall i, i < length xs -> direct_children t i = Ret (chainto fr (fr i) i);
    ti_ac : forall i, i < length xs -> all_children t i = Ret (seq (fr i) (i - fr i));
    ti_par : forall i, i < length xs -> exists q, parent t i = Ret q /\
      forall p, q = Some p <-> p < length xs /\ In i (chainto fr (fr p) p);
    ti_roots : root_activities t = Ret (chainto fr 0 (length xs));
    ti_fr : FRok fr (st xs) (length xs);
    ti_pairs : forall i j, i < j < length xs -> okpair xs i j
  }.

  Lemma nth_ext_list {B} (l m : list B) : (forall i, nth_error l i = nth_error m i) -> l = m.
  Proof.
    revert m; induction l as [|x l IH]; intros [|y m] H; auto.
    - specialize (H 0); discriminate.
    - specialize (H 0); discriminate.
    - f_equal; [specialize (H 0); simpl in H; congruence|]. apply IH. intros i. apply (H (S i)).
  Qed.

  Lemma tree_inv xs t : tree_of xs t -> exists fr, TInv t xs fr.
  Proof.
    intros (b & Ha & Hb). destruct (accepted_inv _ _ Ha) as [fr HI]. exists fr.
    rewrite (build_spec _ _ _ HI) in Hb. injection Hb as <-.
    assert (Hnode : forall i, i < length xs -> exists nd, nth_error (b_acts b) i = Some nd /\
      n_first nd = fr i /\ n_self nd = (du xs i - sumdu xs (chainto fr (fr i) i))%Z /\
      nth_error xs i = Some (n_stat nd)).
    { intros i Hi. destruct (bi_node _ _ _ HI i Hi) as (nd & E1 & E2 & E3 & E4 & _). exists nd. auto. }
    constructor; cbn [t_acts t_children t_first_root].
    - apply HI.
    - apply nth_ext_list. intros i. rewrite nth_error_map. destruct (Nat.lt_ge_cases i (length xs)) as [Hi|Hi].
      + destruct (bi_node _ _ _ HI i Hi) as (nd & E1 & E2 & _). rewrite E1, E2. reflexivity.
      + rewrite (proj2 (nth_error_None _ _)) by (rewrite (bi_len _ _ _ HI); exact Hi).
        rewrite (proj2 (nth_error_None _ _)) by exact Hi. reflexivity.
    - exact Hnode.
    - intros i Hi. destruct (bi_node _ _ _ HI i Hi) as (nd & E1 & E2 & E3 & E4 & E5 & _).
      unfold direct_children, activity_trace; cbn [t_acts t_children]. rewrite E1. simpl. apply nslice_app, E5.
    - intros i Hi. destruct (Hnode i Hi) as (nd & E1 & E2 & _).
      unfold all_children, activity_trace; cbn [t_acts]. rewrite E1. simpl obind. rewrite E2.
      destruct (bi_fr _ _ _ HI i Hi) as (Hm & _). rewrite (proj2 (Nat.leb_le _ _) Hm). reflexivity.
    - intros i Hi. destruct (bi_node _ _ _ HI i Hi) as (nd & E1 & _ & _ & _ & _ & E6).
      unfold parent, activity_trace; cbn [t_acts]. rewrite E1. simpl obind. exists (n_parent nd). split; [reflexivity|exact E6].
    - unfold root_activities; cbn [t_children t_first_root]. apply nslice_end.
    - apply HI.
    - apply HI.
  Qed.

  (** *** Descent *)
  Lemma fr_iff n xs fr a c : FRok fr (st xs) n -> c < n ->
    (fr c <= a < c <-> a < c /\ forall k, a <= k < c -> (st xs c <= st xs k)%Z).
  Proof.
    intros H Hc. destruct (H c Hc) as (H1 & H2 & H3). split.
    - intros [Ha Hb]. split; [exact Hb|]. intros k Hk. apply H2; lia.
    - intros [Ha Hk]. split; [|exact Ha].
      destruct (Nat.le_gt_cases (fr c) a) as [|Hlt]; [assumption|exfalso].
      assert ((st xs (fr c - 1) < st xs c)%Z) by (apply H3; lia).
      assert ((st xs c <= st xs (fr c - 1))%Z) by (apply Hk; lia). lia.
  Qed.

  Lemma self_sum fr xs (self : nat -> Z) n lo :
    FRok fr (st xs) n -> (forall i, lo <= i < n -> lo <= fr i) ->
    (forall i, i < n -> self i = (du xs i - sumdu xs (chainto fr (fr i) i))%Z) ->
    sumZ (map self (seq lo (n - lo))) = sumdu xs (chainto fr lo n).
  Proof.
    revert lo; induction n as [n IH] using (well_founded_induction lt_wf); intros lo H Hlo Hself.
    destruct n as [|m]; [simpl; unfold sumdu; reflexivity|].
    rewrite chainto_step by (eapply FRok_lowers; exact H).
    destruct (Nat.leb_spec (S m) lo) as [Hle|Hgt].
    - replace (S m - lo) with 0 by lia. reflexivity.
    - destruct (H m ltac:(lia)) as (Hm & Hb & Hp). assert (Hlom : lo <= fr m) by (apply Hlo; lia).
      replace (S m - lo) with ((fr m - lo) + ((m - fr m) + 1)) by lia.
      rewrite !seq_app, !map_app, !sumZ_app. replace (lo + (fr m - lo)) with (fr m) by lia.
      replace (fr m + (m - fr m)) with m by lia.
      rewrite (IH (fr m) ltac:(lia) lo); [|apply (FRok_le _ _ (S m)); [exact H|lia]|intros i Hi; apply Hlo; lia|intros i Hi; apply Hself; lia].
      rewrite (IH m ltac:(lia) (fr m)); [|apply (FRok_le _ _ (S m)); [exact H|lia]| |intros i Hi; apply Hself; lia].
      + cbn [seq map]. rewrite (Hself m ltac:(lia)). unfold sumdu; cbn [map]. unfold sumZ; cbn [fold_right]. fold (sumZ). lia.
      + intros i Hi. apply (fr_nest _ (st xs) (S m)); [exact H|lia|lia].
  Qed.

  Lemma chain_dur_le fr xs n lo T :
    FRok fr (st xs) n -> (forall i j, i < j < n -> okpair xs i j) ->
    (forall i, i < n -> en xs i = (st xs i + du xs i)%Z) ->
    (forall i, lo <= i < n -> (T <= st xs i)%Z) ->
    lo < n -> (sumdu xs (chainto fr lo n) <= en xs (n - 1) - T)%Z.
  Proof.
    induction n as [n IH] using (well_founded_induction lt_wf); intros H Hp He HT Hlo.
    destruct n as [|m]; [lia|]. rewrite chainto_step by (eapply FRok_lowers; exact H).
    destruct (Nat.leb_spec (S m) lo); [lia|]. replace (S m - 1) with m by lia.
    unfold sumdu; cbn [map]. unfold sumZ; cbn [fold_right]. fold (sumZ (map (du xs) (chainto fr lo (fr m)))). fold (sumdu xs (chainto fr lo (fr m))).
    destruct (H m ltac:(lia)) as (Hm & Hb & Hprev). assert (HTm : (T <= st xs m)%Z) by (apply HT; lia).
    rewrite (He m ltac:(lia)).
    destruct (Nat.lt_ge_cases lo (fr m)) as [Hlt|Hge].
    - assert (Hi : (sumdu xs (chainto fr lo (fr m)) <= en xs (fr m - 1) - T)%Z).
      { apply IH; try lia; [apply (FRok_le _ _ (S m)); [exact H|lia]|intros i j Hij; apply Hp; lia|intros i Hi; apply He; lia|intros i Hi; apply HT; lia]. }
      assert (Hs : (st xs (fr m - 1) < st xs m)%Z) by (apply Hprev; lia).
      destruct (Hp (fr m - 1) m ltac:(lia)) as [_ [Hx|Hx]]; lia.
    - rewrite chainto_le by exact Hge. unfold sumdu; simpl. lia.
  Qed.
End T.

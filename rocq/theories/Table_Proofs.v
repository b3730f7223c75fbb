(** Proofs about the table of a build profile: orders and sorting. *)
From Coq Require Import Permutation Sorting.Sorted QArith.
From Verif Require Import Base Asylum_Model Cmd_Model Cmd_Spec UI_Model UI_Spec Table_Model Table_Spec.
Local Open Scope nat_scope.

(** ** Sorting algorithms *)
Lemma run_mono s cmp cmp' r :
  (forall a b c, cmp a b = Ret c -> cmp' a b = Ret c) ->
  run_sorting s cmp = Ret r -> run_sorting s cmp' = Ret r.
Proof.
  intros H. induction s as [l|a b k IH]; simpl; [easy|].
  destruct (cmp a b) as [c|] eqn:E; [|discriminate]. rewrite (H _ _ _ E). simpl. apply IH.
Qed.
Lemma run_ext s cmp cmp' :
  (forall a b, cmp a b = cmp' a b) -> run_sorting s cmp = run_sorting s cmp'.
Proof.
  intros H. induction s as [l|a b k IH]; simpl; [easy|]. rewrite H. destruct (cmp' a b); simpl; auto.
Qed.

Section Sorts.
  Variable sort : list nat -> sorting.
  Hypothesis Hs : sorts sort.

  Lemma run_total l cmp c :
    NoDup l -> preorder l c -> (forall a b, In a l -> In b l -> cmp a b = Ret (c a b)) ->
    exists r, run_sorting (sort l) cmp = Ret r /\ Permutation l r /\ in_order c r.
  Proof.
    intros ND P E.
    set (inl_ := fun a => existsb (Nat.eqb a) l).
    assert (IN : forall a, inl_ a = true <-> In a l).
    { intros a. unfold inl_. rewrite existsb_exists. split.
      - intros (x & H & X). apply Nat.eqb_eq in X. now subst.
      - intros H. exists a. split; [exact H|apply Nat.eqb_refl]. }
    set (cx := fun a b => if inl_ a && inl_ b then Ret (c a b) else Panic).
    assert (NP : run_sorting (sort l) cx <> Panic).
    { apply (so_asks _ Hs); [exact ND|]. intros a b A B. unfold cx.
      rewrite (proj2 (IN a) A), (proj2 (IN b) B). discriminate. }
    destruct (run_sorting (sort l) cx) as [r|] eqn:R; [|congruence].
    destruct (so_sorted _ Hs l c ND P) as (r' & R' & PM & O).
    exists r. split; [|].
    - apply (run_mono _ cx); [|exact R]. unfold cx. intros a b x.
      destruct (inl_ a) eqn:A, (inl_ b) eqn:B; simpl; try discriminate.
      intros <-. apply E; now apply IN.
    - assert (R2 : run_sorting (sort l) (fun a b => Ret (c a b)) = Ret r).
      { apply (run_mono _ cx); [|exact R]. unfold cx. intros a b x.
        destruct (inl_ a), (inl_ b); simpl; congruence. }
      rewrite R2 in R'. injection R' as ->. split; assumption.
  Qed.

  (** Two orders that agree with all comparisons, but not on two elements: the algorithm must
      have compared what cannot be compared. *)
  Lemma run_stuck l cmp c1 c2 k j :
    NoDup l -> preorder l c1 -> preorder l c2 ->
    (forall a b c, In a l -> In b l -> cmp a b = Ret c -> c1 a b = c /\ c2 a b = c) ->
    In k l -> In j l -> c1 k j = Lt -> c2 k j = Gt ->
    (forall a b, ~ In a l \/ ~ In b l -> cmp a b = Panic) ->
    run_sorting (sort l) cmp = Panic.
  Proof.
    intros ND P1 P2 A K J L G OUT.
    destruct (run_sorting (sort l) cmp) as [r|] eqn:R; [exfalso|reflexivity].
    assert (X : forall ci, preorder l ci -> (forall a b c, In a l -> In b l -> cmp a b = Ret c -> ci a b = c) ->
              Permutation l r /\ in_order ci r).
    { intros ci Pi Ai. destruct (so_sorted _ Hs l ci ND Pi) as (r' & R' & PM & O).
      assert (E : run_sorting (sort l) (fun a b => Ret (ci a b)) = Ret r).
      { apply (run_mono _ cmp); [|exact R]. intros a b c E.
        destruct (in_dec Nat.eq_dec a l) as [Ha|Ha]; [|rewrite OUT in E by auto; discriminate].
        destruct (in_dec Nat.eq_dec b l) as [Hb|Hb]; [|rewrite OUT in E by auto; discriminate].
        f_equal. now apply Ai. }
      rewrite E in R'. injection R' as ->. auto. }
    destruct (X c1 P1) as (PM & O1); [intros; now apply A|].
    destruct (X c2 P2) as (_ & O2); [intros; now apply A|].
    assert (KR : In k r) by (eapply Permutation_in; eassumption).
    assert (JR : In j r) by (eapply Permutation_in; eassumption).
    unfold in_order in *.
    assert (Y : c1 j k <> Gt \/ c2 k j <> Gt).
    { assert (NE : k <> j).
      { intros ->. pose proof (po_swap _ _ P1 j j J J) as S. rewrite L in S. discriminate. }
      clear - KR JR O1 O2 NE. induction O1 as [|x r F1 O1 IH]; [elim KR|].
      inversion O2 as [|? ? F2 O2']; subst. rewrite Forall_forall in F1, F2.
      destruct KR as [->|KR], JR as [->|JR].
      - now elim NE.
      - right. now apply F2.
      - left. now apply F1.
      - now apply IH. }
    destruct Y as [Y|Y]; [|congruence]. rewrite (po_swap _ _ P1 k j K J), L in Y. now apply Y.
  Qed.
End Sorts.

(** ** Preorders from keys *)
Definition key_compare (p q : Z * Z) : comparison :=
  match (fst p ?= fst q)%Z with Eq => (snd p ?= snd q)%Z | c => c end.
Lemma key_swap p q : key_compare q p = CompOpp (key_compare p q).
Proof.
  unfold key_compare. rewrite (Z.compare_antisym (fst p) (fst q)).
  destruct (fst p ?= fst q)%Z; simpl; try reflexivity. apply Z.compare_antisym.
Qed.
Lemma key_le p q : key_compare p q <> Gt <-> (fst p < fst q \/ fst p = fst q /\ snd p <= snd q)%Z.
Proof.
  unfold key_compare. destruct (Z.compare_spec (fst p) (fst q)).
  - rewrite Z.compare_le_iff. split; [tauto|]. intros [|[]]; [lia|tauto].
  - split; [tauto|discriminate].
  - split; [congruence|lia].
Qed.
Lemma key_preorder (l : list nat) (key : nat -> Z * Z) : preorder l (fun a b => key_compare (key a) (key b)).
Proof.
  constructor; intros.
  - apply key_swap.
  - rewrite key_le in *. lia.
Qed.
Lemma flip_preorder {A} (l : list A) cmp : preorder l cmp -> preorder l (fun a b => cmp b a).
Proof.
  intros [S T]. constructor; intros.
  - now apply S.
  - intros E. apply (T c b a) in H2; auto.
Qed.

(** ** Lexicographic order *)
Section Lex.
  Context {A : Type} (cmp : A -> A -> comparison) (lt : A -> A -> Prop).
  Hypothesis cmp_eq : forall a b, cmp a b = Eq <-> a = b.
  Hypothesis cmp_lt : forall a b, cmp a b = Lt <-> lt a b.
  Hypothesis cmp_swap : forall a b, cmp b a = CompOpp (cmp a b).
  Hypothesis lt_trans : forall a b c, lt a b -> lt b c -> lt a c.
  Fixpoint lex (a b : list A) : comparison :=
    match a, b with
    | [], [] => Eq
    | [], _ => Lt
    | _, [] => Gt
    | x :: a', y :: b' => match cmp x y with Eq => lex a' b' | c => c end
    end.
  Lemma lex_eq a : forall b, lex a b = Eq <-> a = b.
  Proof.
    induction a as [|x a IH]; intros [|y b]; simpl; try (split; congruence).
    destruct (cmp x y) eqn:E.
    - apply cmp_eq in E. subst. rewrite IH. split; congruence.
    - split; [discriminate|]. intros H. injection H as -> ->. assert (cmp y y = Eq) by now apply cmp_eq. congruence.
    - split; [discriminate|]. intros H. injection H as -> ->. assert (cmp y y = Eq) by now apply cmp_eq. congruence.
  Qed.
  Lemma lex_swap a : forall b, lex b a = CompOpp (lex a b).
  Proof.
    induction a as [|x a IH]; intros [|y b]; simpl; try reflexivity.
    rewrite (cmp_swap x y). destruct (cmp x y); simpl; auto.
  Qed.
  Lemma lex_lt_iff a : forall b, lex a b = Lt <-> lex_lt lt a b.
  Proof.
    induction a as [|x a IH]; intros [|y b]; simpl.
    - split; [discriminate|intros H; inversion H].
    - split; [constructor|reflexivity].
    - split; [discriminate|intros H; inversion H].
    - destruct (cmp x y) eqn:E.
      + apply cmp_eq in E. subst. rewrite IH. split; [now constructor|].
        intros H. inversion H; subst; [|assumption].
        assert (cmp y y = Lt) by now apply cmp_lt. assert (cmp y y = Eq) by now apply cmp_eq. congruence.
      + split; [intros _; apply ll_here; now apply cmp_lt|reflexivity].
      + split; [discriminate|]. intros H. inversion H; subst.
        * match goal with X : lt _ _ |- _ => apply cmp_lt in X end. congruence.
        * assert (cmp y y = Eq) by now apply cmp_eq. congruence.
  Qed.
  Lemma lex_lt_trans a b c : lex_lt lt a b -> lex_lt lt b c -> lex_lt lt a c.
  Proof.
    intros H. revert c. induction H; intros c X; inversion X; subst; eauto using ll_nil, ll_here, ll_later.
  Qed.
End Lex.

Lemma str_compare_lex a : forall b, str_compare a b = lex N.compare a b.
Proof.
  induction a as [|x a IH]; intros [|y b]; simpl; reflexivity.
Qed.
Lemma str_eq_iff a b : str_compare a b = Eq <-> a = b.
Proof. rewrite str_compare_lex. apply lex_eq. apply N.compare_eq_iff. Qed.
Lemma str_lt_iff a b : str_compare a b = Lt <-> lex_lt N.lt a b.
Proof.
  rewrite str_compare_lex. apply lex_lt_iff; [apply N.compare_eq_iff|apply N.compare_lt_iff].
Qed.
Lemma str_swap a b : str_compare b a = CompOpp (str_compare a b).
Proof. rewrite !str_compare_lex. apply lex_swap. intros. apply N.compare_antisym. Qed.

Lemma component_eq_iff a b : component_compare a b = Eq <-> a = b.
Proof.
  destruct a, b; unfold component_compare; simpl; try (split; congruence).
  rewrite str_eq_iff. split; congruence.
Qed.
Lemma component_lt_iff a b : component_compare a b = Lt <-> component_lt a b.
Proof.
  destruct a, b; unfold component_compare; simpl;
    try (split; [intros; try discriminate; try (constructor; discriminate); constructor
                |intros H; inversion H; subst; try congruence; reflexivity]; fail).
  rewrite str_lt_iff. split; [now constructor|intros H; now inversion H].
Qed.
Lemma component_swap a b : component_compare b a = CompOpp (component_compare a b).
Proof. destruct a, b; unfold component_compare; simpl; try reflexivity. apply str_swap. Qed.
Lemma component_lt_trans a b c : component_lt a b -> component_lt b c -> component_lt a c.
Proof.
  intros H1 H2. inversion H1; subst; inversion H2; subst; try (constructor; discriminate); try constructor; try congruence.
  apply (lex_lt_trans N.lt) with t; [apply N.lt_trans|assumption|assumption].
Qed.

Lemma components_compare_lex a : forall b, components_compare a b = lex component_compare a b.
Proof.
  induction a as [|x a IH]; intros [|y b]; simpl; reflexivity.
Qed.
Definition path_compare (p q : str) : comparison := components_compare (path_components p) (path_components q).
Lemma path_compare_le p q : path_compare p q <> Gt <-> path_le p q.
Proof.
  unfold path_compare, path_le. rewrite components_compare_lex.
  rewrite <- (lex_eq component_compare component_eq_iff), <- (lex_lt_iff component_compare component_lt component_eq_iff component_lt_iff).
  destruct (lex component_compare _ _); split; try tauto; try congruence. intros [|]; congruence.
Qed.
Lemma path_compare_swap p q : path_compare q p = CompOpp (path_compare p q).
Proof. unfold path_compare. rewrite !components_compare_lex. apply lex_swap. apply component_swap. Qed.
Lemma path_le_trans p q r : path_le p q -> path_le q r -> path_le p r.
Proof.
  unfold path_le. intros [H|H] [H'|H'].
  - left. congruence.
  - right. now rewrite H.
  - right. now rewrite <- H'.
  - right. eapply lex_lt_trans; [apply component_lt_trans|eassumption|eassumption].
Qed.

(** ** Times *)
Definition time_key (t : option (duration + f32)) : Z * Z :=
  match t with
  | None => (0, 0)
  | Some (inl d) => (1, Z.of_N d)
  | Some (inr x) => (2, scaled x)
  end%Z.
Lemma time_cmp_key x y c : time_partial_cmp x y = Some c -> c = key_compare (time_key (Some x)) (time_key (Some y)).
Proof.
  destruct x as [a|x], y as [b|y]; simpl; try (intros H; injection H as <-; reflexivity).
  - intros H. injection H as <-. unfold key_compare. simpl. now rewrite N2Z.inj_compare.
  - unfold f32_partial_cmp, key_compare. simpl. destruct x, y; try discriminate; intros H; injection H as <-; reflexivity.
Qed.
Lemma wall_time_none t : wall_time t = None <-> t = None.
Proof.
  destruct t as [x|]; unfold wall_time; [|tauto]. split; [|discriminate].
  destruct x as [|neg|neg m e]; try discriminate.
  destruct (neg && _)%bool; [discriminate|]. destruct (over_u64 m e); [discriminate|].
  destruct (fract m e) as [fm fe]. match goal with |- context[round24 ?a ?b] => destruct (round24 a b) end. discriminate.
Qed.
Lemma wall_time_bad x y : wall_time (Some x) = Some (inr y) -> y = x.
Proof.
  unfold wall_time. destruct x as [|neg|neg m e]; try congruence.
  destruct (neg && _)%bool; [congruence|]. destruct (over_u64 m e); [congruence|].
  destruct (fract m e) as [fm fe]. match goal with |- context[round24 ?a ?b] => destruct (round24 a b) end. congruence.
Qed.

(** [scaled] is the value times 2^149. *)
Lemma scaled_seconds m e : (-149 <= e)%Z ->
  (seconds m e * inject_Z (2 ^ 149) == inject_Z (Z.of_N m * 2 ^ (e + 149)))%Q.
Proof.
  intros He. unfold seconds. destruct e as [|p|p].
  - rewrite <- inject_Z_mult. apply inject_Z_injective. rewrite Z.pow_0_r, Z.mul_1_r. reflexivity.
  - rewrite <- inject_Z_mult. apply inject_Z_injective.
    rewrite Z.pow_add_r by lia. rewrite Z.mul_assoc. reflexivity.
  - unfold Qeq, Qmult, inject_Z. simpl Qnum. simpl Qden. rewrite Pos.mul_1_r.
    replace (Z.pos (2 ^ p)) with (2 ^ Z.pos p)%Z by (rewrite Pos2Z.inj_pow; reflexivity).
    rewrite Z.mul_1_r. rewrite <- !Z.mul_assoc. f_equal.
    change (Z.pow_pos 2 149) with (2 ^ 149)%Z. change (Z.pos_sub 149 p) with (Z.neg p + 149)%Z.
    rewrite <- Z.pow_add_r by lia. f_equal. lia.
Qed.
Lemma scaled_signed n m e : (-149 <= e)%Z ->
  (signed n (seconds m e) * inject_Z (2 ^ 149) == inject_Z (scaled (FFin n m e)))%Q.
Proof.
  intros He. destruct n; unfold signed, scaled.
  - rewrite inject_Z_opp, <- (scaled_seconds m e He). ring.
  - apply scaled_seconds. exact He.
Qed.
Lemma scaled_bound n m e : f32_ok (FFin n m e) -> (- 2 ^ 400 < scaled (FFin n m e) < 2 ^ 400)%Z.
Proof.
  intros [Hm He]. unfold scaled.
  assert (B : (0 <= Z.of_N m * 2 ^ (e + 149) <= 2 ^ 24 * 2 ^ 253)%Z).
  { split; [apply Z.mul_nonneg_nonneg; [lia|apply Z.pow_nonneg; lia]|].
    apply Z.mul_le_mono_nonneg; [lia| |apply Z.pow_nonneg; lia|].
    - change (2 ^ 24)%Z with (Z.of_N (2 ^ 24)). lia.
    - apply Z.pow_le_mono_r; lia. }
  assert (L : (2 ^ 24 * 2 ^ 253 < 2 ^ 400)%Z) by reflexivity.
  destruct n; lia.
Qed.
Lemma f32_le_iff x y : f32_ok x -> f32_ok y -> x <> FNan -> y <> FNan ->
  ((scaled x <= scaled y)%Z <-> f32_le x y).
Proof.
  intros Ox Oy Nx Ny. split.
  - intros H. destruct x as [|[]|n1 m1 e1]; [easy|now constructor| |].
    + destruct y as [|[]|n2 m2 e2]; [easy|exfalso; apply H; reflexivity|now constructor|].
      pose proof (scaled_bound _ _ _ Oy). simpl in H. simpl in H0. lia.
    + destruct y as [|[]|n2 m2 e2]; [easy| |now constructor|].
      * pose proof (scaled_bound _ _ _ Ox). change (scaled (FInf true)) with (- 2 ^ 400)%Z in H. lia.
      * constructor. destruct Ox as [_ Ox], Oy as [_ Oy].
        rewrite Zle_Qle in H.
        rewrite <- (scaled_signed n1 m1 e1), <- (scaled_signed n2 m2 e2) in H by lia.
        apply Qmult_le_r in H; [exact H|reflexivity].
  - intros H. destruct H as [y' ?|x' ?|n1 m1 e1 n2 m2 e2 H].
    + change (scaled (FInf true)) with (- 2 ^ 400)%Z.
      destruct y' as [|[]|n2 m2 e2]; [easy|reflexivity|apply Z.leb_le; reflexivity|].
      pose proof (scaled_bound _ _ _ Oy). lia.
    + change (scaled (FInf false)) with (2 ^ 400)%Z.
      destruct x' as [|[]|n2 m2 e2]; [easy|apply Z.leb_le; reflexivity|reflexivity|].
      pose proof (scaled_bound _ _ _ Ox). lia.
    + destruct Ox as [_ Ox], Oy as [_ Oy]. rewrite Zle_Qle.
      rewrite <- (scaled_signed n1 m1 e1), <- (scaled_signed n2 m2 e2) by lia.
      apply Qmult_le_r; [reflexivity|exact H].
Qed.
Definition time_ok (t : duration + f32) : Prop := match t with inl _ => True | inr x => f32_ok x /\ x <> FNan end.
Lemma time_le_iff x y : time_ok x -> time_ok y ->
  (key_compare (time_key (Some x)) (time_key (Some y)) <> Gt <-> time_le x y).
Proof.
  intros Ox Oy. rewrite key_le. destruct x as [a|x], y as [b|y]; simpl.
  - split; [intros; constructor; lia|intros H; inversion H; subst; lia].
  - split; [intros; constructor|intros; lia].
  - split; [lia|intros H; inversion H].
  - destruct Ox, Oy. split.
    + intros H'. constructor. apply f32_le_iff; auto. lia.
    + intros H'. inversion H'; subst. right. split; [reflexivity|]. apply f32_le_iff; auto.
Qed.

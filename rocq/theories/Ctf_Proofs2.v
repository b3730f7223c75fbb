(** * Maps *)

From Coq Require Import String Permutation Sorted.
From Verif Require Import Base Load_Model Load_Spec Ctf_Model Ctf_Spec Ctf_Proofs.
Local Open Scope bool_scope.
Local Open Scope list_scope.

Lemma ltb_irrefl a : str_ltb a a = false.
Proof. induction a as [|x a IH]; [reflexivity|]. cbn. rewrite N.ltb_irrefl, N.eqb_refl, IH. reflexivity. Qed.

Lemma ltb_cons x y a b :
  str_ltb (x :: a) (y :: b) = true <-> (x < y)%N \/ (x = y /\ str_ltb a b = true).
Proof. cbn. rewrite orb_true_iff, andb_true_iff, N.ltb_lt, N.eqb_eq. reflexivity. Qed.

Lemma ltb_trans : forall a b c, str_ltb a b = true -> str_ltb b c = true -> str_ltb a c = true.
Proof.
  induction a as [|x a IH]; intros [|y b] [|z c] H1 H2; try discriminate; try reflexivity.
  apply ltb_cons in H1, H2. apply ltb_cons.
  destruct H1 as [H1|[-> H1]], H2 as [H2|[-> H2]]; [left; lia|left; exact H1|left; exact H2|].
  right. split; [reflexivity|exact (IH b c H1 H2)].
Qed.

Lemma ltb_total : forall a b, str_eqb a b = false -> str_ltb b a = false -> str_ltb a b = true.
Proof.
  induction a as [|x a IH]; intros [|y b] E L; try discriminate; try reflexivity.
  cbn in E, L. apply ltb_cons. apply orb_false_iff in L. destruct L as [L1 L2].
  apply N.ltb_ge in L1. destruct (N.eqb_spec x y) as [->|N].
  - right. split; [reflexivity|]. rewrite N.eqb_refl in L2. apply IH; assumption.
  - left. lia.
Qed.

Definition before {V} (a b : str * V) : Prop := str_ltb (fst a) (fst b) = true.
Definition sorted {V} (l : list (str * V)) : Prop := StronglySorted before l.

Lemma sorted_distinct {V} (l : list (str * V)) : sorted l -> distinct_keys l.
Proof.
  induction 1 as [|[k v] r S IH F]; [constructor|]. constructor; [|exact IH].
  intros Hin. apply in_map_iff in Hin. destruct Hin as [[k' w] [E Hin]]. cbn in E. subst k'.
  rewrite Forall_forall in F. specialize (F _ Hin). unfold before in F. cbn in F.
  rewrite ltb_irrefl in F. discriminate.
Qed.

Lemma put_in {V} k (v : V) x y : forall l, sorted l ->
  (In (x, y) (put k v l) <-> (x = k /\ y = v) \/ (x <> k /\ In (x, y) l)).
Proof.
  induction l as [|[k' v'] r IH]; intros S; cbn [put].
  - split; [intros [E|[]]; injection E as <- <-; auto|intros [[-> ->]|[_ []]]; now left].
  - inversion S as [|a b Sr F]; subst.
    assert (Dk : forall w, ~ In (k', w) r).
    { intros w Hw. rewrite Forall_forall in F. specialize (F _ Hw). unfold before in F. cbn in F.
      rewrite ltb_irrefl in F. discriminate. }
    destruct (str_eqb_spec k' k) as [->|N].
    + split.
      * intros [E|Hin]; [injection E as <- <-; auto|]. right. split; [intros ->; exact (Dk y Hin)|now right].
      * intros [[-> ->]|[Nx [E|Hin]]]; [now left|injection E as -> _; contradiction|now right].
    + destruct (str_ltb k k') eqn:L.
      * split.
        -- intros [E|Hin]; [injection E as <- <-; auto|]. right. split; [|exact Hin].
           intros ->. destruct Hin as [E|Hin]; [injection E as -> _; contradiction|].
           rewrite Forall_forall in F. specialize (F _ Hin). unfold before in F. cbn in F.
           pose proof (ltb_trans _ _ _ L F) as G. rewrite ltb_irrefl in G. discriminate.
        -- intros [[-> ->]|[_ Hin]]; [now left|now right].
      * cbn [In]. rewrite IH by exact Sr. split.
        -- intros [E|[[-> ->]|[Nx Hin]]]; [injection E as <- <-|auto|auto].
           right. split; [exact N|now left].
        -- intros [[-> ->]|[Nx [E|Hin]]]; [right; now left|now left|right; now right].
Qed.

Lemma put_sorted {V} k (v : V) : forall l, sorted l -> sorted (put k v l).
Proof.
  induction l as [|[k' v'] r IH]; intros S; cbn [put]; [constructor; constructor|].
  pose proof S as S0. inversion S as [|a b Sr F]; subst.
  destruct (str_eqb_spec k' k) as [->|N].
  - constructor; [exact Sr|]. exact F.
  - destruct (str_ltb k k') eqn:L.
    + constructor; [exact S0|]. constructor; [exact L|].
      rewrite Forall_forall in *. intros e He. specialize (F e He). unfold before in *. cbn in *.
      exact (ltb_trans _ _ _ L F).
    + constructor; [exact (IH Sr)|]. apply Forall_forall. intros [x y] Hin.
      apply put_in in Hin; [|exact Sr]. unfold before. cbn.
      destruct Hin as [[-> ->]|[_ Hin]].
      * apply ltb_total; [|exact L]. destruct (str_eqb_spec k' k); [contradiction|reflexivity].
      * rewrite Forall_forall in F. exact (F _ Hin).
Qed.

Lemma collect_app {V} (l : list (str * V)) e : collect (l ++ [e]) = put (fst e) (snd e) (collect l).
Proof. unfold collect. now rewrite fold_left_app. Qed.

Lemma collect_sorted {V} (l : list (str * V)) : sorted (collect l).
Proof.
  induction l as [|e r IH] using rev_ind; [constructor|]. rewrite collect_app. now apply put_sorted.
Qed.

(** The last value of a key *)
Lemma collect_in {V} (l : list (str * V)) k v :
  In (k, v) (collect l) <-> exists pre post, l = pre ++ (k, v) :: post /\ forall w, ~ In (k, w) post.
Proof.
  revert k v. induction l as [|[a b] r IH] using rev_ind; intros k v.
  - split; [intros []|intros [[|] [post [E _]]]; discriminate].
  - rewrite collect_app. cbn [fst snd]. rewrite put_in by apply collect_sorted. split.
    + intros [[-> ->]|[N Hin]].
      * exists r, []. split; [reflexivity|intros w []].
      * apply IH in Hin. destruct Hin as [pre [post [-> H]]]. exists pre, (post ++ [(a, b)]).
        split; [rewrite <- app_assoc; reflexivity|]. intros w Hw. apply in_app_iff in Hw.
        destruct Hw as [Hw|[E|[]]]; [exact (H w Hw)|congruence].
    + intros [pre [post [E H]]]. destruct post as [|e post] using rev_ind.
      * apply app_inj_tail in E. destruct E as [_ E]. injection E as -> ->. now left.
      * clear IHpost. right. rewrite app_comm_cons, app_assoc in E. apply app_inj_tail in E.
        destruct E as [-> <-]. split.
        -- intros ->. apply (H b). apply in_or_app. right. now left.
        -- apply IH. exists pre, post. split; [reflexivity|]. intros w Hw. apply (H w).
           apply in_or_app. now left.
Qed.

Lemma distinct_perm {V} (a b : list (str * V)) :
  distinct_keys a -> distinct_keys b -> (forall k v, In (k, v) a <-> In (k, v) b) -> Permutation a b.
Proof.
  intros Da Db H. apply NoDup_Permutation.
  - exact (NoDup_map_inv fst a Da).
  - exact (NoDup_map_inv fst b Db).
  - intros [k v]. apply H.
Qed.

Lemma sorted_unique {V} : forall a b : list (str * V),
  sorted a -> sorted b -> (forall k v, In (k, v) a <-> In (k, v) b) -> a = b.
Proof.
  induction a as [|[k v] a IH]; intros [|[k' v'] b] Sa Sb H; [reflexivity| | |].
  - exfalso. apply (H k' v'). now left.
  - exfalso. apply (H k v). now left.
  - inversion Sa as [|x y Sa' Fa]; subst. inversion Sb as [|x y Sb' Fb]; subst.
    rewrite Forall_forall in Fa, Fb.
    assert (E : (k, v) = (k', v')).
    { destruct (proj1 (H k v) (or_introl eq_refl)) as [E|Hin]; [now symmetry|].
      destruct (proj2 (H k' v') (or_introl eq_refl)) as [E|Hin']; [exact E|].
      apply Fa in Hin'. apply Fb in Hin. unfold before in *. cbn in *.
      pose proof (ltb_trans _ _ _ Hin Hin') as F. rewrite ltb_irrefl in F. discriminate. }
    injection E as <- <-. f_equal. apply IH; [exact Sa'|exact Sb'|].
    intros x y. split; intros Hin.
    + destruct (proj1 (H x y) (or_intror Hin)) as [E|R]; [|exact R]. injection E as <- <-.
      apply Fa in Hin. unfold before in Hin. cbn in Hin. rewrite ltb_irrefl in Hin. discriminate.
    + destruct (proj2 (H x y) (or_intror Hin)) as [E|R]; [|exact R]. injection E as <- <-.
      apply Fb in Hin. unfold before in Hin. cbn in Hin. rewrite ltb_irrefl in Hin. discriminate.
Qed.

Lemma ltb_alphabetical : forall a b, str_ltb a b = true <-> alphabetical a b.
Proof.
  induction a as [|x a IH]; intros [|y b].
  - split; [discriminate|]. intros [p [[<- [y [b' E]]]|[x [a' [y [b' [E _]]]]]]]; [discriminate|].
    destruct p; discriminate.
  - split; [|reflexivity]. intros _. exists []. left. split; [reflexivity|]. exists y, b. reflexivity.
  - split; [discriminate|]. intros [p [[<- [y [b' E]]]|[x' [a' [y [b' [_ [E _]]]]]]]]; [discriminate|].
    destruct p; discriminate.
  - rewrite ltb_cons, IH. split.
    + intros [L|[-> [p [[-> [y' [b' ->]]]|[x' [a' [y' [b' [-> [-> L]]]]]]]]]].
      * exists []. right. exists x, a, y, b. auto.
      * exists (y :: p). left. split; [reflexivity|]. exists y', b'. reflexivity.
      * exists (y :: p). right. exists x', a', y', b'. auto.
    + intros [p [[<- [y' [b' E]]]|[x' [a' [y' [b' [E1 [E2 L]]]]]]]].
      * injection E as -> ->. right. split; [reflexivity|]. exists a. left. split; [reflexivity|]. exists y', b'. reflexivity.
      * destruct p as [|c p]; cbn in E1, E2.
        -- injection E1 as -> ->. injection E2 as -> ->. now left.
        -- injection E1 as -> ->. injection E2 as -> ->. right. split; [reflexivity|].
           exists p. right. exists x', a', y', b'. auto.
Qed.

Lemma sorted_alphabetical {V} (l : list (str * V)) :
  sorted l <-> StronglySorted (fun e f => alphabetical (fst e) (fst f)) l.
Proof.
  split; induction 1 as [|e r S IH F]; constructor; try exact IH; clear -F; induction F as [|f r H F IH];
    constructor; try exact IH; apply ltb_alphabetical; exact H.
Qed.

Lemma put_map {V W} (g : V -> W) k v : forall l : list (str * V),
  put k (g v) (map (fun e => (fst e, g (snd e))) l) = map (fun e => (fst e, g (snd e))) (put k v l).
Proof.
  induction l as [|[a b] r IH]; [reflexivity|]. cbn [map put fst snd].
  destruct (str_eqb a k); [reflexivity|]. destruct (str_ltb k a); [reflexivity|].
  cbn [map fst snd]. now rewrite IH.
Qed.

Lemma collect_map {V W} (g : V -> W) (l : list (str * V)) :
  collect (map (fun e => (fst e, g (snd e))) l) = map (fun e => (fst e, g (snd e))) (collect l).
Proof.
  induction l as [|e r IH] using rev_ind; [reflexivity|].
  rewrite map_app. cbn [map]. rewrite !collect_app. cbn [fst snd]. rewrite IH. apply put_map.
Qed.

Section DocInduction.
  Variable P : doc -> Prop.
  Hypothesis Hnull : P DNull.
  Hypothesis Hbool : forall b, P (DBool b).
  Hypothesis Hnum : forall n, P (DNum n).
  Hypothesis Hstr : forall s, P (DStr s).
  Hypothesis Harr : forall l, (forall v, In v l -> P v) -> P (DArr l).
  Hypothesis Hobj : forall l, (forall (k : str) v, In (k, v) l -> P v) -> P (DObj l).
  Fixpoint doc_induction (d : doc) : P d.
  Proof.
    destruct d as [|b|n|s|l|l]; [exact Hnull|apply Hbool|apply Hnum|apply Hstr| |].
    - apply Harr. induction l as [|x r IH]; [intros v []|].
      intros v [<-|Hv]; [apply doc_induction|exact (IH v Hv)].
    - apply Hobj. induction l as [|[a x] r IH]; [intros k v []|].
      intros k v [E|Hv]; [|exact (IH k v Hv)]. injection E as _ <-. apply doc_induction.
  Defined.
End DocInduction.

Section WithNumbers.
  Variable time : number -> Z.
  Variable ident : number -> N.
  Variable iter : args -> args.
  Hypothesis iter_perm : forall l, Permutation l (iter l).

  Lemma value_iff v : forall j, value ident v j <-> j = to_value ident v.
  Proof.
    induction v as [|b|n|s|l IH|l IH] using doc_induction; intros j; cbn [to_value].
    - split; [intros H; now inversion H|intros ->; constructor].
    - split; [intros H; now inversion H|intros ->; constructor].
    - destruct n as [z|f].
      + destruct (Z.leb_spec 0 z); split.
        * intros V. inversion V; subst; [reflexivity|lia].
        * intros ->. now constructor.
        * intros V. inversion V; subst; [lia|reflexivity].
        * intros ->. now constructor.
      + split; [intros H; now inversion H|intros ->; constructor].
    - split; [intros H; now inversion H|intros ->; constructor].
    - split.
      + intros V. inversion V as [| | | | | |l0 m F|]; subst. f_equal. clear V.
        induction F as [|v j l m Hv F IHF]; [reflexivity|]. cbn [map]. f_equal.
        * apply IH; [now left|exact Hv].
        * apply IHF. intros x Hx. apply IH. now right.
      + intros ->. constructor. induction l as [|v l IHl]; constructor.
        * apply IH; [now left|reflexivity].
        * apply IHl. intros x Hx. apply IH. now right.
    - assert (C : forall k v, In (k, v) (collect l) <-> final l k v) by (intros; apply collect_in).
      assert (Hin : forall k v, In (k, v) (collect l) -> forall j, value ident v j <-> j = to_value ident v).
      { intros k v H. apply C in H. destruct H as [pre [post [-> _]]]. apply (IH k v).
        apply in_or_app. right. now left. }
      rewrite (collect_map (to_value ident) l). split.
      + intros V. inversion V as [| | | | | | |l0 last m S M F]; subst. f_equal.
        assert (E : last = collect l).
        { apply sorted_unique; [now apply sorted_alphabetical|apply collect_sorted|].
          intros k v. rewrite M, C. reflexivity. }
        clear V S. rewrite E in F. clear E M. revert Hin F. generalize (collect l). clear.
        intros c Hin F. induction F as [|[k v] [k' j] c m [Ek Hv] F IHF]; [reflexivity|].
        cbn [map fst snd] in *. subst k'. f_equal.
        * f_equal. apply (Hin k v); [now left|exact Hv].
        * apply IHF. intros a b Hab. apply (Hin a b). now right.
      + intros ->. apply (v_obj _ l (collect l)).
        * apply sorted_alphabetical. apply collect_sorted.
        * exact C.
        * revert Hin. generalize (collect l). clear. intros c Hin. induction c as [|[k v] c IHc]; constructor.
          -- split; [reflexivity|]. apply (Hin k v); [now left|reflexivity].
          -- apply IHc. intros a b Hab. apply (Hin a b). now right.
  Qed.

  Definition pairs (l : fields) : args := map (fun e => (fst e, to_value ident (snd e))) l.

  Lemma pairs_in l k j : In (k, j) (collect (pairs l)) <->
    exists v, final l k v /\ value ident v j.
  Proof.
    rewrite collect_in. unfold pairs. split.
    - intros [pre [post [E H]]]. apply map_eq_app in E. destruct E as [p [q [-> [Ep Eq]]]].
      apply map_eq_cons in Eq. destruct Eq as [[a v] [post' [-> [Ea Ep']]]]. cbn in Ea.
      injection Ea as -> <-. exists v. split; [exists p, post'; split; [reflexivity|]|now apply value_iff].
      intros w Hw. apply (H (to_value ident w)). rewrite <- Ep'.
      exact (in_map (fun e => (fst e, to_value ident (snd e))) post' (k, w) Hw).
    - intros [v [[pre [post [-> A]]] V]]. apply value_iff in V. subst j. rewrite map_app. cbn [map fst snd].
      eexists _, _. split; [reflexivity|]. intros w Hw. apply in_map_iff in Hw.
      destruct Hw as [[a u] [E Hu]]. cbn in E. injection E as -> _. exact (A u Hu).
  Qed.

  Lemma pairs_mapping l m : mapping ident l m <-> distinct_keys m /\ Permutation m (collect (pairs l)).
  Proof.
    unfold mapping. split.
    - intros [D H]. split; [exact D|]. apply distinct_perm; [exact D|apply sorted_distinct, collect_sorted|].
      intros k v. rewrite H, pairs_in. reflexivity.
    - intros [D P]. split; [exact D|]. intros k j. rewrite <- pairs_in. split; intros Hin.
      + exact (Permutation_in _ P Hin).
      + exact (Permutation_in _ (Permutation_sym P) Hin).
  Qed.

  Lemma distinct_perm_keys {V} (a b : list (str * V)) : Permutation a b -> distinct_keys a -> distinct_keys b.
  Proof. intros P. apply Permutation_NoDup. now apply Permutation_map. Qed.

  Lemma to_map_mapping l : mapping ident l (to_map ident iter l).
  Proof.
    apply pairs_mapping. unfold to_map. pose proof (iter_perm (collect (pairs l))) as P. split.
    - apply (distinct_perm_keys _ _ P). apply sorted_distinct, collect_sorted.
    - now apply Permutation_sym.
  Qed.

  Lemma mapping_same l m m' : mapping ident l m -> mapping ident l m' -> same_map m m'.
  Proof.
    intros A B. apply pairs_mapping in A, B. destruct A as [D P], B as [_ P'].
    split; [exact D|]. exact (perm_trans P (Permutation_sym P')).
  Qed.

  Lemma mapping_distinct l m : mapping ident l m -> distinct_keys m.
  Proof. intros [D _]. exact D. Qed.

  Lemma as_map_iff v m : as_map ident iter v = Some m -> map_of ident v m.
  Proof.
    unfold as_map, map_of. destruct v; try discriminate. intros H. injection H as <-.
    exists l. split; [reflexivity|apply to_map_mapping].
  Qed.
End WithNumbers.

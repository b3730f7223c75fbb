(** A sorting algorithm that meets the assumptions: insertion sort. *)
From Coq Require Import Permutation Sorting.Sorted.
From Verif Require Import Base Table_Model Table_Spec.
Local Open Scope nat_scope.

Fixpoint insert (x : nat) (l : list nat) (k : list nat -> sorting) : sorting :=
  match l with
  | [] => k [x]
  | y :: r => Compare x y (fun c =>
      match c with Gt => insert x r (fun r' => k (y :: r')) | _ => k (x :: y :: r) end)
  end.
Fixpoint isort (l : list nat) (k : list nat -> sorting) : sorting :=
  match l with [] => k [] | x :: r => isort r (fun r' => insert x r' k) end.
Definition insertion_sort (l : list nat) : sorting := isort l Sorted.

Section Total.
  Variable cmp : nat -> nat -> comparison.
  Fixpoint ins (x : nat) (l : list nat) : list nat :=
    match l with
    | [] => [x]
    | y :: r => match cmp x y with Gt => y :: ins x r | _ => x :: y :: r end
    end.
  Fixpoint srt (l : list nat) : list nat := match l with [] => [] | x :: r => ins x (srt r) end.
  Lemma insert_run x l : forall k,
    run_sorting (insert x l k) (fun a b => Ret (cmp a b)) = run_sorting (k (ins x l)) (fun a b => Ret (cmp a b)).
  Proof. induction l as [|y r IH]; intros k; simpl; [reflexivity|].
    destruct (cmp x y); [reflexivity|reflexivity|]. apply (IH (fun r' => k (y :: r'))). Qed.
  Lemma isort_run l : forall k,
    run_sorting (isort l k) (fun a b => Ret (cmp a b)) = run_sorting (k (srt l)) (fun a b => Ret (cmp a b)).
  Proof. induction l as [|y r IH]; intros k; simpl; [reflexivity|]. rewrite IH. apply insert_run. Qed.
  Lemma ins_perm x l : Permutation (x :: l) (ins x l).
  Proof.
    induction l as [|y r IH]; simpl; [auto|]. destruct (cmp x y); auto.
    eapply perm_trans; [apply perm_swap|]. now apply perm_skip.
  Qed.
  Lemma srt_perm l : Permutation l (srt l).
  Proof. induction l as [|x r IH]; simpl; [auto|]. eapply perm_trans; [apply perm_skip, IH|apply ins_perm]. Qed.
  Lemma ins_order on x l : preorder on cmp -> In x on -> (forall a, In a l -> In a on) ->
    in_order cmp l -> in_order cmp (ins x l).
  Proof.
    intros P X. unfold in_order. induction l as [|y r IH]; intros L O; simpl.
    - constructor; constructor.
    - inversion O as [|? ? F O']; subst. destruct (cmp x y) eqn:E.
      1,2: constructor; [|exact O]; constructor; [congruence|]; rewrite Forall_forall in F |- *; intros b B;
        apply (po_trans _ _ P x y b); auto; [apply L; now left|apply L; now right|congruence].
      constructor; [|apply IH; auto; intros a A; apply L; now right].
      apply Forall_forall. intros b B. apply (Permutation_in b (Permutation_sym (ins_perm x r))) in B.
      destruct B as [<-|B].
      + rewrite (po_swap _ _ P x y); [|exact X|apply L; now left]. rewrite E. discriminate.
      + rewrite Forall_forall in F. now apply F.
  Qed.
  Lemma srt_order on l : preorder on cmp -> (forall a, In a l -> In a on) -> in_order cmp (srt l).
  Proof.
    intros P. induction l as [|x r IH]; intros L; simpl; [constructor|].
    apply (ins_order on); auto.
    - apply L. now left.
    - intros a A. apply L. right. exact (Permutation_in a (Permutation_sym (srt_perm r)) A).
    - apply IH. intros a A. apply L. now right.
  Qed.
End Total.

Section Asks.
  Variable cmp : nat -> nat -> outcome comparison.
  Variable on : list nat.
  Hypothesis H : forall a b, In a on -> In b on -> cmp a b <> Panic.
  Lemma insert_asks x l : In x on -> (forall a, In a l -> In a on) ->
    forall k, (forall r, (forall a, In a r -> In a on) -> run_sorting (k r) cmp <> Panic) ->
    run_sorting (insert x l k) cmp <> Panic.
  Proof.
    intros X. induction l as [|y r IH]; intros L k K; simpl.
    - apply K. intros a [<-|[]]. exact X.
    - destruct (cmp x y) as [c|] eqn:E; [|elim (H x y X (L y (or_introl eq_refl))); exact E]. simpl.
      assert (Kx : run_sorting (k (x :: y :: r)) cmp <> Panic).
      { apply K. intros a [<-|A]; [exact X|now apply L]. }
      destruct c; auto. apply IH.
      + intros a A. apply L. now right.
      + intros s S. apply K. intros a [<-|A]; [apply L; now left|now apply S].
  Qed.
  Lemma isort_asks l : (forall a, In a l -> In a on) ->
    forall k, (forall r, (forall a, In a r -> In a on) -> run_sorting (k r) cmp <> Panic) ->
    run_sorting (isort l k) cmp <> Panic.
  Proof.
    induction l as [|x r IH]; intros L k K; simpl; [apply K; easy|].
    apply IH; [intros a A; apply L; now right|]. intros s S. apply insert_asks; auto. apply L. now left.
  Qed.
End Asks.

Lemma insertion_sort_sorts : sorts insertion_sort.
Proof.
  constructor.
  - intros l cmp _ P. exists (srt cmp l). unfold insertion_sort. rewrite isort_run. split; [reflexivity|].
    split; [apply srt_perm|]. now apply (srt_order cmp l).
  - intros l cmp _ H. unfold insertion_sort. apply (isort_asks cmp l H l); [auto|]. discriminate.
Qed.

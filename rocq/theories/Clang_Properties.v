(** * Detection of clang++: C72.  See Clang_Spec.v for the vocabulary. *)
From Coq Require Import String.
From Verif Require Import Base Clang_Model Clang_Spec Clang_Proofs.
Local Open Scope nat_scope.
Local Open Scope bool_scope.
Local Open Scope list_scope.
Local Notation "' s" := (of_string s) (at level 0, s at level 0).

(** The answer is the specified one, whatever the program prints. *)
Theorem C72_clang_detection :
  forall is_digit, digit_class is_digit -> forall p a,
  find_clangpp is_digit p = a <-> decides is_digit p a.
Proof. exact find_iff. Qed.
Print Assumptions C72_clang_detection.

(** In particular clang++ is used if and only if the first version found in the first line of
    what it prints is at least 9. *)
Theorem C72_used_iff_recent :
  forall is_digit, digit_class is_digit -> forall p,
  find_clangpp is_digit p = Found <->
  exists text line major n, p = PRan true (Some text) /\ starts_with_line text line /\
    version is_digit line major /\ number_of major n /\ (9 <= n)%N.
Proof.
  intros d Hc p. rewrite (find_iff d Hc). split.
  - intros H. inversion H as [| | | | |t l m n S V N0 C| |]; subst. exists t, l, m, n. easy.
  - intros (t & l & m & n & -> & S & V & N0 & C). eapply de_found; eassumption.
Qed.
Print Assumptions C72_used_iff_recent.

(** Only the first version of the line counts: a recent one after an old one is not seen. *)
Definition ascii_digit (c : chr) : bool := (N.leb 48 c && N.leb c 57)%N.
Example digit_class_witness : digit_class ascii_digit.
Proof.
  constructor; [|reflexivity]. intros c H. unfold ascii_digit.
  destruct (N.leb_spec 48 c), (N.leb_spec c 57); simpl; lia.
Qed.
Theorem C72_any_recent_version_refuted :
  ~ (forall is_digit, digit_class is_digit -> forall text line before major n,
     starts_with_line text line -> version_after is_digit line before major ->
     number_of major n -> (9 <= n)%N ->
     find_clangpp is_digit (PRan true (Some text)) = Found).
Proof.
  intros H.
  assert (E : find_clangpp ascii_digit (PRan true (Some ' "clang version 8.0 not clang version 15.0")) = Found).
  { apply (H ascii_digit digit_class_witness _ ' "clang version 8.0 not clang version 15.0" ' "clang version 8.0 not " ' "15" 15%N).
    - apply sl_only; [discriminate|]. simpl. intuition discriminate.
    - exists 48%N, []. split; [reflexivity|]. split; [discriminate|].
      split; [repeat (apply Forall_cons; [reflexivity|]); apply Forall_nil|reflexivity].
    - split; [|reflexivity]. change 15%N with (10 * (49 - 48) + (53 - 48))%N. apply (num_more [49%N]); [|lia].
      apply num_one. lia.
    - lia. }
  vm_compute in E. discriminate.
Qed.
Print Assumptions C72_any_recent_version_refuted.

Example C72_witness :
  map (fun s => find_clangpp ascii_digit (PRan true (Some s)))
    [' "Ubuntu clang version 14.0.0-1ubuntu1" ++ [13; 10]%N ++ ' "Target: x86_64";
     ' "clang version 9.0"; ' "clang version 8.9.9"; ' "clang version 15"; ' "gcc (GCC) 12.2.0" ++ [10%N]; [];
     ' "clang version 99999999999999999999.0"; ' "clang version x, clang version 10.1"]
  = [Found; Found; Error (AncientVersion 8); Error (UnexpectedVersion ' "clang version 15");
     Error (UnexpectedVersion ' "gcc (GCC) 12.2.0"); Error EmptyVersion;
     Error (UnexpectedVersion ' "clang version 99999999999999999999.0"); Found] /\
  decides ascii_digit (PRan true (Some ' "clang version 9.0")) Found.
Proof.
  split; [vm_compute; reflexivity|]. apply find_iff; [exact digit_class_witness|]. vm_compute. reflexivity.
Qed.

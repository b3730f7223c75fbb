(** A trace with huge times whose breakdown panics *)
From Coq Require Import Sorted Permutation.
From Verif Require Import Base Tree_Model Tree_Spec UI_Model UI_Spec Float_Model Float_Spec Float_Proofs Float_Proofs2 Float_Proofs3 Float_Proofs4 Float_Proofs5 Share_Model Share_Spec Share_Proofs Share_Proofs2 Share_Proofs3 Share_Proofs4.

Definition largest : Z := ((2 ^ 53 - 1) * 2 ^ 2045)%Z.
Definition huge_times : list (fstat str) :=
  let a := [65%N] in
  let s := ((2 ^ 53 - 5) * 2 ^ 2045)%Z in
  [mk_fstat a (Num (- (2 ^ 53 - 1) * 2 ^ 2045)) (Num largest);
   mk_fstat a (Num 0) (Num s);
   mk_fstat a (Num s) (Num (3 * 2 ^ 2044));
   mk_fstat a (Num ((2 ^ 53 - 4) * 2 ^ 2045)) (Num (149 * 2 ^ 2038));
   mk_fstat a (Num ((2 ^ 53 - 3) * 2 ^ 2045)) (Num (3 * 2 ^ 2044));
   mk_fstat a (Num ((2 ^ 53 - 2) * 2 ^ 2045)) (Num (149 * 2 ^ 2038));
   mk_fstat a (Num largest) (Num (63 * 2 ^ 2038));
   mk_fstat a (Num 0) (Num largest);
   mk_fstat [66%N] (Num largest) (Num 0)].
(** Insertion sort meets the assumption [fsorts] *)
Fixpoint finsert {B} (key : B -> f64) (x : B) (l : list B) : list B :=
  match l with
  | [] => [x]
  | y :: r => if fle (key y) (key x) then x :: y :: r else y :: finsert key x r
  end.
Definition finsertion (B : Type) (key : B -> f64) (l : list B) : list B := fold_right (finsert key) [] l.
Lemma huge_up : huge_times =
  let a := [65%N] in
  let s := Num ((2 ^ 53 - 5) * 2 ^ 7) in
  [mk_fstat a (up (Num (- (2 ^ 53 - 1) * 2 ^ 7))) (up (Num ((2 ^ 53 - 1) * 2 ^ 7)));
   mk_fstat a (up (Num 0)) (up s);
   mk_fstat a (up s) (up (Num (3 * 2 ^ 6)));
   mk_fstat a (up (Num ((2 ^ 53 - 4) * 2 ^ 7))) (up (Num (149 * 2 ^ 0)));
   mk_fstat a (up (Num ((2 ^ 53 - 3) * 2 ^ 7))) (up (Num (3 * 2 ^ 6)));
   mk_fstat a (up (Num ((2 ^ 53 - 2) * 2 ^ 7))) (up (Num (149 * 2 ^ 0)));
   mk_fstat a (up (Num ((2 ^ 53 - 1) * 2 ^ 7))) (up (Num (63 * 2 ^ 0)));
   mk_fstat a (up (Num 0)) (up (Num ((2 ^ 53 - 1) * 2 ^ 7)));
   mk_fstat [66%N] (up (Num ((2 ^ 53 - 1) * 2 ^ 7))) (up (Num 0))].
Proof.
  unfold huge_times, largest. cbv zeta.
  change 2045%Z with (2038 + 7)%Z. change 2044%Z with (2038 + 6)%Z.
  change (2 ^ 2038)%Z with (2 ^ (2038 + 0))%Z. rewrite !unit_le by lia. reflexivity.
Qed.
Ltac evals :=
  repeat match goal with
  | |- context [sadd (Num ?a) (Num ?b)] => let v := eval vm_compute in (sadd (Num a) (Num b)) in change (sadd (Num a) (Num b)) with v
  | |- context [sadd (Num ?a) (fneg (Num ?b))] => let v := eval vm_compute in (sadd (Num a) (fneg (Num b))) in change (sadd (Num a) (fneg (Num b))) with v
  | |- context [sadd (Num ?a) (fneg (Infinite ?b))] => change (sadd (Num a) (fneg (Infinite b))) with (Infinite (negb b))
  | |- context [sadd (Num ?a) (Infinite ?b)] => change (sadd (Num a) (Infinite b)) with (Infinite b)
  | |- context [sadd (Infinite ?b) (Num ?a)] => change (sadd (Infinite b) (Num a)) with (Infinite b)
  | |- context [sadd (Infinite ?a) (Infinite ?b)] => let v := eval vm_compute in (sadd (Infinite a) (Infinite b)) in change (sadd (Infinite a) (Infinite b)) with v
  | |- context [flt (Num ?a) (Num ?b)] => let v := eval vm_compute in (flt (Num a) (Num b)) in change (flt (Num a) (Num b)) with v
  | |- context [fle (Num ?a) (Num ?b)] => let v := eval vm_compute in (fle (Num a) (Num b)) in change (fle (Num a) (Num b)) with v
  end.
Ltac float_step :=
  cbv beta iota zeta delta [Float_Model.finsert finsert_walk fs_end fs_act fs_start fs_dur fn_stat fn_self fn_first fn_ch0
       fn_ch1 fn_parent fset_parent fb_new fb_acts fb_children fb_last fw_acts fw_children fw_dur
       fw_first length nth_error update app Nat.leb nonzero negb];
  try match goal with |- context [mk_fwalk ?x ?y (Num 0) ?z] => change (mk_fwalk x y (Num 0) z) with (mk_fwalk x y (up (Num 0)) z) end;
  repeat match goal with
  | |- context [fsub ?x (Num 0)] => change (fsub x (Num 0)) with (fsub x (up (Num 0)))
  | |- context [fadd (Num 0) ?x] => change (fadd (Num 0) x) with (fadd (up (Num 0)) x)
  end;
  repeat match goal with
  | |- context [f64_min] => rewrite up_min
  | |- context [fadd (up ?a) (up ?b)] => rewrite (up_add a b); evals
  | |- context [fsub (up ?a) (up ?b)] => rewrite (up_sub a b); evals
  | |- context [flt (up ?a) (up ?b)] => rewrite (up_lt a b); evals
  | |- context [fle (up ?a) (up ?b)] => rewrite (up_le a b); evals
  end.
Lemma insert_step (A : Type) b x xs b1 (r : (unit + nat * finsert_result A) * fbuilder A) :
  Float_Model.finsert b x = (FIOk, b1) -> finsert_all b1 xs = (inl tt, snd r) -> fst r = inl tt -> finsert_all b (x :: xs) = r.
Proof. intros H1 H2 H3. destruct r as [u b2]. simpl in *. subst u. rewrite H1, H2. reflexivity. Qed.
Lemma huge_panics : exists t, ftree_of huge_times t /\ ftrace_breakdown finsertion t = Panic.
Proof.
  unfold ftree_of. rewrite huge_up. cbv zeta. eexists. split; [eexists; split|].
  - repeat (eapply insert_step; [repeat (progress float_step); reflexivity| |reflexivity]). reflexivity.
  - reflexivity.
  - unfold ftrace_breakdown, fbreakdown.
    repeat (progress (cbv beta iota zeta delta [ft_acts fold_left fadd_entry map fst snd fb_acts str_eqb N.eqb Pos.eqb andb]; float_step)).
  reflexivity.
Qed.

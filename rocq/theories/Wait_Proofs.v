(** Proofs about awaiting clang. *)
From Coq Require Import Ascii String.
From Verif Require Import Base Wait_Model Wait_Spec.
Local Open Scope nat_scope.
Local Open Scope list_scope.
Local Notation "' s" := (of_string s) (at level 0, s at level 0).

Fixpoint on (s : stream) (l : list (stream * byte)) : list byte :=
  match l with
  | [] => []
  | (SOut, b) :: r => match s with SOut => b :: on s r | SErr => on s r end
  | (SErr, b) :: r => match s with SErr => b :: on s r | SOut => on s r end
  end.
Lemma on_prints s l : prints s l (on s l).
Proof.
  induction l as [|[[] b] r IH]; simpl; [constructor| |]; destruct s; constructor; auto; discriminate.
Qed.
Lemma prints_on s l x : prints s l x -> x = on s l.
Proof.
  induction 1 as [|b r l H IH|s' b r l N H IH]; [reflexivity| |]; subst.
  - destruct s; reflexivity.
  - destruct s, s'; try reflexivity; now elim N.
Qed.
Lemma on_app s a b : on s (a ++ b) = on s a ++ on s b.
Proof. induction a as [|[[] x] r IH]; simpl; [reflexivity| |]; destruct s; simpl; now rewrite IH. Qed.

Section Wait.
  Variable show_status : status -> str.
  Variable lossy : list byte -> str.
  Variable capacity : nat.
  Variable c : clang.
  Notation wstep := (step show_status lossy capacity c).
  Notation run := (wait_run show_status lossy capacity c).

  Lemma message_text st out err :
    failure_text show_status lossy st out err (child_failure_message show_status lossy st out err).
  Proof.
    unfold child_failure_message, append_pipe. destruct out as [|o out], err as [|e err]; cbn [is_empty negb].
    - constructor.
    - rewrite <- !app_assoc. apply (ft_err show_status lossy st e err).
    - rewrite <- !app_assoc. apply (ft_out show_status lossy st o out).
    - pose proof (ft_both show_status lossy st o out e err) as H. unfold section_of in H.
      rewrite <- !app_assoc in *. exact H.
  Qed.

  (** Invariant *)
  Record inv (evs : list event) (w : waiting) : Prop := {
    i_written : exists done, c_writes c = done ++ w_todo w /\ w_out w = on SOut done /\ w_err w = on SErr done;
    i_room : List.length (w_out w) <= capacity /\ List.length (w_err w) <= capacity;
    i_ended : match w_ended w with
              | None => True
              | Some (Exited code) => w_todo w = [] /\ c_end c = Some code
              | Some (Signalled n) => In (Signal n) evs
              end;
    i_cancel : w_cancel w = true <-> In Cancel evs;
    i_pc : match w_pc w with
           | Polling => True
           | Killing => w_cancel w = true
           | Done Completed => w_ended w = Some (Exited 0)
           | Done Canceled => w_cancel w = true
           | Done (Failed (ClangFailed m)) => exists st, w_ended w = Some st /\ st <> Exited 0 /\
               m = child_failure_message show_status lossy st (w_out w) (w_err w)
           | Done (Failed KillFailed) => w_cancel w = true /\ In KillError evs
           | Done (Failed AwaitFailed) => In PollError evs
           end }.

  Lemma inv_run evs w : run evs w -> inv evs w.
  Proof.
    induction 1 as [|evs w e w' R [(done & D1 & D2 & D3) Ro En Ca Pc] St].
    - constructor; simpl; auto.
      + exists []. auto.
      + lia.
      + split; [discriminate|easy].
    - assert (Inc : forall x, In x evs -> In x (evs ++ [e])) by (intros; apply in_or_app; now left).
      assert (Last : In e (evs ++ [e])) by (apply in_or_app; right; now left).
      assert (CaN : e <> Cancel -> (w_cancel w = true <-> In Cancel (evs ++ [e]))).
      { intros N. rewrite Ca. split; [apply Inc|]. intros I. apply in_app_or in I as [I|[I|[]]]; [exact I|congruence]. }
      assert (EnN : match w_ended w with
              | None => True
              | Some (Exited code) => w_todo w = [] /\ c_end c = Some code
              | Some (Signalled n) => In (Signal n) (evs ++ [e])
              end) by (destruct (w_ended w) as [[]|]; auto).
      destruct e; simpl in St.
      + destruct (w_ended w) eqn:Ew; [discriminate|]. destruct (w_todo w) as [|[[] b] r] eqn:Et; [discriminate| |].
        * destruct (Nat.ltb_spec (List.length (w_out w)) capacity); [|discriminate]. injection St as <-.
          constructor; simpl; auto.
          -- exists (done ++ [(SOut, b)]). rewrite <- app_assoc. split; [exact D1|].
             rewrite !on_app, D2, D3. simpl. rewrite app_nil_r. split; reflexivity.
          -- rewrite app_length. simpl. lia.
          -- apply CaN. discriminate.
          -- destruct (w_pc w) as [| |[| |[]]]; auto; try easy; destruct Pc; auto; easy.
        * destruct (Nat.ltb_spec (List.length (w_err w)) capacity); [|discriminate]. injection St as <-.
          constructor; simpl; auto.
          -- exists (done ++ [(SErr, b)]). rewrite <- app_assoc. split; [exact D1|].
             rewrite !on_app, D2, D3. simpl. rewrite app_nil_r. split; reflexivity.
          -- rewrite app_length. simpl. lia.
          -- apply CaN. discriminate.
          -- destruct (w_pc w) as [| |[| |[]]]; auto; try easy; destruct Pc; auto; easy.
      + destruct (w_ended w) eqn:Ew; [discriminate|]. destruct (w_todo w) eqn:Et; [|discriminate].
        destruct (c_end c) as [code|] eqn:Ec; [|discriminate]. injection St as <-.
        constructor; simpl; auto.
        * exists done. rewrite Et. auto.
        * apply CaN. discriminate.
        * destruct (w_pc w) as [| |[| |[]]]; auto; try easy; destruct Pc; auto; easy.
      + destruct (w_ended w) eqn:Ew; [discriminate|]. injection St as <-.
        constructor; simpl; auto.
        * exists done. auto.
        * apply CaN. discriminate.
        * destruct (w_pc w) as [| |[| |[]]]; auto; try easy; destruct Pc; auto; easy.
      + injection St as <-. constructor; simpl; auto.
        * exists done. auto.
        * split; auto.
        * destruct (w_pc w) as [| |[| |[]]]; auto. destruct Pc; auto.
      + destruct (w_pc w) eqn:Ep; try discriminate. injection St as <-.
        destruct (w_ended w) as [st|] eqn:Ew.
        * assert (S0 : success st = true -> st = Exited 0).
          { destruct st as [code|]; simpl; [|discriminate]. intros H. apply N.eqb_eq in H. now subst. }
          assert (S1 : success st = false -> st <> Exited 0) by (intros H ->; discriminate).
          destruct (success st); constructor; simpl; rewrite ?Ew; auto; try (exists done; auto); try (apply CaN; discriminate).
          -- now rewrite (S0 eq_refl).
          -- exists st. auto.
        * destruct (w_cancel w) eqn:Ec; constructor; simpl; rewrite ?Ew, ?Ep, ?Ec; auto; try (exists done; auto); try (apply CaN; discriminate).
      + destruct (w_pc w) eqn:Ep; try discriminate. injection St as <-.
        constructor; simpl; auto; try (exists done; auto); try (apply CaN; discriminate).
      + destruct (w_pc w) eqn:Ep; try discriminate. injection St as <-.
        constructor; simpl; auto; try (exists done; auto); try (apply CaN; discriminate).
      + destruct (w_pc w) eqn:Ep; try discriminate. injection St as <-.
        constructor; simpl; auto; try (exists done; auto); try (apply CaN; discriminate).
  Qed.

  Lemma inv_how evs w st : inv evs w -> w_ended w = Some st -> ended c st (w_out w) (w_err w).
  Proof.
    intros [(done & D1 & D2 & D3) _ En _ _] E. rewrite E in En. destruct st as [code|n].
    - destruct En as [T C]. rewrite T, app_nil_r in D1. subst done. rewrite D2, D3.
      constructor; auto using on_prints.
    - apply (en_signal c n done (w_todo w)); auto; rewrite ?D2, ?D3; apply on_prints.
  Qed.

  (** ** Termination *)
  Definition measure (w : waiting) : nat :=
    2 * List.length (w_todo w) + match w_ended w with None => 1 | _ => 0 end
      + match w_pc w with Polling => 2 | Killing => 1 | Done _ => 0 end.
  Lemma measure_step w e w' : own e = true -> wstep w e = Some w' -> w' = w \/ measure w' < measure w.
  Proof.
    intros O S. destruct e; try discriminate O; simpl in S.
    - right. destruct (w_ended w) eqn:Ew; [discriminate|]. destruct (w_todo w) as [|[[] b] r] eqn:Et; [discriminate| |];
        destruct (_ <? _); try discriminate; injection S as <-; unfold measure; simpl; rewrite Ew, Et; simpl; lia.
    - right. destruct (w_ended w) eqn:Ew; [discriminate|]. destruct (w_todo w) eqn:Et; [|discriminate].
      destruct (c_end c); [|discriminate]. injection S as <-. unfold measure. simpl. rewrite Ew, Et. simpl. lia.
    - destruct (w_pc w) eqn:Ep; try discriminate. injection S as <-.
      destruct (w_ended w) as [st|] eqn:Ew.
      + right. destruct (success st); unfold measure; simpl; rewrite Ew, Ep; lia.
      + destruct (w_cancel w); [right|now left]. unfold measure; simpl; rewrite Ew, Ep; lia.
    - destruct (w_pc w) eqn:Ep; try discriminate. injection S as <-. right. unfold measure. simpl. rewrite Ep. lia.
  Qed.
  Lemma progress evs w : run evs w -> w_pc w = Done Completed \/ (exists r, w_pc w = Done r) \/
    (fits capacity c /\ c_end c <> None \/ In Cancel evs \/ w_ended w <> None ->
     exists e w', own e = true /\ wstep w e = Some w' /\ measure w' < measure w).
  Proof.
    intros R. destruct (inv_run evs w R) as [(done & D1 & D2 & D3) [Ro1 Ro2] En Ca Pc].
    destruct (w_pc w) as [| |r] eqn:Ep; [right; right|right; right|right; left; now exists r].
    - intros H. destruct (w_ended w) as [st|] eqn:Ew.
      + eexists Poll, _. split; [reflexivity|]. split; [simpl; rewrite Ep, Ew; reflexivity|].
        destruct (success st); unfold measure; simpl; rewrite Ew, Ep; lia.
      + destruct (w_cancel w) eqn:Ec.
        * eexists Poll, _. split; [reflexivity|]. split; [simpl; rewrite Ep, Ew, Ec; reflexivity|].
          unfold measure; simpl; rewrite Ew, Ep; lia.
        * destruct H as [[F N]|[H|H]]; [|apply Ca in H; discriminate|easy].
          destruct (w_todo w) as [|[s b] r] eqn:Et.
          -- destruct (c_end c) as [code|] eqn:Ecode; [|easy].
             eexists End, _. split; [reflexivity|]. split; [simpl; rewrite Ew, Et, Ecode; reflexivity|].
             unfold measure. simpl. rewrite Ew. lia.
          -- pose proof (F s (on s (c_writes c)) (on_prints _ _)) as L. rewrite D1, on_app, app_length in L.
             destruct s; simpl in L.
             ++ eexists Write, _. split; [reflexivity|]. split.
                ** simpl. rewrite Ew, Et. replace (_ <? _) with true; [reflexivity|].
                   symmetry. apply Nat.ltb_lt. rewrite D2. lia.
                ** unfold measure. simpl. rewrite Ew, Et. simpl. lia.
             ++ eexists Write, _. split; [reflexivity|]. split.
                ** simpl. rewrite Ew, Et. replace (_ <? _) with true; [reflexivity|].
                   symmetry. apply Nat.ltb_lt. rewrite D3. lia.
                ** unfold measure. simpl. rewrite Ew, Et. simpl. lia.
    - intros _. eexists Kill, _. split; [reflexivity|]. split; [simpl; rewrite Ep; reflexivity|].
      unfold measure. simpl. rewrite Ep. lia.
  Qed.

  (** ** Blocked *)
  Lemma blocked evs w s l : prints s (c_writes c) l -> capacity < List.length l ->
    run evs w -> Forall (fun e => own e = true) evs -> w_pc w = Polling /\ w_ended w = None.
  Proof.
    intros P L R. apply prints_on in P. subst l.
    assert (X : Forall (fun e => own e = true) evs -> w_pc w = Polling /\ w_ended w = None /\ w_cancel w = false);
      [|intros O; destruct (X O) as (? & ? & ?); auto].
    induction R as [|evs w e w' R IH St]; intros O; [auto|].
    apply Forall_app in O as [O1 O2]. inversion O2 as [|? ? Oe _]; subst.
    destruct (IH O1) as (Ep & Ew & Ec).
    destruct (inv_run evs w R) as [(done & D1 & D2 & D3) [Ro1 Ro2] _ _ _].
    destruct e; try discriminate Oe; simpl in St; rewrite ?Ep, ?Ew, ?Ec in St.
    - destruct (w_todo w) as [|[[] b] r]; [discriminate| |]; destruct (_ <? _); try discriminate; injection St as <-; auto.
    - destruct (w_todo w) eqn:Et; [|discriminate]. exfalso. rewrite app_nil_r in D1. subst done.
      destruct s; rewrite <- ?D2, <- ?D3 in L; lia.
    - injection St as <-. auto.
    - discriminate.
  Qed.
End Wait.

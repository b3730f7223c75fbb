(** The hypothesis of the processing thread properties holds of traces whose arguments are
    interned: here, activities with a text argument. *)
From Verif Require Import Base Asylum_Model Asylum_Spec Asylum_Proofs1 Proc_Model Proc_Spec.

Section Instance.
  Variable hash : str -> N.
  Variable probe : N -> N -> bool.
  Hypothesis probe_refl : forall h, probe h h = true.

  (** A trace: texts of the arguments, and their interner *)
  Definition itrace := (list str * interner str)%type.
  Definition iparse (t : itrace) (id : N) : outcome (itrace * key) :=
    obind (expect (nth_error (fst t) (N.to_nat id))) (fun s =>
      obind (it_intern str str_eqb hash probe 32 (snd t) s) (fun '(k, it) => Ret ((fst t, it), k))).
  Definition irender (t : itrace) (id : N) (k : key) (c : config) : outcome (str * bool) :=
    obind (it_get (snd t) k) (fun s =>
      match c with
      | SingleLine w => Ret (firstn (N.to_nat w) s, false)
      | MultiLine w => Ret (s, Nat.ltb (N.to_nat w) (length s))
      end).
  Definition imetadata (t : itrace) (w : N) : outcome str := Ret (firstn (N.to_nat w) (concat (fst t))).
  Definition iactivities (t : itrace) (q : list_query) : outcome (list N) :=
    match q with
    | RootActivities | AllActivities => Ret (map N.of_nat (seq 0 (length (fst t))))
    | DirectChildren _ | AllChildren _ => Ret []
    end.
  Definition iload (texts : list str) : itrace := (texts, it_new).

  Notation Inv := (Inv str hash 32).
  Lemma ievolves texts t : evolves itrace key iparse (iload texts) t -> fst t = texts /\ Inv (snd t).
  Proof.
    intros H. remember (iload texts) as t0 eqn:E0. induction H as [t|t t1 t2 id a H IH Hp].
    - subst t. split; [reflexivity|apply new_inv].
    - destruct (IH E0) as [Ht Hi]. unfold iparse in Hp.
      destruct (nth_error (fst t1) (N.to_nat id)) as [s|]; [|discriminate]. cbn [expect obind] in Hp.
      destruct (intern_spec str str_eqb str_eqb_eq hash probe probe_refl 32 (snd t1) s Hi)
        as [(i & _ & E)|[(_ & _ & st' & E & _ & Hi')|(_ & _ & E)]]; rewrite E in Hp; cbn [obind] in Hp; [| |discriminate].
      + injection Hp as <- _. cbn [fst snd]. auto.
      + injection Hp as <- _. cbn [fst snd]. auto.
  Qed.
  Lemma iparse_get t id t' k : Inv (snd t) -> iparse t id = Ret (t', k) ->
    exists s, nth_error (fst t) (N.to_nat id) = Some s /\ nth_error (it_items (snd t')) (N.to_nat (key_into_usize k)) = Some s /\
      exists e, it_items (snd t') = it_items (snd t) ++ e.
  Proof.
    intros Hi Hp. unfold iparse in Hp.
    destruct (nth_error (fst t) (N.to_nat id)) as [s|]; [|discriminate]. cbn [expect obind] in Hp. exists s. split; [reflexivity|].
    destruct (intern_spec str str_eqb str_eqb_eq hash probe probe_refl 32 (snd t) s Hi)
      as [(i & Hn & E)|[(_ & _ & st' & E & Hit & Hi')|(_ & _ & E)]]; rewrite E in Hp; cbn [obind] in Hp; [| |discriminate].
    - injection Hp as <- <-. cbn [snd]. rewrite key_of_index, Nat2N.id. split; [exact Hn|]. exists []. rewrite app_nil_r. reflexivity.
    - injection Hp as <- <-. cbn [snd]. rewrite key_of_index, Nat2N.id, Hit. split; [|exists [s]; reflexivity].
      rewrite nth_error_app2 by lia. rewrite Nat.sub_diag. reflexivity.
  Qed.
  Lemma ievolves_items texts t t' : evolves itrace key iparse (iload texts) t -> evolves itrace key iparse t t' ->
    exists e, it_items (snd t') = it_items (snd t) ++ e.
  Proof.
    intros H0 H. induction H as [t|t t1 t2 id a H IH Hp].
    - exists []. rewrite app_nil_r. reflexivity.
    - destruct (IH H0) as (e & He).
      assert (H1 : evolves itrace key iparse (iload texts) t1).
      { clear -H0 H. induction H as [t|t t1 t2 id a H IH Hp]; [exact H0|]. econstructor; [apply IH; exact H0|exact Hp]. }
      apply ievolves in H1. destruct (iparse_get t1 id t2 a (proj2 H1) Hp) as (s & _ & _ & e' & He').
      exists (e ++ e'). rewrite He', He, app_assoc. reflexivity.
  Qed.

  Theorem iload_stable texts : stable itrace key N iparse irender imetadata iactivities (iload texts).
  Proof.
    constructor.
    - intros t1 t2 t3 id a c r H1 Hp H3 Hr.
      pose proof (ievolves texts t1 H1) as [Ht1 Hi1].
      assert (H2 : evolves itrace key iparse (iload texts) t2) by (econstructor; eassumption).
      destruct (iparse_get t1 id t2 a Hi1 Hp) as (s & Hs & Hg & _).
      destruct (ievolves_items texts t2 t3 H2 H3) as (e & He).
      assert (Hs0 : nth_error texts (N.to_nat id) = Some s) by (rewrite <- Ht1; exact Hs).
      assert (Hp0 : exists t' k, iparse (iload texts) id = Ret (t', k)).
      { unfold iparse, iload. cbn [fst snd]. rewrite Hs0. cbn [expect obind].
        destruct (intern_spec str str_eqb str_eqb_eq hash probe probe_refl 32 it_new s (new_inv _ _ _))
          as [(i & _ & E)|[(_ & _ & st' & E & _ & _)|(_ & E & _)]].
        - rewrite E. cbn [obind]. eauto.
        - rewrite E. cbn [obind]. eauto.
        - cbn in E. discriminate. }
      destruct Hp0 as (t' & k & Hp0). exists t', k. split; [exact Hp0|].
      destruct (iparse_get (iload texts) id t' k (new_inv _ _ _) Hp0) as (s' & Hs' & Hg' & _).
      cbn [iload fst] in Hs'. rewrite Hs0 in Hs'. injection Hs' as <-.
      unfold irender, it_get, index in *. rewrite Hg'. rewrite He in Hr.
      rewrite nth_error_app1 in Hr by (apply nth_error_Some; congruence). rewrite Hg in Hr. exact Hr.
    - intros t1 w H. apply ievolves in H. destruct H as [H _]. unfold imetadata. rewrite H. reflexivity.
    - intros t1 q H. apply ievolves in H. destruct H as [H _]. unfold iactivities. rewrite H. reflexivity.
  Qed.
End Instance.

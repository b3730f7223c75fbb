(** Proofs about the recursive sequence interner (cpparser/src/interning/recursion.rs). *)
From Verif Require Import Base Asylum_Model Asylum_Spec.

Section R.
  Variable Item : Type.
  Variable item_eqb : Item -> Item -> bool.
  Variable hash : list Item -> N.
  Variable probe : N -> N -> bool.
  Variables w lb : N.
  Notation run := (rc_run Item item_eqb hash probe w lb).
  Notation step := (rc_step Item item_eqb hash probe w lb).
  Notation srun := (sq_run Item item_eqb hash probe w lb).

  Definition Ok (st : recst Item) (p : list (rec_op Item)) : Prop :=
    NoDup (map fst (rc_live st)) /\ forall id, live_get (rc_live st) id = items_of p id.

  Lemma live_get_none (l : list (N * list Item)) id : live_get l id = None <-> ~ In id (map fst l).
  Proof.
    induction l as [|[i b] l IH]; simpl; [tauto|].
    destruct (N.eqb_spec i id) as [->|Hne]; [split; [discriminate|tauto]|].
    rewrite IH. tauto.
  Qed.

  Lemma live_remove_get l id j : NoDup (map fst l) ->
    live_get (live_remove Item l id) j = if N.eqb id j then None else live_get l j.
  Proof.
    induction l as [|[i b] l IH]; simpl; intros Hn.
    - destruct (N.eqb id j); reflexivity.
    - apply NoDup_cons_iff in Hn. destruct Hn as [Hi Hn].
      destruct (N.eqb_spec i id) as [->|Hne].
      + destruct (N.eqb_spec id j) as [->|Hj]; [|reflexivity].
        apply live_get_none; exact Hi.
      + simpl. rewrite IH by exact Hn. destruct (N.eqb_spec i j) as [->|]; [|reflexivity].
        destruct (N.eqb_spec id j); [congruence|reflexivity].
  Qed.

  Lemma live_remove_fst l id : forall j, In j (map fst (live_remove Item l id)) -> In j (map fst l).
  Proof.
    induction l as [|[i b] l IH]; simpl; [auto|]. intros j. destruct (N.eqb i id); simpl; [tauto|].
    intros [->|H]; [left; reflexivity|right; apply IH, H].
  Qed.

  Lemma live_remove_nodup l id : NoDup (map fst l) -> NoDup (map fst (live_remove Item l id)).
  Proof.
    induction l as [|[i b] l IH]; simpl; [auto|]. intros Hn. apply NoDup_cons_iff in Hn. destruct Hn as [Hi Hn].
    destruct (N.eqb i id); [exact Hn|]. simpl. constructor; [|apply IH, Hn].
    intros H. apply live_remove_fst in H. contradiction.
  Qed.

  Lemma live_set_fst l id v : map fst (live_set Item l id v) = map fst l.
  Proof.
    induction l as [|[i b] l IH]; simpl; [auto|]. destruct (N.eqb i id); simpl; congruence.
  Qed.

  Lemma live_set_get l id v j : live_get l id <> None ->
    live_get (live_set Item l id v) j = if N.eqb id j then Some v else live_get l j.
  Proof.
    induction l as [|[i b] l IH]; simpl; [congruence|].
    destruct (N.eqb_spec i id) as [->|Hne]; intros H; simpl.
    - destruct (N.eqb_spec id j); reflexivity.
    - rewrite IH by exact H. destruct (N.eqb_spec i j) as [->|]; [|reflexivity].
      destruct (N.eqb_spec id j); [congruence|reflexivity].
  Qed.

  Lemma drop_ok st p id o : Ok st p -> (o = RIntern id \/ o = RDrop id) -> Ok (rc_drop Item st id) (o :: p).
  Proof.
    intros [Hn Hl] Ho. unfold rc_drop.
    assert (Hit : forall j, items_of (o :: p) j = if N.eqb id j then None else items_of p j)
      by (intros j; destruct Ho as [-> | ->]; reflexivity).
    destruct (live_get (rc_live st) id) as [b|] eqn:E; split; cbn [rc_live rc_int rc_storage].
    - apply live_remove_nodup, Hn.
    - intros j. rewrite live_remove_get by exact Hn. rewrite Hit, Hl. reflexivity.
    - exact Hn.
    - intros j. rewrite Hit. destruct (N.eqb_spec id j) as [->|]; [exact E|apply Hl].
  Qed.

  Lemma drop_int st id : rc_int (rc_drop Item st id) = rc_int st.
  Proof. unfold rc_drop. destruct (live_get (rc_live st) id); reflexivity. Qed.

  Lemma step_ok st p o r st' : Ok st p -> step st o = (r, st') ->
    Ok st' (o :: p) /\
    match (match o with RIntern id => items_of p id | _ => None end) with
    | None => r = None /\ rc_int st' = rc_int st
    | Some s => exists q, r = Some q /\ srun (rc_int st) [OpIntern s] = ([([], Some q)], rc_int st')
    end.
  Proof.
    intros [Hn Hl]. destruct o as [id|id x|id|id]; cbn [rc_step].
    - intros E; injection E as <- <-. destruct (live_get (rc_live st) id) as [b|] eqn:Eg.
      + split; [|auto]. split; [exact Hn|]. intros j. simpl. rewrite Hl.
        destruct (N.eqb_spec id j) as [->|]; [|reflexivity]. rewrite <- Hl, Eg. reflexivity.
      + assert (Hok : forall sto i, Ok (mk_recst i sto ((id, []) :: rc_live st)) (RNew id :: p)).
        { intros sto i. split; simpl.
          - constructor; [apply live_get_none, Eg|exact Hn].
          - intros j. destruct (N.eqb_spec id j) as [->|]; [|apply Hl]. rewrite <- Hl, Eg. reflexivity. }
        unfold rc_entry, clear. destruct (rev (rc_storage st)); (split; [apply Hok|auto]).
    - intros E; injection E as <- <-. unfold rc_push.
      destruct (live_get (rc_live st) id) as [b|] eqn:Eg; (split; [|auto]); split; simpl.
      + rewrite live_set_fst; exact Hn.
      + intros j. rewrite live_set_get by congruence.
        destruct (N.eqb_spec id j) as [->|]; [|apply Hl]. rewrite <- Hl, Eg. reflexivity.
      + exact Hn.
      + intros j. destruct (N.eqb_spec id j) as [->|]; [|apply Hl]. rewrite <- Hl, Eg. reflexivity.
    - unfold rc_intern. rewrite <- Hl. destruct (live_get (rc_live st) id) as [b|] eqn:Eg.
      + cbn [sq_run sq_step].
        destruct (sq_intern Item item_eqb hash probe w lb (rc_int st) b) as [[k i']|] eqn:Ei;
          intros E; injection E as <- <-.
        * split; [|exists (Ret k); split; [reflexivity|rewrite drop_int; reflexivity]].
          apply drop_ok; [|left; reflexivity]. split; [exact Hn|exact Hl].
        * split; [|exists Panic; split; [reflexivity|rewrite drop_int; reflexivity]].
          apply drop_ok; [split; assumption|left; reflexivity].
      + intros E; injection E as <- <-. split; [|auto]. split; [exact Hn|].
        intros j. simpl. destruct (N.eqb_spec id j) as [->|]; [exact Eg|apply Hl].
    - intros E; injection E as <- <-. split; [apply drop_ok; [split; assumption|right; reflexivity]|].
      split; [reflexivity|apply drop_int].
  Qed.

  Lemma srun_cons st s os : srun st (OpIntern s :: os) =
    match srun st [OpIntern s] with
    | ([r], st1) => let (rs, st2) := srun st1 os in (r :: rs, st2)
    | (_, st1) => ([], st1)
    end.
  Proof. cbn [sq_run]. destruct (sq_step _ _ _ _ _ _ _ _) as [r st1]. reflexivity. Qed.

  Lemma run_ok os : forall st p outs st', Ok st p -> run st os = (outs, st') ->
    Ok st' (rev os ++ p) /\
    Forall2 (fun o m => o = None <-> m = None) outs (rec_wanted p os) /\
    srun (rc_int st) (map OpIntern (filter_some (rec_wanted p os))) =
      (map (fun q => ([], Some q)) (filter_some outs), rc_int st').
  Proof.
    induction os as [|o os IH]; intros st p outs st' Hok; cbn [rc_run rec_wanted].
    - intros E; injection E as <- <-. split; [exact Hok|]. split; [constructor|reflexivity].
    - destruct (step st o) as [r st1] eqn:Es. destruct (run st1 os) as [rs st2] eqn:Er.
      intros E; injection E as <- <-.
      destruct (step_ok _ _ _ _ _ Hok Es) as [Hok1 Hr].
      destruct (IH _ _ _ _ Hok1 Er) as (Hok2 & Hf & Hs).
      split; [simpl; rewrite <- app_assoc; exact Hok2|].
      destruct (match o with RIntern id => items_of p id | _ => None end) as [s|].
      + destruct Hr as (q & -> & Hq). split; [constructor; [split; discriminate|exact Hf]|].
        cbn [filter_some map]. rewrite srun_cons, Hq, Hs. reflexivity.
      + destruct Hr as (-> & Hq). split; [constructor; [tauto|exact Hf]|].
        cbn [filter_some map]. rewrite <- Hq. exact Hs.
  Qed.

  Lemma recursive_no_leak os outs st : run rc_new os = (outs, st) ->
    Forall2 (fun o m => o = None <-> m = None) outs (rec_wanted [] os) /\
    srun sq_new (map OpIntern (filter_some (rec_wanted [] os))) =
      (map (fun q => ([], Some q)) (filter_some outs), rc_int st).
  Proof.
    intros H. destruct (run_ok os rc_new [] outs st) as (_ & H1 & H2); [|exact H|split; assumption].
    split; [constructor|reflexivity].
  Qed.

  (** Scratch buffers *)
  Lemma live_set_length l id v : length (live_set Item l id v) = length l.
  Proof. induction l as [|[i b] l IH]; simpl; [reflexivity|]. destruct (N.eqb i id); simpl; congruence. Qed.

  Lemma live_remove_length l id b : live_get l id = Some b -> S (length (live_remove Item l id)) = length l.
  Proof.
    induction l as [|[i c] l IH]; simpl; [discriminate|]. destruct (N.eqb i id); [reflexivity|].
    intros H. simpl. rewrite IH by exact H. reflexivity.
  Qed.

  Lemma live_remove_names l id : NoDup (map fst l) ->
    map fst (live_remove Item l id) = filter (fun i => negb (N.eqb id i)) (map fst l).
  Proof.
    induction l as [|[i c] l IH]; simpl; [reflexivity|]. intros H. apply NoDup_cons_iff in H.
    destruct H as [Hi Hn]. rewrite (N.eqb_sym id i). destruct (N.eqb_spec i id) as [->|].
    - simpl. clear IH. symmetry. rewrite <- (map_id (map fst l)) at 2.
      induction (map fst l) as [|a t IH]; [reflexivity|]. simpl. apply NoDup_cons_iff in Hn.
      destruct (N.eqb_spec id a) as [->|]; [exfalso; apply Hi; left; reflexivity|]. simpl.
      rewrite IH; [reflexivity| |apply Hn]. intros H; apply Hi; right; exact H.
    - simpl. rewrite IH by exact Hn. reflexivity.
  Qed.

  Lemma live_get_existsb l id :
    existsb (N.eqb id) (map fst l) = match @live_get Item l id with Some _ => true | None => false end.
  Proof.
    induction l as [|[i c] l IH]; simpl; [reflexivity|]. rewrite (N.eqb_sym id i).
    destruct (N.eqb i id); [reflexivity|exact IH].
  Qed.

  Lemma filter_absent (names : list N) id : ~ In id names -> filter (fun i => negb (N.eqb id i)) names = names.
  Proof.
    induction names as [|a t IH]; [reflexivity|]. simpl. intros H.
    destruct (N.eqb_spec id a) as [->|]; [exfalso; apply H; left; reflexivity|]. simpl.
    rewrite IH; [reflexivity|]. intros Hi; apply H; right; exact Hi.
  Qed.

  Definition total (st : recst Item) : nat := length (rc_storage st) + length (rc_live st).
  Definition names (st : recst Item) : list N := map fst (rc_live st).

  Lemma drop_count st id : NoDup (names st) -> total (rc_drop Item st id) = total st /\
    names (rc_drop Item st id) = filter (fun i => negb (N.eqb id i)) (names st) /\ NoDup (names (rc_drop Item st id)).
  Proof.
    intros Hn. unfold rc_drop, total, names in *. destruct (live_get (rc_live st) id) as [b|] eqn:E; cbn [rc_live rc_storage].
    - rewrite app_length. pose proof (live_remove_length _ _ _ E). simpl. repeat split; [lia| |].
      + apply live_remove_names, Hn.
      + apply live_remove_nodup, Hn.
    - split; [reflexivity|]. split; [|exact Hn]. rewrite filter_absent; [reflexivity|]. apply live_get_none, E.
  Qed.

  Lemma step_count st o r st' : NoDup (names st) -> step st o = (r, st') ->
    NoDup (names st') /\ names st' = open_after (names st) [o] /\
    total st' = Nat.max (total st) (length (names st')).
  Proof.
    intros Hn. assert (Hle : forall s, length (names s) <= total s)
      by (intros s; unfold names, total; rewrite map_length; lia).
    destruct o as [id|id x|id|id]; cbn [rc_step open_after].
    - intros E; injection E as <- <-. change (existsb (N.eqb id) (names st)) with (existsb (N.eqb id) (map fst (rc_live st))). rewrite live_get_existsb.
      destruct (live_get (rc_live st) id) as [b|] eqn:Eg.
      + split; [exact Hn|]. split; [reflexivity|]. specialize (Hle st). lia.
      + unfold rc_entry. pose proof (rev_length (rc_storage st)) as Hr.
        destruct (rev (rc_storage st)) as [|b rest]; simpl in Hr; unfold names, total in *; cbn [rc_live rc_storage map fst length].
        * split; [constructor; [apply live_get_none, Eg|exact Hn]|]. split; [reflexivity|].
          rewrite map_length. lia.
        * split; [constructor; [apply live_get_none, Eg|exact Hn]|]. split; [reflexivity|].
          rewrite map_length, rev_length. lia.
    - intros E; injection E as <- <-. unfold rc_push.
      destruct (live_get (rc_live st) id) as [b|] eqn:Eg; unfold names, total in *; cbn [rc_live rc_storage].
      + rewrite live_set_fst, live_set_length. split; [exact Hn|]. split; [reflexivity|]. rewrite map_length. lia.
      + split; [exact Hn|]. split; [reflexivity|]. rewrite map_length. lia.
    - unfold rc_intern. destruct (live_get (rc_live st) id) as [b|] eqn:Eg.
      + assert (Hd : forall s, rc_live s = rc_live st -> rc_storage s = rc_storage st ->
                  NoDup (names (rc_drop Item s id)) /\
                  names (rc_drop Item s id) = filter (fun i => negb (N.eqb id i)) (names st) /\
                  total (rc_drop Item s id) = Nat.max (total st) (length (names (rc_drop Item s id)))).
        { intros s E1 E2. assert (En : names s = names st) by (unfold names; rewrite E1; reflexivity).
          assert (Et : total s = total st) by (unfold total; rewrite E1, E2; reflexivity).
          destruct (drop_count s id) as (H1 & H2 & H3); [rewrite En; exact Hn|].
          split; [exact H3|]. split; [rewrite H2, En; reflexivity|].
          pose proof (Hle (rc_drop Item s id)). lia. }
        destruct (sq_intern Item item_eqb hash probe w lb (rc_int st) b) as [[k i']|];
          intros E; injection E as <- <-; apply Hd; reflexivity.
      + intros E; injection E as <- <-. split; [exact Hn|]. split; [|specialize (Hle st); lia].
        rewrite filter_absent; [reflexivity|]. apply live_get_none, Eg.
    - intros E; injection E as <- <-. destruct (drop_count st id Hn) as (H1 & H2 & H3).
      split; [exact H3|]. split; [exact H2|]. pose proof (Hle (rc_drop Item st id)). lia.
  Qed.

  Lemma run_count os : forall st outs st', NoDup (names st) -> run st os = (outs, st') ->
    names st' = open_after (names st) os /\ total st <= total st' /\
    (forall p q, os = p ++ q -> length (open_after (names st) p) <= total st') /\
    (total st' = total st \/ exists p q, os = p ++ q /\ length (open_after (names st) p) = total st').
  Proof.
    induction os as [|o os IH]; intros st outs st' Hn; cbn [rc_run].
    - intros E; injection E as <- <-. split; [reflexivity|]. split; [lia|]. split; [|left; reflexivity].
      intros p q E. symmetry in E. apply app_eq_nil in E. destruct E as [-> _]. simpl.
      unfold names, total. rewrite map_length. lia.
    - destruct (step st o) as [r st1] eqn:Es. destruct (run st1 os) as [rs st2] eqn:Er.
      intros E; injection E as <- <-. destruct (step_count _ _ _ _ Hn Es) as (Hn1 & Ho & Ht).
      assert (Hc : forall p, open_after (names st) (o :: p) = open_after (names st1) p).
      { intros p. rewrite Ho. destruct o; reflexivity. }
      destruct (IH _ _ _ Hn1 Er) as (I1 & I2 & I3 & I4). split; [rewrite Hc; exact I1|]. split; [lia|]. split.
      + intros [|o' p] q E.
        * simpl. assert (length (names st) <= total st) by (unfold names, total; rewrite map_length; lia). lia.
        * injection E as <- E. rewrite Hc. apply (I3 _ _ E).
      + destruct I4 as [I4|(p & q & -> & I4)].
        * destruct (Nat.max_dec (total st) (length (names st1))) as [Hm|Hm].
          -- left. lia.
          -- right. exists [o], os. split; [reflexivity|]. rewrite Hc. simpl. lia.
        * right. exists (o :: p), q. split; [reflexivity|]. rewrite Hc. exact I4.
  Qed.

  Theorem buffers_recycled os outs st : run rc_new os = (outs, st) ->
    let buffers := length (rc_storage st) + length (rc_live st) in
    length (rc_live st) = length (open_after [] os) /\
    (forall before after, os = before ++ after -> length (open_after [] before) <= buffers) /\
    (exists before after, os = before ++ after /\ length (open_after [] before) = buffers).
  Proof.
    intros Hr. cbv zeta. destruct (run_count os rc_new outs st) as (H1 & _ & H2 & H3); [constructor|exact Hr|].
    change (names rc_new) with (@nil N) in *. split; [|split].
    - rewrite <- H1. unfold names. rewrite map_length. reflexivity.
    - exact H2.
    - destruct H3 as [H3|H3]; [|exact H3]. exists [], os. split; [reflexivity|].
      unfold total in H3. simpl in H3. simpl. lia.
  Qed.
End R.

(** Proofs about the processing thread. *)
From Verif Require Import Base Proc_Model Proc_Spec.

Section Proofs.
  Variables trace arg info : Type.
  Variable parse : trace -> N -> outcome (trace * arg).
  Variable render : trace -> N -> arg -> config -> outcome (str * bool).
  Variable metadata : trace -> N -> outcome str.
  Variable activities : trace -> list_query -> outcome (list info).

  Notation evolves := (evolves trace arg parse).
  Notation stable := (stable trace arg info parse render metadata activities).
  Notation fresh_description := (fresh_description trace arg parse render).
  Notation fresh_answer := (fresh_answer trace arg info parse render metadata activities).
  Notation describe_activity := (describe_activity trace arg parse render).
  Notation describe_activities := (describe_activities trace arg parse render).
  Notation worker_step := (worker_step trace arg info parse render metadata activities).
  Notation worker_run := (worker_run trace arg info parse render metadata activities).
  Notation last_load := (last_load trace).
  Notation instruction := (instruction trace).

  Lemma evolves_trans t1 t2 t3 : evolves t1 t2 -> evolves t2 t3 -> evolves t1 t3.
  Proof. intros H1 H2. induction H2 as [|t2 t3 t4 id a H2 IH Hp]; [easy|]. econstructor; [apply IH; easy|exact Hp]. Qed.
  Lemma lookup_in {A} (m : list (N * A)) id a : lookup m id = Some a -> In (id, a) m.
  Proof.
    unfold lookup. destruct (find _ m) as [[i b]|] eqn:E; [|discriminate]. intros H. injection H as <-.
    apply find_some in E. destruct E as [Hin Heq]. apply N.eqb_eq in Heq. subst i. exact Hin.
  Qed.

  (** Cached arguments come from the present trace. *)
  Definition args_ok (t t' : trace) (args : list (N * arg)) : Prop :=
    forall id a, In (id, a) args -> exists t1 t2, evolves t t1 /\ parse t1 id = Ret (t2, a) /\ evolves t2 t'.
  Definition descs_ok (t : trace) (w : N) (descs : list (N * str)) : Prop :=
    forall id s, In (id, s) descs -> fresh_description t id (SingleLine w) (s, false).

  Lemma args_ok_evolves t t' t'' args : args_ok t t' args -> evolves t' t'' -> args_ok t t'' args.
  Proof.
    intros H He id a Hin. destruct (H id a Hin) as (t1 & t2 & H1 & H2 & H3). exists t1, t2.
    split; [easy|]. split; [easy|]. eapply evolves_trans; eassumption.
  Qed.

  Lemma describe_activity_ok t t' args id c t'' args' r : stable t -> evolves t t' -> args_ok t t' args ->
    describe_activity t' args id c = Ret (t'', args', r) ->
    evolves t' t'' /\ args_ok t t'' args' /\ fresh_description t id c r.
  Proof.
    intros Hs He Ha. unfold Proc_Model.describe_activity. destruct (lookup args id) as [a|] eqn:E.
    - destruct (render t' id a c) as [r'|] eqn:Er; [|discriminate]. cbn [obind]. intros H. injection H as <- <- <-.
      split; [constructor|]. split; [easy|]. apply lookup_in in E. destruct (Ha id a E) as (t1 & t2 & H1 & H2 & H3).
      eapply st_render; eassumption.
    - destruct (parse t' id) as [[t1 a]|] eqn:Ep; [|discriminate]. cbn [obind].
      destruct (render t1 id a c) as [r'|] eqn:Er; [|discriminate]. cbn [obind]. intros H. injection H as <- <- <-.
      assert (H01 : evolves t' t1) by (econstructor; [constructor|exact Ep]).
      split; [easy|]. split.
      + intros id' a' [H|H].
        * injection H as <- <-. exists t', t1. split; [easy|]. split; [easy|constructor].
        * apply (args_ok_evolves t t' t1 args Ha H01 id' a' H).
      + eapply st_render; [exact Hs|exact He|exact Ep|constructor|exact Er].
  Qed.

  Lemma describe_activities_ok t w ids : stable t -> forall t' args descs t'' args' descs' l,
    evolves t t' -> args_ok t t' args -> descs_ok t w descs ->
    describe_activities t' args descs ids w = Ret (t'', args', descs', l) ->
    evolves t' t'' /\ args_ok t t'' args' /\ descs_ok t w descs' /\
    Forall2 (fun id s => fresh_description t id (SingleLine w) (s, false)) ids l.
  Proof.
    intros Hs. induction ids as [|id ids IH]; intros t' args descs t'' args' descs' l He Ha Hd;
      cbn [Proc_Model.describe_activities].
    - intros H. injection H as <- <- <- <-. split; [constructor|]. auto.
    - destruct (lookup descs id) as [s|] eqn:E.
      + destruct (describe_activities t' args descs ids w) as [[[[t1 a1] d1] l1]|] eqn:E1; [|discriminate].
        cbn [obind]. intros H. injection H as <- <- <- <-.
        destruct (IH _ _ _ _ _ _ _ He Ha Hd E1) as (H1 & H2 & H3 & H4).
        split; [easy|]. split; [easy|]. split; [easy|]. constructor; [|easy].
        apply Hd. apply lookup_in. exact E.
      + destruct (describe_activity t' args id (SingleLine w)) as [[[t1 a1] [s wrap]]|] eqn:E1; [|discriminate].
        cbn [obind]. destruct wrap; [discriminate|].
        destruct (describe_activities t1 a1 ((id, s) :: descs) ids w) as [[[[t2 a2] d2] l2]|] eqn:E2; [|discriminate].
        cbn [obind]. intros H. injection H as <- <- <- <-.
        destruct (describe_activity_ok t t' args id _ _ _ _ Hs He Ha E1) as (H1 & H2 & H3).
        assert (Hd' : descs_ok t w ((id, s) :: descs)).
        { intros id' s' [H|H]; [injection H as <- <-; exact H3|apply Hd; exact H]. }
        destruct (IH _ _ _ _ _ _ _ (evolves_trans _ _ _ He H1) H2 Hd' E2) as (H4 & H5 & H6 & H7).
        split; [eapply evolves_trans; eassumption|]. split; [easy|]. split; [easy|]. constructor; easy.
  Qed.

  (** The state of the worker between instructions *)
  Definition winv (l : list instruction) (w : worker_state trace arg) : Prop :=
    match w_trace w with
    | None => w_args w = [] /\ w_descs w = [] /\ (last_load l None \/ forall r : option trace, ~ In (LoadTrace r) l)
    | Some t' => exists t, last_load l (Some t) /\ stable t /\ evolves t t' /\ args_ok t t' (w_args w) /\
                   descs_ok t (w_cols w) (w_descs w)
    end.

  Lemma last_load_app l i r : last_load l r -> (forall r', i <> LoadTrace r') -> last_load (l ++ [i]) r.
  Proof.
    intros (l1 & l2 & -> & H) Hi. exists l1, (l2 ++ [i]). split; [rewrite <- app_assoc; easy|].
    intros r' Hin. apply in_app_iff in Hin. destruct Hin as [Hin|[Hin|[]]]; [eapply H; exact Hin|eapply Hi; exact Hin].
  Qed.
  Lemma no_load_app l i : (forall r : option trace, ~ In (LoadTrace r) l) -> (forall r', i <> LoadTrace r') ->
    forall r, ~ In (LoadTrace r) (l ++ [i]).
  Proof.
    intros H Hi r Hin. apply in_app_iff in Hin. destruct Hin as [Hin|[Hin|[]]]; [eapply H; exact Hin|eapply Hi; exact Hin].
  Qed.

  Lemma winv_step l w i w' r : (forall t, i = LoadTrace (Some t) -> stable t) ->
    winv l w -> worker_step w i = Ret (w', r) ->
    winv (l ++ [i]) w' /\
    ((exists o, i = LoadTrace o) \/ exists t, last_load l (Some t) /\ fresh_answer t i r).
  Proof.
    intros Hst Hw Hr. destruct i as [o|c|q|ids c|id c]; cbn [Proc_Model.worker_step] in Hr.
    - injection Hr as <- <-. split; [|left; exists o; easy].
      assert (Hl : last_load (l ++ [LoadTrace o]) o) by (exists l, []; split; [easy|intros r' []]).
      unfold winv. cbn [w_trace w_args w_descs w_cols]. destruct o as [t|].
      + exists t. split; [exact Hl|]. split; [apply Hst; easy|]. split; [constructor|].
        split; intros x y [].
      + auto.
    - destruct (w_trace w) as [t'|] eqn:E; [|discriminate]. cbn [expect obind] in Hr.
      destruct (metadata t' c) as [s|] eqn:Em; [|discriminate]. cbn [obind] in Hr. injection Hr as <- <-.
      unfold winv in *. rewrite E in *. destruct Hw as (t & H1 & H2 & H3 & H4 & H5). split.
      + exists t. split; [apply last_load_app; easy|easy].
      + right. exists t. split; [easy|]. exists s. split; [|easy].
        rewrite <- (st_metadata _ _ _ _ _ _ _ t H2 t' c H3). exact Em.
    - destruct (w_trace w) as [t'|] eqn:E; [|discriminate]. cbn [expect obind] in Hr.
      destruct (activities t' q) as [s|] eqn:Em; [|discriminate]. cbn [obind] in Hr. injection Hr as <- <-.
      unfold winv in *. rewrite E in *. destruct Hw as (t & H1 & H2 & H3 & H4 & H5). split.
      + exists t. split; [apply last_load_app; easy|easy].
      + right. exists t. split; [easy|]. exists s. split; [|easy].
        rewrite <- (st_activities _ _ _ _ _ _ _ t H2 t' q H3). exact Em.
    - set (dc := if negb (N.eqb c (w_cols w)) then ([], c) else (w_descs w, w_cols w)) in Hr.
      destruct dc as [descs cols] eqn:Edc.
      destruct (w_trace w) as [t'|] eqn:E; [|discriminate]. cbn [expect obind] in Hr.
      destruct (describe_activities t' (w_args w) descs ids c) as [[[[t1 a1] d1] l1]|] eqn:E1; [|discriminate].
      cbn [obind] in Hr. injection Hr as <- <-.
      unfold winv in *. rewrite E in *. destruct Hw as (t & H1 & H2 & H3 & H4 & H5).
      assert (Hdc : cols = c /\ descs_ok t c descs).
      { unfold dc in Edc. destruct (N.eqb_spec c (w_cols w)) as [->|Hne]; cbn [negb] in Edc; injection Edc as <- <-.
        - split; [easy|exact H5].
        - split; [easy|intros x y []]. }
      destruct Hdc as [-> Hd].
      destruct (describe_activities_ok t c ids H2 _ _ _ _ _ _ _ H3 H4 Hd E1) as (K1 & K2 & K3 & K4).
      cbn [w_trace w_args w_descs w_cols]. split.
      + exists t. split; [apply last_load_app; easy|]. split; [easy|].
        split; [eapply evolves_trans; eassumption|]. easy.
      + right. exists t. split; [easy|]. exists l1. easy.
    - destruct (w_trace w) as [t'|] eqn:E; [|discriminate]. cbn [expect obind] in Hr.
      destruct (describe_activity t' (w_args w) id (MultiLine c)) as [[[t1 a1] [s wrap]]|] eqn:E1; [|discriminate].
      cbn [obind] in Hr. injection Hr as <- <-.
      unfold winv in *. rewrite E in *. destruct Hw as (t & H1 & H2 & H3 & H4 & H5).
      destruct (describe_activity_ok t t' _ _ _ _ _ _ H2 H3 H4 E1) as (K1 & K2 & K3).
      cbn [w_trace w_args w_descs w_cols]. split.
      + exists t. split; [apply last_load_app; easy|]. split; [easy|].
        split; [eapply evolves_trans; eassumption|]. easy.
      + right. exists t. split; [easy|]. exists s, wrap. easy.
  Qed.

  Lemma worker_run_app w l1 l2 : worker_run w (l1 ++ l2) =
    match worker_run w l1 with
    | (rs, Panic) => (rs, Panic)
    | (rs, Ret w1) => (rs ++ fst (worker_run w1 l2), snd (worker_run w1 l2))
    end.
  Proof.
    revert w. induction l1 as [|i l1 IH]; intros w; cbn [app Proc_Model.worker_run].
    - destruct (worker_run w l2); easy.
    - destruct (worker_step w i) as [[w1 r]|]; [|easy]. rewrite IH.
      destruct (worker_run w1 l1) as [rs [w2|]]; [|easy]. cbn [app]. destruct (worker_run w2 l2); easy.
  Qed.
  Lemma worker_run_length w l rs w' : worker_run w l = (rs, Ret w') -> length rs = length l.
  Proof.
    revert w rs. induction l as [|i l IH]; intros w rs; cbn [Proc_Model.worker_run].
    - intros H. injection H as <- <-. easy.
    - destruct (worker_step w i) as [[w1 r]|]; [|discriminate].
      destruct (worker_run w1 l) as [rs1 o] eqn:E. intros H. injection H as <- ->. cbn [length]. f_equal. eapply IH. exact E.
  Qed.

  Lemma winv_run l : (forall t, In (LoadTrace (Some t)) l -> stable t) -> forall rs w,
    worker_run worker_init l = (rs, Ret w) -> winv l w.
  Proof.
    induction l as [|i l IH] using rev_ind; intros Hst rs w H.
    - injection H as _ <-. unfold winv. cbn. split; [easy|]. split; [easy|]. right. intros r [].
    - rewrite worker_run_app in H. destruct (worker_run worker_init l) as [rs1 [w1|]] eqn:E; [|discriminate].
      cbn [Proc_Model.worker_run] in H. destruct (worker_step w1 i) as [[w2 r]|] eqn:E2; [|discriminate].
      cbn [fst snd] in H. injection H as _ <-.
      eapply (winv_step l w1 i w2 r); [|eapply IH; [|reflexivity]|exact E2].
      + intros t ->. apply Hst, in_app_iff. right. left. easy.
      + intros t Ht. apply Hst, in_app_iff. left. easy.
  Qed.

  (** *** Answers are right *)
  Theorem answers_fresh l rs w i w' r :
    (forall t, In (LoadTrace (Some t)) l -> stable t) ->
    worker_run worker_init l = (rs, Ret w) -> worker_step w i = Ret (w', r) ->
    (exists o, i = LoadTrace o) \/ exists t, last_load l (Some t) /\ fresh_answer t i r.
  Proof.
    intros Hst Hrun Hstep. pose proof (winv_run l Hst rs w Hrun) as Hw.
    destruct i as [o|c|q|ids c|id c]; [left; exists o; easy| | | |];
      (eapply winv_step; [|exact Hw|exact Hstep]; discriminate).
  Qed.

  (** *** When the worker panics *)
  Theorem panic_without_trace l rs w i :
    worker_run worker_init l = (rs, Ret w) -> (forall t, ~ last_load l (Some t)) ->
    (forall o, i <> LoadTrace o) -> worker_step w i = Panic.
  Proof.
    intros Hrun Hno Hi.
    assert (Hw : w_trace w = None).
    { revert rs w Hrun Hno. induction l as [|j l IH] using rev_ind; intros rs w Hrun Hno.
      - injection Hrun as _ <-. easy.
      - rewrite worker_run_app in Hrun. destruct (worker_run worker_init l) as [rs1 [w1|]] eqn:E; [|discriminate].
        cbn [Proc_Model.worker_run] in Hrun. destruct (worker_step w1 j) as [[w2 r]|] eqn:E2; [|discriminate].
        cbn [fst snd] in Hrun. injection Hrun as _ <-.
        destruct j as [[t|]|c|q|ids c|id c].
        + exfalso. apply (Hno t). exists l, []. split; [easy|intros r' []].
        + cbn in E2. injection E2 as <- _. easy.
        + exfalso. cbn [Proc_Model.worker_step] in E2. rewrite (IH rs1 w1 eq_refl) in E2; [discriminate|]. intros t Ht. eapply Hno. apply last_load_app; [exact Ht|easy].
        + exfalso. cbn [Proc_Model.worker_step] in E2. rewrite (IH rs1 w1 eq_refl) in E2; [discriminate|]. intros t Ht. eapply Hno. apply last_load_app; [exact Ht|easy].
        + exfalso. cbn [Proc_Model.worker_step] in E2. destruct (if negb (N.eqb c (w_cols w1)) then _ else _) as [d c'].
          rewrite (IH rs1 w1 eq_refl) in E2; [discriminate|]. intros t Ht. eapply Hno. apply last_load_app; [exact Ht|easy].
        + exfalso. cbn [Proc_Model.worker_step] in E2. rewrite (IH rs1 w1 eq_refl) in E2; [discriminate|]. intros t Ht. eapply Hno. apply last_load_app; [exact Ht|easy]. }
    destruct i as [o|c|q|ids c|id c]; cbn [Proc_Model.worker_step]; rewrite ?Hw; try easy.
    - exfalso. apply (Hi o). easy.
    - destruct (if negb (N.eqb c (w_cols w)) then _ else _) as [d c']. easy.
  Qed.

  (** The functions of the library do not panic on the ids of a request. *)
  Definition library_ok (t : trace) (i : instruction) : Prop :=
    (forall t', evolves t t' -> match i with
       | LoadTrace _ => True
       | DescribeTrace w => metadata t' w <> Panic
       | GetActivities q => activities t' q <> Panic
       | DescribeActivities ids w => forall id, In id ids ->
           parse t' id <> Panic /\ forall a, exists s, render t' id a (SingleLine w) = Ret (s, false)
       | DescribeActivity id w => parse t' id <> Panic /\ forall a, render t' id a (MultiLine w) <> Panic
       end).

  Theorem no_panic l rs w i t :
    (forall t, In (LoadTrace (Some t)) l -> stable t) ->
    worker_run worker_init l = (rs, Ret w) -> last_load l (Some t) -> library_ok t i ->
    worker_step w i <> Panic.
  Proof.
    intros Hst Hrun Hl Hok. pose proof (winv_run l Hst rs w Hrun) as Hw. unfold winv in Hw.
    assert (Huniq : forall r, last_load l r -> r = Some t).
    { intros r (l1 & l2 & E & Hno). destruct Hl as (l1' & l2' & E' & Hno'). rewrite E in E'.
      clear -E' Hno Hno'. revert l1' E'. induction l1 as [|x l1 IH]; intros [|y l1'] E'; cbn [app] in E'.
      - injection E' as -> _. easy.
      - injection E' as _ E'. exfalso. eapply Hno. rewrite E'. apply in_app_iff. right. left. reflexivity.
      - injection E' as _ E'. exfalso. eapply Hno'. rewrite <- E'. apply in_app_iff. right. left. reflexivity.
      - injection E' as _ E'. apply IH in E'. exact E'. }
    destruct (w_trace w) as [t'|] eqn:E.
    - destruct Hw as (t0 & H1 & _ & H3 & _ & _). apply Huniq in H1. injection H1 as ->.
      destruct i as [o|c|q|ids c|id c]; cbn [Proc_Model.worker_step]; rewrite ?E; cbn [expect obind]; try easy.
      + specialize (Hok t' H3). cbv beta iota in Hok. destruct (metadata t' c); [discriminate|exfalso; apply Hok; reflexivity].
      + specialize (Hok t' H3). cbv beta iota in Hok. destruct (activities t' q); [discriminate|exfalso; apply Hok; reflexivity].
      + destruct (if negb (N.eqb c (w_cols w)) then _ else _) as [descs cols]. cbn [obind].
        assert (Hd : forall ids', incl ids' ids -> forall t1 args descs, evolves t t1 -> describe_activities t1 args descs ids' c <> Panic).
        { induction ids' as [|id ids' IH]; intros Hincl t1 args descs' He; cbn [Proc_Model.describe_activities]; [discriminate|].
          assert (Hincl' : incl ids' ids) by (intros x Hx; apply Hincl; right; exact Hx).
          destruct (lookup descs' id).
          - specialize (IH Hincl' t1 args descs' He). destruct (describe_activities t1 args descs' ids' c) as [[[[? ?] ?] ?]|]; easy.
          - unfold Proc_Model.describe_activity.
            assert (Hp : exists t2 args2 s, evolves t t2 /\
              match lookup args id with
              | Some a => obind (render t1 id a (SingleLine c)) (fun r => Ret (t1, args, r))
              | None => obind (parse t1 id) (fun '(t', a) => obind (render t' id a (SingleLine c)) (fun r => Ret (t', (id, a) :: args, r)))
              end = Ret (t2, args2, (s, false))).
            { destruct (lookup args id) as [a|].
              - destruct (Hok t1 He id) as [_ Hr]; [apply Hincl; left; easy|]. destruct (Hr a) as (s & ->).
                exists t1, args, s. easy.
              - destruct (Hok t1 He id) as [Hp _]; [apply Hincl; left; easy|].
                destruct (parse t1 id) as [[t2 a]|] eqn:Ep; [|easy]. cbn [obind].
                assert (He2 : evolves t t2) by (econstructor; eassumption).
                destruct (Hok t2 He2 id) as [_ Hr]; [apply Hincl; left; easy|]. destruct (Hr a) as (s & ->).
                exists t2, ((id, a) :: args), s. easy. }
            destruct Hp as (t2 & args2 & s & He2 & ->). cbn [obind].
            specialize (IH Hincl' t2 args2 ((id, s) :: descs') He2).
            destruct (describe_activities t2 args2 ((id, s) :: descs') ids' c) as [[[[? ?] ?] ?]|]; easy. }
        specialize (Hd ids (incl_refl _) t' (w_args w) descs H3).
        destruct (describe_activities t' (w_args w) descs ids c) as [[[[? ?] ?] ?]|]; easy.
      + unfold Proc_Model.describe_activity. destruct (lookup (w_args w) id) as [a|].
        * destruct (Hok t' H3) as [_ Hr]. specialize (Hr a). destruct (render t' id a (MultiLine c)) as [[s wr]|]; easy.
        * destruct (Hok t' H3) as [Hp _]. destruct (parse t' id) as [[t2 a]|] eqn:Ep; [|easy]. cbn [obind].
          destruct (Hok t2 ltac:(econstructor; eassumption)) as [_ Hr]. specialize (Hr a).
          destruct (render t2 id a (MultiLine c)) as [[s wr]|]; easy.
    - destruct Hw as (_ & _ & [H|H]).
      + apply Huniq in H. discriminate.
      + exfalso. destruct Hl as (l1 & l2 & -> & _). eapply H. apply in_app_iff. right. left. reflexivity.
  Qed.

  (** *** Two threads *)
  Notation system := (system trace arg info).
  Notation system_step := (system_step trace arg info parse render metadata activities).
  Notation system_reach := (system_reach trace arg info parse render metadata activities).
  Definition is_load (i : instruction) : bool := match i with LoadTrace _ => true | _ => false end.
  Definition requests (l : list (instruction * reply_t info)) := filter (fun p => negb (is_load (fst p))) l.

  Lemma step_channel w i w' r : worker_step w i = Ret (w', r) ->
    match awaited i with Some c => channel_of r = c | None => channel_of r = CCallback end.
  Proof.
    destruct i as [o|c|q|ids c|id c]; cbn [Proc_Model.worker_step awaited].
    - intros H. injection H as _ <-. easy.
    - destruct (w_trace w); [|discriminate]. cbn [expect obind]. destruct (metadata t c); [|discriminate].
      intros H. injection H as _ <-. easy.
    - destruct (w_trace w); [|discriminate]. cbn [expect obind]. destruct (activities t q); [|discriminate].
      intros H. injection H as _ <-. easy.
    - destruct (if negb (N.eqb c (w_cols w)) then _ else _) as [d c']. destruct (w_trace w); [|discriminate]. cbn [expect obind].
      destruct (describe_activities _ _ _ _ _) as [[[[? ?] ?] ?]|]; [|discriminate]. intros H. injection H as _ <-. easy.
    - destruct (w_trace w); [|discriminate]. cbn [expect obind].
      destruct (describe_activity _ _ _ _) as [[[? ?] [? ?]]|]; [|discriminate]. intros H. injection H as _ <-. easy.
  Qed.

  Definition loads (l : list instruction) : Prop := Forall (fun i => is_load i = true) l.
  Definition empty_chans (y : system) : Prop := forall c, c <> CCallback -> chan y c = [].

  (** What was handled; what is yet to be; and the reply to be fetched *)
  Definition sinv (y : system) : Prop :=
    exists handled rs,
      worker_run worker_init handled = (rs, y_worker y) /\
      y_sent y = handled ++ y_instructions y /\
      match y_waiting y with
      | None => empty_chans y /\ loads (y_instructions y) /\ y_seen y = requests (combine handled rs)
      | Some (i, c) => awaited i = Some c /\ is_load i = false /\
          ( (* not handled yet *)
            (empty_chans y /\ y_seen y = requests (combine handled rs) /\
               exists ls, loads ls /\ y_instructions y = ls ++ [i])
            \/ (* handled *)
            (exists h' rs' r, handled = h' ++ [i] /\ rs = rs' ++ [r] /\ length rs' = length h' /\
               (exists w0, worker_run worker_init h' = (rs', Ret w0)) /\
               y_seen y = requests (combine h' rs') /\
               y_instructions y = [] /\ chan y c = [r] /\ (forall c', c' <> CCallback -> c' <> c -> chan y c' = []))
            \/ (* the thread crashed *)
            (y_worker y = Panic /\ empty_chans y /\ y_seen y = requests (combine handled rs) /\
               ((y_instructions y = [] /\ exists h', handled = h' ++ [i])
                \/ exists ls, loads ls /\ y_instructions y = ls ++ [i])))
      end.

  Lemma combine_app {A B} (a a' : list A) (b b' : list B) : length a = length b ->
    combine (a ++ a') (b ++ b') = combine a b ++ combine a' b'.
  Proof.
    revert b. induction a as [|x a IH]; intros [|y b] H; try discriminate; [easy|]. cbn. f_equal. apply IH.
    injection H as H. exact H.
  Qed.
  Lemma combine_short {A B} (a a' : list A) (b : list B) : length b <= length a -> combine (a ++ a') b = combine a b.
  Proof.
    revert b. induction a as [|x a IH]; intros [|y b] H; cbn in *; try lia; [destruct a'; easy|easy|].
    f_equal. apply IH. lia.
  Qed.
  Lemma run_len_panic w l rs : worker_run w l = (rs, Panic) -> S (length rs) <= length l.
  Proof.
    revert w rs. induction l as [|i l IH]; intros w rs; cbn [Proc_Model.worker_run]; [discriminate|].
    destruct (worker_step w i) as [[w1 r]|]; [|intros H; injection H as <-; cbn; lia].
    destruct (worker_run w1 l) as [rs1 o] eqn:E. intros H. injection H as <- ->. cbn [length].
    apply IH in E. lia.
  Qed.

  Lemma chan_set (y : system) c l c' : chan (set_chan y c l) c' = match c, c' with
    | CString, CString | CActivities, CActivities | CDescs, CDescs | CCallback, CCallback => l
    | _, _ => chan y c' end.
  Proof. destruct c, c'; easy. Qed.

  Lemma requests_snoc a i r : requests (a ++ [(i, r)]) = requests a ++ (if is_load i then [] else [(i, r)]).
  Proof. unfold requests. rewrite filter_app. cbn. destruct (is_load i); easy. Qed.

  Lemma sinv_reach y : system_reach y -> sinv y.
  Proof.
    induction 1 as [|y y' _ (handled & rs & Hrun & Hsent & IH) Hstep].
    - exists [], []. split; [easy|]. split; [easy|]. cbn. split; [intros [] Hc; easy|]. split; [constructor|easy].
    - destruct Hstep as [y i Hw|y i c r rest Hw Hc|y w i rest w' r Hwk Hi Hws|y w i rest Hwk Hi Hws].
      + (* request *)
        rewrite Hw in IH. destruct IH as (He & Hl & Hs).
        exists handled, rs. cbn [y_worker y_sent y_instructions y_waiting y_seen].
        split; [easy|]. split; [rewrite Hsent, app_assoc; easy|].
        destruct i as [o|c|q|ids c|id c]; cbn [awaited].
        { split; [intros c Hc; destruct c; try (apply (He CString); easy); try (apply (He CActivities); easy); try (apply (He CDescs); easy); easy|].
          split; [|easy]. apply Forall_app. split; [easy|]. constructor; [easy|constructor]. }
        all: split; [easy|]; split; [easy|]; left;
          (split; [intros c' Hc'; destruct c'; [apply (He CString)|apply (He CActivities)|apply (He CDescs)|]; easy|]);
          split; [easy|]; eexists; split; [exact Hl|reflexivity].
      + (* fetch *)
        rewrite Hw in IH. destruct IH as (Haw & Hil & IH).
        assert (Hcc : c <> CCallback) by (destruct i; cbn in Haw; try discriminate; injection Haw as <-; discriminate).
        destruct IH as [(He & _ & _)|[(h' & rs' & r0 & -> & -> & Hlen & (w0 & Hr0) & Hs & Hi & Hch & Ho)|(_ & He & _)]].
        * rewrite (He c Hcc) in Hc. discriminate.
        * rewrite Hch in Hc. injection Hc as <- <-. exists (h' ++ [i]), (rs' ++ [r0]).
          cbn [y_worker y_sent y_instructions y_waiting y_seen].
          assert (Hyi : y_instructions (set_chan y c []) = []) by (destruct c; exact Hi).
          split; [easy|]. split; [rewrite Hyi; rewrite Hsent, Hi; easy|]. split.
          -- intros c' Hc'. assert (Hx : chan (set_chan y c []) c' = []).
             { rewrite chan_set. destruct c, c'; try easy; apply Ho; easy. }
             destruct c'; exact Hx.
          -- rewrite Hyi. split; [constructor|]. rewrite Hs, combine_app by easy. cbn [combine].
             rewrite requests_snoc, Hil. easy.
        * rewrite (He c Hcc) in Hc. discriminate.
      + (* work *)
        rewrite Hwk in Hrun. pose proof (worker_run_length _ _ _ _ Hrun) as Hlen.
        assert (Hrun' : worker_run worker_init (handled ++ [i]) = (rs ++ [r], Ret w')).
        { rewrite worker_run_app, Hrun. cbn [Proc_Model.worker_run]. rewrite Hws. easy. }
        pose proof (step_channel _ _ _ _ Hws) as Hch.
        exists (handled ++ [i]), (rs ++ [r]). cbn [y_worker y_sent y_instructions y_waiting y_seen].
        split; [easy|]. split; [rewrite Hsent, Hi, <- app_assoc; easy|].
        assert (Hcomb : requests (combine (handled ++ [i]) (rs ++ [r])) = requests (combine handled rs) ++ (if is_load i then [] else [(i, r)])).
        { rewrite combine_app by easy. cbn [combine]. apply requests_snoc. }
        assert (Hload : is_load i = true -> channel_of r = CCallback).
        { destruct i; try discriminate. easy. }
        destruct (y_waiting y) as [[j c]|] eqn:Ew.
        * destruct IH as (Haw & Hjl & IH). split; [easy|]. split; [easy|].
          destruct IH as [(He & Hs & (ls & Hls & Hin))|[(h' & rs' & r0 & _ & _ & _ & _ & _ & Hin & _)|(Hp & _)]].
          -- rewrite Hi in Hin. destruct ls as [|x ls].
             ++ injection Hin as -> ->. right. left. rewrite Haw in Hch. subst c.
                exists handled, rs, r. split; [easy|]. split; [easy|]. split; [easy|].
                split; [exists w; easy|]. split; [easy|]. split; [easy|].
                assert (Hcc : channel_of r <> CCallback) by (destruct j; cbn in Haw; try discriminate; injection Haw as <-; discriminate).
                split.
                ** change (chan (set_chan y (channel_of r) (chan y (channel_of r) ++ [r])) (channel_of r) = [r]).
                   rewrite chan_set. rewrite (He _ Hcc). destruct (channel_of r); easy.
                ** intros c' H1 H2. change (chan (set_chan y (channel_of r) (chan y (channel_of r) ++ [r])) c' = []).
                   rewrite chan_set. destruct (channel_of r), c'; try easy; apply He; easy.
             ++ injection Hin as <- ->. left. inversion Hls as [|x0 l0 Hx Hls']; subst x0 l0.
                specialize (Hload Hx). split; [|split].
                ** intros c' Hc'. change (chan (set_chan y (channel_of r) (chan y (channel_of r) ++ [r])) c' = []).
                   rewrite chan_set, Hload. destruct c'; try easy; apply He; easy.
                ** rewrite Hs, Hcomb, Hx, app_nil_r. easy.
                ** exists ls. easy.
          -- congruence.
          -- congruence.
        * destruct IH as (He & Hl & Hs). rewrite Hi in Hl. inversion Hl as [|x0 l0 Hx Hl']; subst x0 l0.
          specialize (Hload Hx). split; [|split].
          -- intros c' Hc'. change (chan (set_chan y (channel_of r) (chan y (channel_of r) ++ [r])) c' = []).
             rewrite chan_set, Hload. destruct c'; try easy; apply He; easy.
          -- easy.
          -- rewrite Hs, Hcomb, Hx, app_nil_r. easy.
      + (* crash *)
        rewrite Hwk in Hrun. pose proof (worker_run_length _ _ _ _ Hrun) as Hlen.
        assert (Hrun' : worker_run worker_init (handled ++ [i]) = (rs, Panic)).
        { rewrite worker_run_app, Hrun. cbn [Proc_Model.worker_run]. rewrite Hws. cbn. rewrite app_nil_r. easy. }
        exists (handled ++ [i]), rs. cbn [y_worker y_sent y_instructions y_waiting y_seen].
        split; [easy|]. split; [rewrite Hsent, Hi, <- app_assoc; easy|].
        assert (Hcomb : combine (handled ++ [i]) rs = combine handled rs) by (apply combine_short; lia).
        destruct (y_waiting y) as [[j c]|] eqn:Ew.
        * destruct IH as (Haw & Hjl & IH). split; [easy|]. split; [easy|]. right. right.
          destruct IH as [(He & Hs & (ls & Hls & Hin))|[(h' & rs' & r0 & _ & _ & _ & _ & _ & Hin & _)|(Hp & _)]].
          -- split; [easy|]. split; [intros c' Hc'; destruct c'; try (apply (He CString); easy); try (apply (He CActivities); easy); try (apply (He CDescs); easy); easy|].
             rewrite Hcomb. split; [easy|]. rewrite Hi in Hin. destruct ls as [|x ls].
             ++ injection Hin as -> ->. left. split; [easy|]. exists handled. easy.
             ++ injection Hin as <- ->. right. exists ls. inversion Hls; easy.
          -- congruence.
          -- congruence.
        * destruct IH as (He & Hl & Hs). rewrite Hi in Hl. inversion Hl as [|x0 l0 Hx Hl']; subst x0 l0.
          destruct i; discriminate || (cbn [Proc_Model.worker_step] in Hws; discriminate).
  Qed.

  (** What the UI thread sees is what it would see if it called the worker directly. *)
  Theorem sequential y : system_reach y ->
    exists handled rest, y_sent y = handled ++ rest /\
      y_seen y = requests (combine handled (fst (worker_run worker_init handled))) /\
      (forall i, In i rest -> is_load i = true \/ exists c, y_waiting y = Some (i, c)).
  Proof.
    intros H. destruct (sinv_reach y H) as (handled & rs & Hrun & Hsent & IH).
    destruct (y_waiting y) as [[j c]|] eqn:Ew.
    - destruct IH as (Haw & Hjl & [(He & Hs & (ls & Hls & Hin))|[(h' & rs' & r & -> & -> & Hlen & (w0 & Hr0) & Hs & Hi & _)|(Hp & He & Hs & Hin)]]).
      + exists handled, (y_instructions y). split; [easy|]. rewrite Hrun. split; [easy|].
        rewrite Hin. intros i Hi. apply in_app_iff in Hi. destruct Hi as [Hi|[<-|[]]].
        * left. unfold loads in Hls; rewrite Forall_forall in Hls. apply Hls. exact Hi.
        * right. exists c. easy.
      + exists h', [j]. split; [rewrite Hsent, Hi, app_nil_r; easy|]. rewrite Hr0. split; [easy|].
        intros i [<-|[]]. right. exists c. easy.
      + exists handled, (y_instructions y). split; [easy|]. rewrite Hrun. split; [easy|].
        destruct Hin as [[-> _]|(ls & Hls & ->)]; [intros i Hi; destruct Hi|].
        intros i Hi. apply in_app_iff in Hi. destruct Hi as [Hi|[<-|[]]].
        * left. unfold loads in Hls. rewrite Forall_forall in Hls. apply Hls. exact Hi.
        * right. exists c. easy.
    - destruct IH as (He & Hl & Hs). exists handled, (y_instructions y). split; [easy|]. rewrite Hrun. split; [easy|].
      intros i Hi. left. unfold loads in Hl. rewrite Forall_forall in Hl. apply Hl. exact Hi.
  Qed.

  Theorem one_reply_each y : system_reach y -> y_worker y <> Panic ->
    let is_request (i : instruction) := match i with LoadTrace _ => false | _ => true end in
    filter is_request (y_sent y) =
      map fst (y_seen y) ++ match y_waiting y with Some (i, _) => [i] | None => [] end.
  Proof.
    intros H Hp is_request.
    assert (Hfst : forall h rs, length rs = length h -> map fst (requests (combine h rs)) = filter is_request h).
    { induction h as [|x h IH]; intros [|r rs] Hlen; try discriminate; [reflexivity|].
      unfold requests in *. cbn [combine filter fst]. injection Hlen as Hlen. specialize (IH rs Hlen).
      destruct x; cbn [is_load negb is_request map fst]; rewrite IH; reflexivity. }
    assert (Hloads : forall ls, loads ls -> filter is_request ls = []).
    { intros ls Hls. induction Hls as [|x ls Hx Hls IH]; [reflexivity|]. destruct x; try discriminate. exact IH. }
    destruct (sinv_reach y H) as (handled & rs & Hrun & Hsent & IH). rewrite Hsent, filter_app.
    destruct (y_worker y) as [w|] eqn:Ek; [|easy]. pose proof (worker_run_length _ _ _ _ Hrun) as Hlen.
    destruct (y_waiting y) as [[j c]|] eqn:Ew.
    - assert (Hj : forall j, is_load j = false -> filter is_request [j] = [j]) by (intros [] Hj; easy).
      destruct IH as (Haw & Hjl & [(He & Hs & (ls & Hls & Hin))|[(h' & rs' & r & -> & -> & Hlen' & _ & Hs & Hi & _)|(Hpp & _)]]).
      + rewrite Hs, Hin, Hfst by exact Hlen. rewrite filter_app, (Hloads ls Hls), (Hj j Hjl). reflexivity.
      + rewrite Hs, Hi, Hfst by exact Hlen'. rewrite filter_app, (Hj j Hjl), app_nil_r. reflexivity.
      + discriminate.
    - destruct IH as (He & Hl & Hs). rewrite Hs, Hfst by exact Hlen. rewrite (Hloads _ Hl). reflexivity.
  Qed.

  (** A waiting UI thread gets its reply unless the worker has crashed. *)
  Lemma waiting_can_step y : system_reach y -> y_waiting y <> None -> y_worker y <> Panic ->
    exists y', system_step y y'.
  Proof.
    intros H Hw Hp. destruct (sinv_reach y H) as (handled & rs & Hrun & Hsent & IH).
    destruct (y_waiting y) as [[j c]|] eqn:Ew; [|easy].
    destruct (y_worker y) as [w|] eqn:Ek; [|easy].
    destruct IH as (Haw & Hjl & [(He & Hs & (ls & Hls & Hin))|[(h' & rs' & r & -> & -> & Hlen & _ & Hs & Hi & Hch & _)|(Hpp & _)]]).
    - destruct (y_instructions y) as [|i rest] eqn:Ei; [destruct ls; discriminate|].
      destruct (worker_step w i) as [[w' r]|] eqn:Es.
      + eexists. eapply ss_work; eassumption.
      + eexists. eapply ss_crash; eassumption.
    - eexists. eapply ss_fetch; eassumption.
    - discriminate.
  Qed.

  Theorem reply_comes y : system_reach y -> y_waiting y <> None -> y_worker y <> Panic ->
    (exists y', system_step y y') /\
    (forall y', system_step y y' -> (y_waiting y' = None /\ length (y_seen y') = S (length (y_seen y))) \/
       y_worker y' = Panic \/ length (y_instructions y') < length (y_instructions y)).
  Proof.
    intros H Hw Hp. split; [apply waiting_can_step; easy|]. intros y' Hs.
    destruct Hs as [y i Hw'|y i c r rest Hw' Hc|y w i rest w' r Hwk Hi Hws|y w i rest Hwk Hi Hws].
    - exfalso. apply Hw. exact Hw'.
    - left. cbn [y_waiting y_seen]. split; [reflexivity|]. rewrite app_length. cbn [length]. lia.
    - right. right. cbn [y_instructions]. rewrite Hi. cbn [length]. lia.
    - right. left. reflexivity.
  Qed.

  (** Every reply that is fetched is the right answer to the request, about the trace whose
      load was requested last before it. *)
  Lemma seen_position handled : forall w0 rs o, worker_run w0 handled = (rs, o) -> forall i r,
    In (i, r) (combine handled rs) ->
    exists l1 l2 rs1 w w', handled = l1 ++ i :: l2 /\ worker_run w0 l1 = (rs1, Ret w) /\ worker_step w i = Ret (w', r).
  Proof.
    induction handled as [|x handled IH]; intros w0 rs o Hrun i r Hin; [destruct Hin|].
    cbn [Proc_Model.worker_run] in Hrun. destruct (worker_step w0 x) as [[w1 r1]|] eqn:Es; [|injection Hrun as <- _; destruct Hin].
    destruct (worker_run w1 handled) as [rs1 o1] eqn:Er. injection Hrun as <- _. cbn [combine] in Hin.
    destruct Hin as [Hin|Hin].
    - injection Hin as <- <-. exists [], handled, [], w0, w1. easy.
    - destruct (IH _ _ _ Er i r Hin) as (l1 & l2 & rs2 & w & w' & -> & H1 & H2).
      exists (x :: l1), l2, (r1 :: rs2), w, w'. split; [easy|]. split; [|easy].
      cbn [Proc_Model.worker_run]. rewrite Es, H1. easy.
  Qed.
  Theorem fetched_is_right y i r : system_reach y ->
    (forall t, In (LoadTrace (Some t)) (y_sent y) -> stable t) ->
    In (i, r) (y_seen y) ->
    exists before after t, y_sent y = before ++ i :: after /\ last_load before (Some t) /\ fresh_answer t i r.
  Proof.
    intros H Hst Hin. destruct (sequential y H) as (handled & rest & Hsent & Hseen & _).
    rewrite Hseen in Hin. unfold requests in Hin. apply filter_In in Hin. destruct Hin as [Hin Hl].
    destruct (worker_run worker_init handled) as [rs o] eqn:Er. cbn [fst] in Hin.
    destruct (seen_position handled _ _ _ Er i r Hin) as (l1 & l2 & rs1 & w & w' & -> & H1 & H2).
    destruct (answers_fresh l1 rs1 w i w' r) as [(o' & ->)|(t & Ht & Ha)].
    - intros t Ht. apply Hst. rewrite Hsent. apply in_app_iff. left. apply in_app_iff. left. easy.
    - easy.
    - easy.
    - discriminate.
    - exists l1, (l2 ++ rest), t. split; [rewrite Hsent, <- app_assoc; easy|]. easy.
  Qed.
End Proofs.

From Coq Require Import String Permutation.
From Verif Require Import Base Asylum_Model Tree_Model Tree_Spec Tree_Proofs Tree_Proofs2 Load_Model Load_Spec Load_Proofs.
Local Open Scope list_scope.

Definition olist {V} (o : option V) : list V := match o with Some v => [v] | None => [] end.

Lemma olist_inj {V} (a b : option V) : olist a = olist b -> a = b.
Proof. destruct a, b; simpl; intros H; try discriminate; [injection H as ->|]; reflexivity. Qed.
Lemma f_activities_app a b : f_activities (a ++ b) = f_activities a ++ f_activities b.
Proof. induction a as [|[] a IH]; simpl; rewrite ?IH; reflexivity. Qed.
Lemma f_globals_app a b : f_globals (a ++ b) = f_globals a ++ f_globals b.
Proof. induction a as [|[] a IH]; simpl; rewrite ?IH; reflexivity. Qed.
Lemma f_processes_app a b : f_processes (a ++ b) = f_processes a ++ f_processes b.
Proof. induction a as [|[] a IH]; simpl; rewrite ?IH; reflexivity. Qed.
Lemma f_threads_app a b : f_threads (a ++ b) = f_threads a ++ f_threads b.
Proof. induction a as [|[] a IH]; simpl; rewrite ?IH; reflexivity. Qed.

(** The tree builder, one activity at a time *)
Lemma accepted_snoc (xs : list (stat activity)) b x b' : accepted xs b ->
  (accepted (xs ++ [x]) b' <-> insert b x = (IOk, b')).
Proof.
  unfold accepted. intros H. rewrite insert_all_app, H. cbn [insert_all].
  destruct (insert b x) as [[|e|] b2]; cbn; split; intros E; try discriminate; congruence.
Qed.
Lemma accepted_no_panic (xs : list (stat activity)) b x b' : accepted xs b -> insert b x <> (IPanic, b').
Proof.
  intros H E.
  assert (Hall : insert_all b_new (xs ++ [x]) = (inr (length xs, IPanic), b')).
  { rewrite insert_all_app, H. cbn [insert_all]. rewrite E. cbn. rewrite Nat.add_0_r. reflexivity. }
  apply error_meaning in Hall. destruct Hall as (a & _ & _ & F). exact F.
Qed.
Lemma accepted_fun (xs : list (stat activity)) b b' : accepted xs b -> accepted xs b' -> b = b'.
Proof. unfold accepted. congruence. Qed.

Definition pid_known (l : list trace_event) (p : option Z) : Prop :=
  match p with
  | Some p => exists e, In e l /\ event_pid e = Some p
  | None => forall e, In e l -> event_pid e = None
  end.

Section Load.
  Variable us : Z.
  Variables up al : chr -> bool.
  Notation infer := (infer_from_detail up al).
  Notation reads := (reads us infer).

  Record Inv (evs : list trace_event) (ks : list fact) (s : load_state) : Prop := {
    i_reads : Forall2 reads evs ks;
    i_one : one_pid evs;
    i_pid : pid_known evs (ls_pid s);
    i_acts : accepted (f_activities ks) (ls_acts s);
    i_globals : ls_globals s = f_globals ks;
    i_nodup : NoDup (map fst (f_globals ks));
    i_proc : f_processes ks = olist (ls_process s);
    i_thread : f_threads ks = olist (ls_thread s) }.

  Lemma inv_init : Inv [] [] ls_init.
  Proof.
    constructor; simpl; auto; try constructor.
    - intros e1 e2 p1 p2 [].
    - intros e [].
  Qed.

  Lemma inv_fun evs ks s s' : Inv evs ks s -> Inv evs ks s' -> s = s'.
  Proof.
    intros [H1 H2 H3 H4 H5 H6 H7 H8] [G1 G2 G3 G4 G5 G6 G7 G8].
    destruct s as [a g p t q], s' as [a' g' p' t' q']; simpl in *.
    assert (a = a') by (eapply accepted_fun; eassumption).
    assert (p = p') by (rewrite H7 in G7; apply olist_inj; exact G7).
    assert (t = t') by (rewrite H8 in G8; apply olist_inj; exact G8).
    assert (q = q').
    { destruct q as [q|], q' as [q'|]; simpl in *; try reflexivity.
      - destruct H3 as (e & He & Ee), G3 as (e' & He' & Ee'). f_equal. exact (H2 e e' q q' He He' Ee Ee').
      - destruct H3 as (e & He & Ee). rewrite (G3 _ He) in Ee. discriminate.
      - destruct G3 as (e & He & Ee). rewrite (H3 _ He) in Ee. discriminate. }
    congruence.
  Qed.

  Lemma one_pid_snoc evs ev q : one_pid evs -> pid_known evs q ->
    (one_pid (evs ++ [ev]) <-> forall p p', q = Some p -> event_pid ev = Some p' -> p = p').
  Proof.
    intros H Hq. split.
    - intros H' p p' -> He. destruct Hq as (e & Hin & Hp).
      apply (H' e ev p p'); [apply in_or_app; auto|apply in_or_app; right; left; reflexivity|exact Hp|exact He].
    - intros Hx.
      assert (Key : forall e p p', In e evs -> event_pid e = Some p -> event_pid ev = Some p' -> p = p').
      { intros e p p' Hin Hp Hp'. destruct q as [q|].
        - destruct Hq as (e0 & Hin0 & Hp0). rewrite (H e e0 p q Hin Hin0 Hp Hp0). apply Hx; auto.
        - rewrite (Hq _ Hin) in Hp. discriminate. }
      intros e1 e2 p1 p2 I1 I2 E1 E2.
      apply in_app_or in I1, I2. destruct I1 as [I1|[<-|[]]], I2 as [I2|[<-|[]]].
      + exact (H e1 e2 p1 p2 I1 I2 E1 E2).
      + exact (Key e1 p1 p2 I1 E1 E2).
      + symmetry. exact (Key e2 p2 p1 I2 E2 E1).
      + congruence.
  Qed.
  Lemma pid_known_snoc evs ev q : pid_known evs q ->
    pid_known (evs ++ [ev]) (match q with Some p => Some p | None => event_pid ev end).
  Proof.
    destruct q as [p|]; simpl.
    - intros (e & Hin & He). exists e. split; [apply in_or_app; auto|exact He].
    - intros H. destruct (event_pid ev) as [p|] eqn:E; simpl.
      + exists ev. split; [apply in_or_app; right; left; reflexivity|exact E].
      + intros e Hin. apply in_app_or in Hin. destruct Hin as [Hin|[<-|[]]]; auto.
  Qed.
  Lemma merge_pid_ok q p q' : merge_pid q p = Ok q' <->
    (forall x, q = Some x -> x = p) /\ q' = Some p.
  Proof.
    destruct q as [x|]; simpl.
    - destruct (Z.eqb_spec x p) as [->|Hne]; split.
      + intros [= <-]. split; [congruence|reflexivity].
      + intros [_ ->]. reflexivity.
      + discriminate.
      + intros [H _]. destruct Hne. auto.
    - split; [intros [= <-]; split; [discriminate|reflexivity]|intros [_ ->]; reflexivity].
  Qed.
  Lemma merge_pid_boom q p : merge_pid q p <> Boom.
  Proof. destruct q; simpl; [destruct (_ =? _)%Z|]; discriminate. Qed.

  Lemma nodup_snoc {V} (l : list V) x : NoDup (l ++ [x]) <-> NoDup l /\ ~ In x l.
  Proof.
    split.
    - intros H. apply NoDup_remove in H. rewrite app_nil_r in H. exact H.
    - intros [H H']. apply Permutation_NoDup with (x :: l).
      + change (x :: l) with ([x] ++ l). apply Permutation_app_comm.
      + constructor; assumption.
  Qed.


  Lemma reads_code ev k : distinct_event ev -> reads ev k ->
    match ev, k with
    | EvX d _ _ _, FActivity s => (us < de_ts d)%Z /\ activity_stat_parse up al ev = Ok s
    | EvX d _ _ _, FGlobal n g => (de_ts d <= us)%Z /\ gstat_parse ev = Ok (n, g)
    | EvM m, FProcess n => parse_process_name m = Ok n
    | EvM m, FThread n => parse_thread_name m = Ok n
    | _, _ => False
    end.
  Proof.
    intros Hd Hr. destruct Hr as [pid tid ts name a dur act Hts Hp Hn Ha|pid tid name cnt avg f a dur Hus Ht H1 H2 H3
                     |pid name tid Hp|tid name]; cbn [de_ts].
    - split; [exact Hts|]. apply activity_stat_ok. exists pid, tid, ts, name, a, dur, act. auto.
    - split; [exact Hus|]. apply gstat_ok; [exact Hd|].
      exists pid, tid, cnt, avg, f, a, dur. repeat split; auto.
    - apply process_name_ok. exists pid, tid. auto.
    - apply thread_name_ok. exists tid. reflexivity.
  Qed.
  Lemma reads_fun ev k k' : distinct_event ev -> reads ev k -> reads ev k' -> k = k'.
  Proof.
    intros Hd H H'. apply reads_code in H; [|exact Hd]. apply reads_code in H'; [|exact Hd].
    destruct ev as [d|d|d dur td es|m]; try contradiction; destruct k, k'; try contradiction;
      try (destruct H, H'; lia); try (destruct H, H'; congruence); try congruence.
    - exfalso. apply process_name_ok in H. apply thread_name_ok in H'.
      destruct H as (? & ? & -> & _), H' as (? & [=]).
    - exfalso. apply process_name_ok in H'. apply thread_name_ok in H.
      destruct H' as (? & ? & -> & _), H as (? & [=]).
  Qed.

  (** One iteration of the loop *)
  Lemma step_sound evs ks s ev s' : Inv evs ks s -> distinct_event ev ->
    load_event us up al s ev = Ok s' -> exists k, Inv (evs ++ [ev]) (ks ++ [k]) s'.
  Proof.
    intros I Hd. unfold load_event.
    assert (Hpid : forall p q, event_pid ev = Some p -> merge_pid (ls_pid s) p = Ok q ->
              one_pid (evs ++ [ev]) /\ pid_known (evs ++ [ev]) q).
    { intros p q E M. apply merge_pid_ok in M. destruct M as [M ->].
      pose proof (pid_known_snoc evs ev _ (i_pid _ _ _ I)) as K. rewrite E in K. split.
      - apply (one_pid_snoc _ _ _ (i_one _ _ _ I) (i_pid _ _ _ I)).
        intros x y Hx Hy. rewrite (M _ Hx). congruence.
      - destruct (ls_pid s) as [x|]; [rewrite (M x eq_refl) in K|]; exact K. }
    destruct ev as [d|d|d dur td es|[pid n ex tid o|tid n ex pid o|w]]; try discriminate.
    - destruct (merge_pid (ls_pid s) (de_pid d)) as [q|e|] eqn:M; cbn [rbind]; try discriminate.
      destruct (Hpid _ _ eq_refl M) as [P1 P2].
      destruct (Z.ltb_spec us (de_ts d)) as [Hts|Hts].
      + destruct (activity_stat_parse up al (EvX d dur td es)) as [st|e|] eqn:E;
          cbn [rtry]; try discriminate.
        destruct (insert (ls_acts s) st) as [[|e|] b] eqn:Ei; try discriminate.
        intros [= <-]. exists (FActivity st).
        apply activity_stat_ok in E.
        destruct E as (pid & tid & ts & name & a & dur' & act & [= -> -> -> ->] & Hp & Hn & Ha & ->).
        destruct I. constructor; cbn [ls_pid ls_acts ls_globals ls_process ls_thread];
          rewrite ?f_activities_app, ?f_globals_app, ?f_processes_app, ?f_threads_app; cbn [f_activities f_globals f_processes f_threads]; rewrite ?app_nil_r; auto.
        * apply Forall2_app; [assumption|]. constructor; [|constructor].
          constructor; auto.
        * apply accepted_snoc with (b := ls_acts s); assumption.
      + destruct (gstat_parse (EvX d dur td es)) as [[n g]|e|] eqn:E;
          cbn [rtry fst snd]; try discriminate.
        destruct (lookup n (ls_globals s)) eqn:El; try discriminate.
        intros [= <-]. exists (FGlobal n g).
        apply gstat_ok in E; [|exact Hd].
        destruct E as (pid & tid & cnt & avg & f & a & dur' & [= -> -> -> ->] & Ht & H1 & H2 & H3 & ->).
        destruct I. constructor; cbn [ls_pid ls_acts ls_globals ls_process ls_thread];
          rewrite ?f_activities_app, ?f_globals_app, ?f_processes_app, ?f_threads_app; cbn [f_activities f_globals f_processes f_threads]; rewrite ?app_nil_r; auto.
        * apply Forall2_app; [assumption|]. constructor; [|constructor].
          econstructor; eauto.
        * congruence.
        * rewrite map_app. apply nodup_snoc. split; [assumption|].
          apply lookup_None in El. rewrite <- i_globals0. exact El.
    - destruct (merge_pid (ls_pid s) pid) as [q|e|] eqn:M; cbn [rbind]; try discriminate.
      destruct (Hpid _ _ eq_refl M) as [P1 P2].
      destruct (parse_process_name _) as [nm|e|] eqn:E; cbn [rtry]; try discriminate.
      destruct (ls_process s) eqn:Ep; try discriminate.
      intros [= <-]. exists (FProcess nm).
      apply process_name_ok in E. destruct E as (pid' & tid' & [= -> -> -> -> ->] & Hp).
      destruct I. constructor; cbn [ls_pid ls_acts ls_globals ls_process ls_thread];
          rewrite ?f_activities_app, ?f_globals_app, ?f_processes_app, ?f_threads_app; cbn [f_activities f_globals f_processes f_threads]; rewrite ?app_nil_r; auto.
      * apply Forall2_app; [assumption|]. constructor; [|constructor]. constructor; auto.
      * rewrite i_proc0, Ep. reflexivity.
    - assert (Hq : forall q, match pid with Some p => merge_pid (ls_pid s) p | None => Ok (ls_pid s) end = Ok q ->
                   one_pid (evs ++ [EvM (ThreadName tid n ex pid o)]) /\
                   pid_known (evs ++ [EvM (ThreadName tid n ex pid o)]) q).
      { destruct pid as [p|]; [intros q; apply Hpid; reflexivity|]. intros q [= <-]. split.
        - apply (one_pid_snoc _ _ _ (i_one _ _ _ I) (i_pid _ _ _ I)). intros x y _ F. discriminate.
        - pose proof (pid_known_snoc evs (EvM (ThreadName tid n ex None o)) _ (i_pid _ _ _ I)) as K.
          simpl in K. destruct (ls_pid s); exact K. }
      destruct (match pid with Some p => merge_pid (ls_pid s) p | None => Ok (ls_pid s) end) as [q|e|];
        cbn [rbind]; try discriminate.
      destruct (Hq _ eq_refl) as [P1 P2].
      destruct (parse_thread_name _) as [nm|e|] eqn:E; cbn [rtry]; try discriminate.
      destruct (ls_thread s) eqn:Ep; try discriminate.
      intros [= <-]. exists (FThread nm).
      apply thread_name_ok in E. destruct E as (tid' & [= -> -> -> -> ->]).
      destruct I. constructor; cbn [ls_pid ls_acts ls_globals ls_process ls_thread];
          rewrite ?f_activities_app, ?f_globals_app, ?f_processes_app, ?f_threads_app; cbn [f_activities f_globals f_processes f_threads]; rewrite ?app_nil_r; auto.
      * apply Forall2_app; [assumption|]. constructor; [|constructor]. constructor; auto.
      * rewrite i_thread0, Ep. reflexivity.
  Qed.

  Lemma step_complete evs ks s ev k s' : Inv evs ks s -> distinct_event ev ->
    Inv (evs ++ [ev]) (ks ++ [k]) s' -> load_event us up al s ev = Ok s'.
  Proof.
    intros I Hd I'.
    assert (Hr : reads ev k).
    { pose proof (i_reads _ _ _ I') as F. apply Forall2_app_inv_l in F.
      destruct F as (l1 & l2 & F1 & F2 & E).
      inversion F2 as [|x y l l' Hxy Hl']; subst. inversion Hl'; subst.
      apply app_inj_tail in E. destruct E as [_ ->]. exact Hxy. }
    assert (Hpid : forall p, event_pid ev = Some p -> merge_pid (ls_pid s) p = Ok (Some p)).
    { intros p E. apply merge_pid_ok. split; [|reflexivity]. intros x Hx.
      eapply (proj1 (one_pid_snoc _ _ _ (i_one _ _ _ I) (i_pid _ _ _ I))); [apply (i_one _ _ _ I')|exact Hx|exact E]. }
    assert (Hstate : exists s2, load_event us up al s ev = Ok s2).
    { destruct Hr as [pid tid ts name a dur act Hts Hp Hn Ha|pid tid name cnt avg f a dur Hus Ht H1 H2 H3
                     |pid name tid Hp|tid name]; unfold load_event; cbn [de_pid de_ts].
      - rewrite (Hpid pid eq_refl). cbn [rbind].
        apply Z.ltb_lt in Hts. rewrite Hts.
        match goal with |- context [activity_stat_parse up al ?e] =>
          assert (E : activity_stat_parse up al e = Ok (mk_stat act ts dur)) end.
        { apply activity_stat_ok. exists pid, tid, ts, name, a, dur, act. auto. }
        rewrite E. cbn [rtry].
        pose proof (i_acts _ _ _ I') as B. rewrite f_activities_app in B. cbn [f_activities] in B.
        apply (accepted_snoc _ _ _ _ (i_acts _ _ _ I)) in B. rewrite B. eexists; reflexivity.
      - rewrite (Hpid pid eq_refl). cbn [rbind].
        assert (L : (us <? 0)%Z = false) by (apply Z.ltb_ge; lia). rewrite L.
        match goal with |- context [gstat_parse ?e] =>
          assert (E : gstat_parse e = Ok (name, mk_gs dur f)) end.
        { apply gstat_ok; [exact Hd|]. exists pid, tid, cnt, avg, f, a, dur. repeat split; auto. }
        rewrite E. cbn [rtry fst snd].
        pose proof (i_nodup _ _ _ I') as B. rewrite f_globals_app, map_app in B. cbn [f_globals map fst] in B.
        apply nodup_snoc in B. destruct B as [_ B]. rewrite <- (i_globals _ _ _ I) in B.
        apply lookup_None in B. rewrite B. eexists; reflexivity.
      - rewrite (Hpid pid eq_refl). cbn [rbind].
        match goal with |- context [parse_process_name ?e] =>
          assert (E : parse_process_name e = Ok name) end.
        { apply process_name_ok. exists pid, tid. auto. }
        rewrite E. cbn [rtry].
        pose proof (i_proc _ _ _ I') as B. rewrite f_processes_app, (i_proc _ _ _ I) in B.
        destruct (ls_process s); [|eexists; reflexivity].
        destruct (ls_process s'); cbn in B; discriminate.
      - rewrite (Hpid tid eq_refl). cbn [rbind].
        match goal with |- context [parse_thread_name ?e] =>
          assert (E : parse_thread_name e = Ok name) end.
        { apply thread_name_ok. exists tid. auto. }
        rewrite E. cbn [rtry].
        pose proof (i_thread _ _ _ I') as B. rewrite f_threads_app, (i_thread _ _ _ I) in B.
        destruct (ls_thread s); [|eexists; reflexivity].
        destruct (ls_thread s'); cbn in B; discriminate. }
    destruct Hstate as [s2 E]. rewrite E. f_equal.
    destruct (step_sound _ _ _ _ _ I Hd E) as [k2 I2].
    assert (k2 = k).
    { assert (Hr2 : reads ev k2).
      { pose proof (i_reads _ _ _ I2) as F. apply Forall2_app_inv_l in F.
        destruct F as (l1 & l2 & F1 & F2 & E').
        inversion F2 as [|x y l l' Hxy Hl']; subst. inversion Hl'; subst.
        apply app_inj_tail in E'. destruct E' as [_ ->]. exact Hxy. }
      exact (reads_fun _ _ _ Hd Hr2 Hr). }
    subst k2. eapply inv_fun; eassumption.
  Qed.
End Load.

From Coq Require Import String Permutation.
From Verif Require Import Base Asylum_Model Tree_Model Tree_Spec Tree_Proofs Tree_Proofs2 Load_Model Load_Spec Load_Proofs Load_Proofs2 Load_Faults.
Local Open Scope list_scope.

Lemma pid_exists evs : exists q, pid_known evs q.
Proof.
  induction evs as [|e evs [q Hq]].
  - exists None. intros e [].
  - destruct q as [p|].
    + exists (Some p). destruct Hq as (x & Hx & Ex). exists x. simpl. auto.
    + destruct (event_pid e) as [p|] eqn:E.
      * exists (Some p). exists e. simpl. auto.
      * exists None. intros x [<-|Hx]; auto.
Qed.
Lemma olist_prefix {V} (a b : list V) o : a ++ b = olist o -> exists o', a = olist o'.
Proof.
  destruct a as [|x [|y a]]; intros H.
  - exists None. reflexivity.
  - exists (Some x). reflexivity.
  - destruct o; discriminate.
Qed.

Section Load.
  Variable us : Z.
  Variables up al : chr -> bool.
  Notation infer := (infer_from_detail up al).
  Notation reads := (reads us infer).
  Notation Inv := (Inv us up al).

  Lemma inv_prefix evs l ks ks' s' : Inv (evs ++ l) (ks ++ ks') s' -> length evs = length ks ->
    exists s, Inv evs ks s.
  Proof.
    intros [H1 H2 H3 H4 H5 H6 H7 H8] Hlen.
    apply Forall2_app_inv_l in H1. destruct H1 as (l1 & l2 & F1 & F2 & E).
    assert (l1 = ks /\ l2 = ks') as [-> ->].
    { apply Forall2_length in F1. rewrite F1 in Hlen. clear - E Hlen. revert l1 E Hlen.
      induction ks as [|k ks IH]; intros [|x l1] E Hlen; simpl in *; try discriminate; auto.
      injection E as -> E. injection Hlen as Hlen. destruct (IH _ E Hlen) as [-> ->]. auto. }
    rewrite f_activities_app in H4. unfold accepted in H4. rewrite insert_all_app in H4.
    destruct (insert_all b_new (f_activities ks)) as [[[]|[i r]] b] eqn:Ei; [|discriminate].
    rewrite f_processes_app in H7. rewrite f_threads_app in H8.
    apply olist_prefix in H7, H8. destruct H7 as [op H7], H8 as [ot H8].
    destruct (pid_exists evs) as [q Hq].
    exists (mk_ls b (f_globals ks) op ot q). constructor; simpl; auto.
    - intros e1 e2 p1 p2 I1 I2. apply H2; apply in_or_app; auto.
    - rewrite f_globals_app, map_app in H6. clear - H6.
      induction (map fst (f_globals ks)) as [|x m IH]; simpl in *; [constructor|].
      inversion H6 as [|? ? Hn Hm]; subst. constructor; [|auto]. intros Hx; apply Hn, in_or_app; auto.
  Qed.

  Lemma load_events_iff l : forall evs ks s s', Inv evs ks s -> Forall distinct_event l ->
    (load_events us up al s l = Ok s' <-> exists ks', Inv (evs ++ l) (ks ++ ks') s').
  Proof.
    induction l as [|ev l IH]; intros evs ks s s' I Hd; cbn [load_events].
    - rewrite app_nil_r. split.
      + intros [= <-]. exists []. rewrite app_nil_r. exact I.
      + intros [ks' I'].
        assert (ks' = []).
        { pose proof (Forall2_length _ _ _ (i_reads _ _ _ _ _ _ I)) as L1.
          pose proof (Forall2_length _ _ _ (i_reads _ _ _ _ _ _ I')) as L2.
          rewrite app_length in L2. destruct ks'; [reflexivity|simpl in L2; lia]. }
        subst ks'. rewrite app_nil_r in I'. f_equal. eapply inv_fun; eassumption.
    - inversion Hd as [|? ? Hd1 Hd2]; subst. split.
      + destruct (load_event us up al s ev) as [s1|e|] eqn:E; cbn [rbind]; try discriminate.
        intros H. destruct (step_sound us up al _ _ _ _ _ I Hd1 E) as [k I1].
        apply (IH _ _ _ _ I1 Hd2) in H. destruct H as [ks' I'].
        exists (k :: ks'). rewrite <- !app_assoc in I'. exact I'.
      + intros [ks' I'].
        pose proof (Forall2_length _ _ _ (i_reads _ _ _ _ _ _ I)) as L1.
        destruct ks' as [|k ks'].
        { exfalso. pose proof (Forall2_length _ _ _ (i_reads _ _ _ _ _ _ I')) as L2.
          rewrite !app_length in L2. simpl in L2. lia. }
        change (ev :: l) with ([ev] ++ l) in I'. change (k :: ks') with ([k] ++ ks') in I'.
        rewrite !app_assoc in I'.
        destruct (inv_prefix _ _ _ _ _ I') as [s1 I1]; [rewrite !app_length; simpl; lia|].
        rewrite (step_complete us up al _ _ _ _ _ _ I Hd1 I1). cbn [rbind].
        apply (IH _ _ _ _ I1 Hd2). exists ks'. exact I'.
  Qed.

  (** The whole of loading *)
  Definition read_trace (td : trace_data) (ct : clang_trace) : Prop :=
    td_plain td = true /\ bot_reads (td_extra td) (ct_bot ct) /\
    one_pid (td_events td) /\
    (forall p, ct_pid ct = Some p <-> (1 < p)%Z /\ exists e, In e (td_events td) /\ event_pid e = Some p) /\
    exists ks, Forall2 reads (td_events td) ks /\
      tree_of (f_activities ks) (ct_activities ct) /\
      ct_globals ct = f_globals ks /\ NoDup (map fst (f_globals ks)) /\
      f_processes ks = [ct_process ct] /\
      f_threads ks = match ct_thread ct with Some t => [t] | None => [] end.

  Lemma pid_field td q : pid_known (td_events td) q -> one_pid (td_events td) -> forall p,
    (match q with Some p => if Z.ltb 1 p then Some p else None | None => None end) = Some p <->
    (1 < p)%Z /\ exists e, In e (td_events td) /\ event_pid e = Some p.
  Proof.
    intros Hq Ho p. destruct q as [x|]; simpl in Hq.
    - destruct (Z.ltb_spec 1 x) as [Hx|Hx]; split.
      + intros [= <-]. auto.
      + intros [_ (e & Hin & He)]. destruct Hq as (e0 & Hin0 & He0).
        rewrite (Ho _ _ _ _ Hin0 Hin He0 He). reflexivity.
      + discriminate.
      + intros [Hp (e & Hin & He)]. destruct Hq as (e0 & Hin0 & He0).
        pose proof (Ho _ _ _ _ Hin0 Hin He0 He). lia.
    - split; [discriminate|]. intros [_ (e & Hin & He)]. rewrite (Hq _ Hin) in He. discriminate.
  Qed.

  Lemma from_data_iff td ct : distinct_data td ->
    (from_data us up al td = Ok ct <-> read_trace td ct).
  Proof.
    intros Hd. unfold from_data, read_trace, bot_reads. split.
    - destruct (td_plain td); cbn [negb]; [|discriminate].
      match goal with |- rbind ?x _ = _ -> _ => destruct x as [bot|e|] eqn:Eb end; cbn [rbind]; try discriminate.
      destruct (td_events td) as [|ev0 evs] eqn:Ee; [discriminate|]. rewrite <- Ee. clear ev0 evs Ee.
      destruct (load_events us up al ls_init (td_events td)) as [s|e|] eqn:El; cbn [rbind]; try discriminate.
      apply (load_events_iff _ [] [] _ _ (inv_init us up al) Hd) in El. destruct El as [ks I]. cbn [app] in I.
      destruct (ls_process s) as [name|] eqn:Ep; [|discriminate].
      destruct (build (ls_acts s)) as [t|] eqn:Et; [|discriminate].
      intros [= <-]. cbn [ct_activities ct_globals ct_process ct_pid ct_thread ct_bot].
      split; [reflexivity|]. split.
      { destruct (lookup _ (td_extra td)) as [v|]; [|congruence].
        destruct (as_f64 v) as [f|]; [|discriminate]. exists f. split; [reflexivity|congruence]. }
      destruct I as [H1 H2 H3 H4 H5 H6 H7 H8].
      split; [exact H2|]. split; [apply pid_field; assumption|].
      exists ks. split; [exact H1|]. split; [exists (ls_acts s); auto|]. split; [exact H5|].
      split; [exact H6|]. split; [rewrite H7, Ep; reflexivity|]. exact H8.
    - intros (-> & Hb & Ho & Hpid & ks & H1 & (b & Hacc & Hbuild) & H3 & H4 & H5 & H6). cbn [negb].
      assert (Eb : match lookup (of_string "beginningOfTime") (td_extra td) with
             | Some v => match as_f64 v with
                         | Some f => Ok (Some f)
                         | None => Err (InvalidBeginningOfTime v)
                         end
             | None => Ok None
             end = Ok (ct_bot ct)).
      { destruct (lookup _ (td_extra td)) as [v|]; [|rewrite Hb; reflexivity].
        destruct Hb as (f & -> & ->). reflexivity. }
      rewrite Eb. cbn [rbind].
      destruct (pid_exists (td_events td)) as [q Hq].
      set (s := mk_ls b (f_globals ks) (Some (ct_process ct)) (ct_thread ct) q).
      assert (I : Inv (td_events td) ks s) by (constructor; auto).
      assert (El : load_events us up al ls_init (td_events td) = Ok s).
      { apply (load_events_iff _ [] [] _ _ (inv_init us up al) Hd). exists ks. exact I. }
      destruct (td_events td) as [|ev0 evs] eqn:Ee.
      { inversion H1; subst. discriminate. }
      rewrite El. cbn [rbind s ls_process ls_acts ls_globals ls_pid ls_thread]. rewrite Hbuild.
      f_equal. destruct ct as [ta g pn pd th bt]; cbn in *. f_equal; auto.
      pose proof (pid_field td q) as K. rewrite Ee in K. specialize (K Hq Ho).
      destruct pd as [p|].
      + apply K. apply Hpid. reflexivity.
      + match goal with |- ?x = None => destruct x as [p|] end; [|reflexivity].
        exfalso. assert (Ex : Some p = Some p) by reflexivity.
        apply K in Ex. apply Hpid in Ex. discriminate.
  Qed.

  (** Errors describe the first event that could not be taken in *)
  Lemma load_event_err evs ks s ev e : Inv evs ks s -> distinct_event ev ->
    load_event us up al s ev = Err e -> describes us infer evs ks ev e.
  Proof.
    intros I Hd. unfold load_event.
    assert (Hpid : forall p e, event_pid ev = Some p -> merge_pid (ls_pid s) p = Err e ->
              describes us infer evs ks ev e).
    { intros p e' E. pose proof (i_pid _ _ _ _ _ _ I) as Hq. destruct (ls_pid s) as [x|]; simpl; [|discriminate].
      destruct (Z.eqb_spec x p) as [|Hne]; [discriminate|]. intros [= <-]. simpl.
      split; [exact Hne|]. split; [exact E|]. exact Hq. }
    destruct ev as [d|d|d dur td es|[pid n ex tid o|tid n ex pid o|w]].
    - intros [= <-]. simpl. split; [reflexivity|]. exists d. auto.
    - intros [= <-]. simpl. split; [reflexivity|]. exists d. auto.
    - destruct (merge_pid (ls_pid s) (de_pid d)) as [q|e'|] eqn:M; cbn [rbind]; try discriminate;
        [|intros [= <-]; eapply Hpid; [|exact M]; reflexivity].
      destruct (Z.ltb_spec us (de_ts d)) as [Hts|Hts].
      + destruct (activity_stat_parse up al (EvX d dur td es)) as [st|e'|] eqn:E;
          cbn [rtry]; try discriminate.
        * destruct (insert (ls_acts s) st) as [[|te|] b] eqn:Ei; try discriminate.
          intros [= <-]. simpl. exists st, b. split.
          -- apply activity_stat_ok in E.
             destruct E as (pid & tid & ts & name & a & dur' & act & [= -> -> -> ->] & Hp & Hn & Ha & ->).
             constructor; auto.
          -- rewrite insert_all_app. pose proof (i_acts _ _ _ _ _ _ I) as Hacc. unfold accepted in Hacc.
             rewrite Hacc. cbn [insert_all]. rewrite Ei, Nat.add_0_r. reflexivity.
        * intros [= <-]. cbn [describes]. split; [eapply activity_stat_err; eassumption|]. split; [exists d, dur, td, es; auto|]. intros k Hk.
          apply (reads_code us up al _ _ Hd) in Hk. destruct k; try contradiction.
          -- destruct Hk as [_ Hk]. congruence.
          -- destruct Hk as [Hk _]. lia.
      + destruct (gstat_parse (EvX d dur td es)) as [[n g]|e'|] eqn:E;
          cbn [rtry fst snd]; try discriminate.
        * destruct (lookup n (ls_globals s)) as [old|] eqn:El; try discriminate.
          intros [= <-]. simpl. split.
          -- apply lookup_In in El. rewrite (i_globals _ _ _ _ _ _ I) in El.
             clear - El. induction ks as [|[] ks IH]; simpl in *; auto.
             destruct El as [[= -> ->]|El]; auto.
          -- apply gstat_ok in E; [|exact Hd].
             destruct E as (pid & tid & cnt & avg & f & a & dur' & [= -> -> -> ->] & Ht & H1 & H2 & H3 & ->).
             econstructor; eauto.
        * intros [= <-]. cbn [describes]. split; [eapply gstat_err; eassumption|]. split; [exists d, dur, td, es; auto|]. intros k Hk.
          apply (reads_code us up al _ _ Hd) in Hk. destruct k; try contradiction.
          -- destruct Hk as [Hk _]. lia.
          -- destruct Hk as [_ Hk]. congruence.
    - destruct (merge_pid (ls_pid s) pid) as [q|e'|] eqn:M; cbn [rbind]; try discriminate;
        [|intros [= <-]; eapply Hpid; [|exact M]; reflexivity].
      destruct (parse_process_name _) as [nm|e'|] eqn:E; cbn [rtry]; try discriminate.
      + destruct (ls_process s) as [old|] eqn:Ep; try discriminate.
        intros [= <-]. simpl. split.
        * pose proof (i_proc _ _ _ _ _ _ I) as Hp. rewrite Ep in Hp. simpl in Hp.
          clear - Hp. induction ks as [|[] ks IH]; simpl in *; try discriminate; auto.
          injection Hp as -> _. auto.
        * apply process_name_ok in E. destruct E as (pid' & tid' & [= -> -> -> -> ->] & Hp).
          constructor; auto.
      + assert (e' = NUnexpectedInput (ProcessName pid n ex tid o)).
        { clear - E. unfold parse_process_name in E.
          destruct o as [[ct|] [ts|] [tts|]]; try congruence. destruct (_ && _ && _ && _)%bool; congruence. }
        subst e'. intros [= <-]. simpl. split; [reflexivity|]. intros k Hk.
        apply (reads_code us up al _ _ Hd) in Hk. destruct k; try contradiction; [congruence|].
        apply thread_name_ok in Hk. destruct Hk as (? & [=]).
    - destruct (match pid with Some p => merge_pid (ls_pid s) p | None => Ok (ls_pid s) end) as [q|e'|] eqn:M;
        cbn [rbind]; try discriminate;
        [|intros [= <-]; destruct pid as [p|]; [eapply Hpid; [|exact M]; reflexivity|discriminate]].
      destruct (parse_thread_name _) as [nm|e'|] eqn:E; cbn [rtry]; try discriminate.
      + destruct (ls_thread s) as [old|] eqn:Ep; try discriminate.
        intros [= <-]. simpl. split.
        * pose proof (i_thread _ _ _ _ _ _ I) as Hp. rewrite Ep in Hp. simpl in Hp.
          clear - Hp. induction ks as [|[] ks IH]; simpl in *; try discriminate; auto.
          injection Hp as -> _. auto.
        * apply thread_name_ok in E. destruct E as (tid' & [= -> -> -> -> ->]).
          constructor; auto.
      + assert (e' = NUnexpectedInput (ThreadName tid n ex pid o)).
        { clear - E. unfold parse_thread_name in E.
          destruct o as [[ct|] [ts|] [tts|]]; try congruence. destruct (_ && _ && _ && _)%bool; congruence. }
        subst e'. intros [= <-]. simpl. split; [reflexivity|]. intros k Hk.
        apply (reads_code us up al _ _ Hd) in Hk. destruct k; try contradiction; [|congruence].
        apply process_name_ok in Hk. destruct Hk as (? & ? & [=] & _).
    - intros [= <-]. simpl. split; [reflexivity|]. exists w. reflexivity.
  Qed.

  Lemma load_event_boom evs ks s ev : Inv evs ks s ->
    load_event us up al s ev = Boom ->
    exists d dur, ev = EvX d dur None None /\ (us < de_ts d)%Z /\ only_detail (de_args d) [].
  Proof.
    intros I. unfold load_event.
    destruct ev as [d|d|d dur td es|[pid n ex tid o|tid n ex pid o|w]]; try discriminate.
    - destruct (merge_pid (ls_pid s) (de_pid d)) as [q|e'|] eqn:M; cbn [rbind]; try discriminate;
        [|destruct (merge_pid_boom _ _ M)].
      destruct (Z.ltb_spec us (de_ts d)) as [Hts|Hts].
      + destruct (activity_stat_parse up al (EvX d dur td es)) as [st|e'|] eqn:E;
          cbn [rtry]; try discriminate.
        * destruct (insert (ls_acts s) st) as [[|te|] b] eqn:Ei; try discriminate.
          destruct (accepted_no_panic _ _ _ _ (i_acts _ _ _ _ _ _ I) Ei).
        * intros _. apply activity_stat_boom in E. destruct E as (d' & dur' & [= -> -> -> ->] & Hx).
          exists d', dur'. auto.
      + destruct (gstat_parse (EvX d dur td es)) as [[n g]|e'|] eqn:E; cbn [rtry fst snd]; try discriminate.
        * destruct (lookup n (ls_globals s)); discriminate.
        * destruct (gstat_no_boom _ E).
    - destruct (merge_pid (ls_pid s) pid) as [q|e'|] eqn:M; cbn [rbind]; try discriminate;
        [|destruct (merge_pid_boom _ _ M)].
      destruct (parse_process_name _) as [nm|e'|] eqn:E; cbn [rtry]; try discriminate.
      + destruct (ls_process s); discriminate.
      + destruct (process_name_no_boom _ E).
    - destruct (match pid with Some p => merge_pid (ls_pid s) p | None => Ok (ls_pid s) end) as [q|e'|] eqn:M;
        cbn [rbind]; try discriminate;
        [|destruct pid; [destruct (merge_pid_boom _ _ M)|discriminate]].
      destruct (parse_thread_name _) as [nm|e'|] eqn:E; cbn [rtry]; try discriminate.
      + destruct (ls_thread s); discriminate.
      + destruct (thread_name_no_boom _ E).
  Qed.

  Lemma load_events_err l : forall evs ks s e, Inv evs ks s -> Forall distinct_event l ->
    load_events us up al s l = Err e ->
    exists pre ev post ks', l = pre ++ ev :: post /\ Forall2 reads (evs ++ pre) ks' /\
      describes us infer (evs ++ pre) ks' ev e.
  Proof.
    induction l as [|ev l IH]; intros evs ks s e I Hd; cbn [load_events]; [discriminate|].
    inversion Hd as [|? ? Hd1 Hd2]; subst.
    destruct (load_event us up al s ev) as [s1|e1|] eqn:E; cbn [rbind]; try discriminate.
    - intros H. destruct (step_sound us up al _ _ _ _ _ I Hd1 E) as [k I1].
      destruct (IH _ _ _ _ I1 Hd2 H) as (pre & ev' & post & ks' & -> & F & D).
      exists (ev :: pre), ev', post, ks'. rewrite <- !app_assoc in F, D. auto.
    - intros [= <-]. exists [], ev, l, ks. rewrite app_nil_r.
      split; [reflexivity|]. split; [apply (i_reads _ _ _ _ _ _ I)|].
      eapply load_event_err; eassumption.
  Qed.
  Lemma load_events_boom l : forall evs ks s, Inv evs ks s -> Forall distinct_event l ->
    load_events us up al s l = Boom ->
    exists d dur, In (EvX d dur None None) l /\ (us < de_ts d)%Z /\ only_detail (de_args d) [].
  Proof.
    induction l as [|ev l IH]; intros evs ks s I Hd; cbn [load_events]; [discriminate|].
    inversion Hd as [|? ? Hd1 Hd2]; subst.
    destruct (load_event us up al s ev) as [s1|e1|] eqn:E; cbn [rbind]; try discriminate.
    - intros H. destruct (step_sound us up al _ _ _ _ _ I Hd1 E) as [k I1].
      destruct (IH _ _ _ I1 Hd2 H) as (d & dur & Hin & Hx). exists d, dur. simpl. auto.
    - intros _. destruct (load_event_boom _ _ _ _ I E) as (d & dur & -> & Hx).
      exists d, dur. simpl. auto.
  Qed.

  Lemma from_data_boom td : distinct_data td -> from_data us up al td = Boom ->
    td_events td = [] \/
    exists d dur, In (EvX d dur None None) (td_events td) /\ (us < de_ts d)%Z /\ only_detail (de_args d) [].
  Proof.
    intros Hd. unfold from_data.
    destruct (td_plain td); cbn [negb]; [|discriminate].
    match goal with |- rbind ?x _ = _ -> _ => destruct x as [bot|e|] eqn:Eb end; cbn [rbind]; try discriminate.
    2: { destruct (lookup _ _) as [v|]; [destruct (as_f64 v)|]; discriminate. }
    destruct (td_events td) as [|ev0 evs] eqn:Ee; [auto|]. rewrite <- Ee in *. clear ev0 evs Ee.
    destruct (load_events us up al ls_init (td_events td)) as [s|e|] eqn:El; cbn [rbind]; try discriminate.
    - apply (load_events_iff _ [] [] _ _ (inv_init us up al) Hd) in El. destruct El as [ks I].
      destruct (ls_process s) as [name|]; [|discriminate].
      destruct (build_total _ _ _ (i_acts _ _ _ _ _ _ I)) as [t ->]. discriminate.
    - intros _. right. eapply load_events_boom; [apply inv_init|exact Hd|exact El].
  Qed.

  Lemma from_data_err td e : distinct_data td -> from_data us up al td = Err e ->
    (td_plain td = false /\ e = UnexpectedTraceMetadata) \/
    (exists v, lookup (of_string "beginningOfTime") (td_extra td) = Some v /\ as_f64 v = None /\
       e = InvalidBeginningOfTime v) \/
    (e = NoProcessName /\ exists ks, Forall2 reads (td_events td) ks /\ f_processes ks = []) \/
    (exists pre ev post ks, td_events td = pre ++ ev :: post /\ Forall2 reads pre ks /\
       describes us infer pre ks ev e).
  Proof.
    intros Hd. unfold from_data.
    destruct (td_plain td); cbn [negb]; [|intros [= <-]; auto].
    match goal with |- rbind ?x _ = _ -> _ => destruct x as [bot|e1|] eqn:Eb end; cbn [rbind]; try discriminate.
    2: { intros [= <-]. right. left. destruct (lookup _ _) as [v|]; [|discriminate].
         destruct (as_f64 v) eqn:Ev; [discriminate|]. injection Eb as <-. exists v. auto. }
    destruct (td_events td) as [|ev0 evs] eqn:Ee; [discriminate|]. rewrite <- Ee in *. clear ev0 evs Ee.
    destruct (load_events us up al ls_init (td_events td)) as [s|e1|] eqn:El; cbn [rbind]; try discriminate.
    - apply (load_events_iff _ [] [] _ _ (inv_init us up al) Hd) in El. destruct El as [ks I].
      destruct (ls_process s) as [name|] eqn:Ep; [destruct (build (ls_acts s)); discriminate|].
      intros [= <-]. right. right. left. split; [reflexivity|]. exists ks.
      split; [apply (i_reads _ _ _ _ _ _ I)|]. cbn [app] in I.
      rewrite (i_proc _ _ _ _ _ _ I), Ep. reflexivity.
    - intros [= <-]. right. right. right.
      destruct (load_events_err _ _ _ _ _ (inv_init us up al) Hd El) as (pre & ev & post & ks & E & F & D).
      exists pre, ev, post, ks. auto.
  Qed.
End Load.

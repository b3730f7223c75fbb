From Coq Require Import String Permutation.
From Verif Require Import Base Asylum_Model Asylum_Spec Tree_Model Tree_Spec Tree_Proofs Tree_Proofs2 Load_Model Load_Spec Load_Proofs Load_Proofs2 Load_Proofs3.
Local Open Scope list_scope.

(** ** Map order *)
Definition alike {E V} (r r' : res E V) : Prop :=
  (forall v, r = Ok v -> r' = Ok v) /\ (r = Boom -> r' = Boom).
Lemma alike_bind {E V W} (r r' : res E V) (f : V -> res E W) g :
  alike r r' -> (forall v, alike (f v) (g v)) -> alike (rbind r f) (rbind r' g).
Proof.
  intros [H1 H2] Hf. split.
  - intros w. destruct r as [v|e|]; cbn [rbind]; try discriminate. rewrite (H1 v eq_refl). apply Hf.
  - destruct r as [v|e|]; cbn [rbind]; try discriminate.
    + rewrite (H1 v eq_refl). apply Hf.
    + rewrite (H2 eq_refl). reflexivity.
Qed.
Lemma alike_try {E1 E V W} (c c' : E1 -> E) (r r' : res E1 V) (f g : V -> res E W) :
  alike r r' -> (forall v, alike (f v) (g v)) -> alike (rtry c r f) (rtry c' r' g).
Proof.
  intros [H1 H2] Hf. split.
  - intros w. destruct r as [v|e|]; cbn [rtry]; try discriminate. rewrite (H1 v eq_refl). apply Hf.
  - destruct r as [v|e|]; cbn [rtry]; try discriminate.
    + rewrite (H1 v eq_refl). apply Hf.
    + rewrite (H2 eq_refl). reflexivity.
Qed.
Lemma alike_refl {E V} (r : res E V) : alike r r.
Proof. split; auto. Qed.
Lemma alike_err {E V} e (r : res E V) : alike (Err e) r.
Proof. split; discriminate. Qed.

Lemma same_no_args a b : same_omap a b -> no_args a -> no_args b.
Proof.
  unfold no_args. intros H [->| ->]; destruct b as [b|]; simpl in H; try contradiction; auto.
  destruct H as [_ H]. apply Permutation_nil in H. subst. auto.
Qed.
Lemma same_detail a b d : same_omap a b -> only_detail a d -> only_detail b d.
Proof.
  unfold only_detail. intros H ->. destruct b as [b|]; simpl in H; try contradiction.
  destruct H as [_ H]. apply Permutation_length_1_inv in H. subst. reflexivity.
Qed.
Lemma same_reads infer name a b r : same_omap a b ->
  argument_reads infer name a r -> argument_reads infer name b r.
Proof.
  intros H [t Ht Hnd Ha|t d Ht Hnd Ha Hd|t d Ht Hnd Hac Ha|Ht Ha|d t Ht Ha Hd Hi].
  - apply known_none; auto. eapply same_no_args; eassumption.
  - apply known_needed; auto. eapply same_detail; eassumption.
  - apply known_optional; auto. eapply same_detail; eassumption.
  - apply unknown_none; auto. eapply same_no_args; eassumption.
  - eapply unknown_some; eauto. eapply same_detail; eassumption.
Qed.
Lemma same_map_distinct a b : same_map a b -> distinct_keys b.
Proof. intros [H Hp]. eapply Permutation_NoDup; [apply Permutation_map, Hp|exact H]. Qed.

Section Load.
  Variable us : Z.
  Variables up al : chr -> bool.
  Notation infer := (infer_from_detail up al).

  Lemma same_activity name a b : same_omap a b ->
    alike (activity_parse up al name a) (activity_parse up al name b).
  Proof.
    intros H. split.
    - intros act Ha. apply activity_parse_ok in Ha. apply activity_parse_ok.
      destruct Ha as [H1 H2]. split; [exact H1|]. eapply same_reads; eassumption.
    - intros Ha. apply activity_parse_boom in Ha. apply activity_parse_boom.
      destruct Ha as [H1 H2]. split; [|exact H2]. eapply same_detail; eassumption.
  Qed.

  Lemma same_gargs a b : same_map a b -> alike (gargs_parse a) (gargs_parse b).
  Proof.
    intros H. pose proof (same_map_distinct _ _ H) as Hb. destruct H as [Ha Hp]. split.
    - intros [c f] E. pose proof E as E0.
      assert (X : exists f, gargs_parse a = Ok (c, f)) by (exists f; exact E).
      apply gargs_ok in X; [|exact Ha]. destruct X as (vc & vf & H1 & H2 & H3).
      assert (Hf : as_f64 vf = Some f).
      { apply perm2 in H3. destruct H3 as [-> | ->]; unfold gargs_parse in E0; simpl in E0;
          destruct (as_f64 vf); try congruence; rewrite H1 in E0; simpl in E0; congruence. }
      assert (H4 : Permutation b [(of_string "count", vc); (of_string "avg ms", vf)])
        by (eapply perm_trans; [apply Permutation_sym; exact Hp|exact H3]).
      apply perm2 in H4. unfold gargs_parse.
      destruct H4 as [-> | ->]; simpl; rewrite ?H1, ?Hf; simpl; rewrite ?H1, ?Hf; reflexivity.
    - intros E. destruct (gargs_no_boom _ _ _ E).
  Qed.

  Lemma same_load_event s ev ev' : same_event ev ev' ->
    alike (load_event us up al s ev) (load_event us up al s ev').
  Proof.
    intros H.
    destruct H as [d d' H|d d' H|d d' dur td es H|pid n x x' tid o H|tid n x x' pid o H|k];
      unfold load_event; try apply alike_err.
    - destruct H as (E1 & E2 & E3 & E4 & E5 & E6 & E7 & E8).
      destruct d as [pid tid ts nm ct tts a stk], d' as [pid' tid' ts' nm' ct' tts' a' stk'].
      cbn [de_pid de_tid de_ts de_name de_cat de_tts de_stack de_args] in *.
      subst pid' tid' ts' nm' ct' tts' stk'.
      apply alike_bind; [apply alike_refl|]. intros q.
      destruct (Z.ltb us ts).
      + apply alike_try; [|intros st; destruct (insert (ls_acts s) st) as [[| |] b]; apply alike_refl].
        cbn [activity_stat_parse]. destruct nm as [nm|], ct, tts, stk, td, es; try apply alike_err.
        destruct ((Z.eqb pid 1 && Z.eqb tid 0) || Z.eqb tid pid)%bool; [|apply alike_err].
        apply alike_try; [apply same_activity; exact E8|intros; apply alike_refl].
      + apply alike_try; [|intros st; apply alike_refl].
        cbn [gstat_parse]. destruct nm as [nm|], ct, tts, a as [a|], stk, td, es; try apply alike_err.
        destruct a' as [a'|]; [|contradiction]. simpl in E8.
        destruct (negb (tid =? 0)%Z && (ts =? 0)%Z)%bool; [|apply alike_err].
        destruct (strip_prefix k_total nm) as [r|]; [|apply alike_err].
        apply alike_try; [apply same_gargs; exact E8|intros; apply alike_refl].
    - apply alike_bind; [apply alike_refl|]. intros q. apply alike_try; [|intros; apply alike_refl].
      unfold parse_process_name. destruct o as [[ct|] [ts|] [tts|]]; try apply alike_err.
      destruct x as [|y x]; [|apply alike_err]. destruct H as [_ H]. apply Permutation_nil in H. subst.
      destruct (_ && _)%bool; [apply alike_refl|apply alike_err].
    - apply alike_bind; [apply alike_refl|]. intros q. apply alike_try; [|intros; apply alike_refl].
      unfold parse_thread_name. destruct o as [[ct|] [ts|] [tts|]]; try apply alike_err.
      destruct x as [|y x]; [|apply alike_err]. destruct H as [_ H]. apply Permutation_nil in H. subst.
      destruct (_ && _)%bool; [apply alike_refl|apply alike_err].
  Qed.

  Lemma same_load_events l l' : Forall2 same_event l l' -> forall s,
    alike (load_events us up al s l) (load_events us up al s l').
  Proof.
    induction 1 as [|ev ev' l l' H Hl IH]; intros s; cbn [load_events]; [apply alike_refl|].
    apply alike_bind; [apply same_load_event; exact H|exact IH].
  Qed.

  Lemma same_from_data td td' : same_data td td' ->
    alike (from_data us up al td) (from_data us up al td').
  Proof.
    intros (E1 & [Hd Hp] & E3). unfold from_data. rewrite <- E1.
    destruct (td_plain td); cbn [negb]; [|apply alike_err].
    rewrite <- (lookup_perm _ _ _ Hd Hp).
    apply alike_bind; [apply alike_refl|]. intros bot.
    destruct E3 as [|ev ev' l l' H Hl]; [apply alike_refl|].
    apply alike_bind; [apply same_load_events; constructor; assumption|]. intros s. apply alike_refl.
  Qed.

  Lemma same_sym td td' : same_data td td' -> same_data td' td.
  Proof.
    assert (M : forall a b, same_map a b -> same_map b a).
    { intros a b H. split; [eapply same_map_distinct; exact H|apply Permutation_sym, H]. }
    assert (O : forall a b, same_omap a b -> same_omap b a) by (intros [a|] [b|]; simpl; auto).
    assert (D : forall d d', same_de d d' -> same_de d' d).
    { intros d d' (E1 & E2 & E3 & E4 & E5 & E6 & E7 & E8). repeat split; auto. }
    intros (E1 & E2 & E3). split; [auto|]. split; [auto|].
    induction E3 as [|ev ev' l l' H Hl IH]; constructor; [|exact IH].
    destruct H; constructor; auto.
  Qed.
End Load.

(** ** Parsing arguments for display *)
Section ParseArg.
  Variable EK : Type.
  Variable parse_entity : str -> outcome (option EK).
  Variable demangle : str -> option str.
  Variable comp_hash : str -> N.
  Variable seq_hash : list key -> N.
  Variable probe : N -> N -> bool.
  Variables cw w lb : N.
  Notation parse_arg := (parse_arg EK parse_entity demangle comp_hash seq_hash probe cw w lb).

  Lemma parse_arg_file d st :
    parse_arg (mk_raw TyFilePathOrModule (Some d)) st =
    if str_eqb d k_module then (Ok PModule, st)
    else match pi_intern comp_hash seq_hash probe cw w lb st d with
         | (Ret (PKey k), st') => (Ok (PFilePath k), st')
         | (_, st') => (Boom, st')
         end.
  Proof.
    unfold Load_Model.parse_arg, intern_path. cbn [ra_type ra_detail].
    destruct (str_eqb d k_module); [reflexivity|].
    destruct (pi_intern _ _ _ _ _ _ _ _) as [[[k|p]|] st']; reflexivity.
  Qed.

  Lemma parse_arg_boom r st : well_formed_arg r -> fst (parse_arg r st) = Boom ->
    (exists d, ra_type r = TyFilePathOrModule /\ ra_detail r = Some d /\
       (fst (pi_intern comp_hash seq_hash probe cw w lb st d) = Panic \/
        d <> of_string "[module]" /\ path_has_root d = false)) \/
    (exists s, parse_entity s = Panic).
  Proof.
    destruct r as [ty [d|]]; unfold well_formed_arg; cbn [ra_type ra_detail]; intros [W1 W2].
    - destruct ty; unfold Load_Model.parse_arg; cbn [ra_type ra_detail fst]; try discriminate.
      + exfalso. apply W2; [discriminate|reflexivity].
      + destruct (str_eqb_spec d k_module) as [->|Hne]; [discriminate|].
        unfold intern_path. intros H. left. exists d. split; [reflexivity|]. split; [reflexivity|].
        destruct (path_has_root d) eqn:Er; [left|right; auto].
        unfold pi_intern in *. unfold path_is_relative in *. rewrite Er in *. cbn [negb] in *.
        destruct (pi_loop _ _ _ _ _ _) as [[[[]|] cs] e]; cbn [fst] in *; [|reflexivity].
        destruct (en_intern _ _ _ _ _ _) as [[k|] sq]; cbn [fst] in *; [discriminate|reflexivity].
      + unfold parse_entity_arg. destruct (parse_entity d) as [[e|]|] eqn:E; try discriminate. eauto.
      + unfold parse_symbol. set (sy := match d with 40%N :: _ => _ | _ => _ end).
        destruct (demangle sy) as [s|].
        * unfold parse_demangled. destruct (parse_entity s) as [[e|]|] eqn:E; try discriminate. eauto.
        * destruct (_ || _)%bool; [|discriminate].
          unfold parse_demangled. destruct (parse_entity sy) as [[e|]|] eqn:E; try discriminate. eauto.
      + unfold parse_symbol. set (sy := match d with 40%N :: _ => _ | _ => _ end).
        destruct (demangle sy) as [s|].
        * unfold parse_demangled. destruct (parse_entity s) as [[e|]|] eqn:E; try discriminate. eauto.
        * destruct (_ || _)%bool; [|discriminate].
          unfold parse_demangled. destruct (parse_entity sy) as [[e|]|] eqn:E; try discriminate. eauto.
      + unfold parse_unnamed_loop. destruct (str_eqb d k_loop); discriminate.
      + unfold parse_unnamed_loop. destruct (str_eqb d k_loop); discriminate.
    - destruct ty; unfold Load_Model.parse_arg; cbn [ra_type ra_detail fst]; try discriminate;
        exfalso; apply W1; reflexivity || exact I.
  Qed.
End ParseArg.

(** ** Direct consequences of the characterisation of loading *)
Lemma f_globals_In n g ks : In (n, g) (f_globals ks) <-> In (FGlobal n g) ks.
Proof. induction ks as [|[] ks IH]; simpl; try tauto; rewrite IH; intuition congruence. Qed.
Lemma f_activities_In s ks : In s (f_activities ks) <-> In (FActivity s) ks.
Proof. induction ks as [|[] ks IH]; simpl; try tauto; rewrite IH; intuition congruence. Qed.
Lemma f_processes_In n ks : In n (f_processes ks) <-> In (FProcess n) ks.
Proof. induction ks as [|[] ks IH]; simpl; try tauto; rewrite IH; intuition congruence. Qed.
Lemma f_threads_In n ks : In n (f_threads ks) <-> In (FThread n) ks.
Proof. induction ks as [|[] ks IH]; simpl; try tauto; rewrite IH; intuition congruence. Qed.
Lemma Forall2_In_l {X Y} (R : X -> Y -> Prop) l m x : Forall2 R l m -> In x l -> exists y, In y m /\ R x y.
Proof. induction 1 as [|a b l m H Hl IH]; simpl; [tauto|]. intros [<-|Hin]; [eauto|]. destruct (IH Hin) as (y & ? & ?); eauto. Qed.
Lemma Forall2_In_r {X Y} (R : X -> Y -> Prop) l m y : Forall2 R l m -> In y m -> exists x, In x l /\ R x y.
Proof. induction 1 as [|a b l m H Hl IH]; simpl; [tauto|]. intros [<-|Hin]; [eauto|]. destruct (IH Hin) as (x & ? & ?); eauto. Qed.

Section Consequences.
  Variable us : Z.
  Variables up al : chr -> bool.
  Notation infer := (infer_from_detail up al).
  Notation reads := (reads us infer).

  Lemma names_name id name : names id name -> activity_name id = name.
  Proof. destruct id as [n|i]; simpl; [intros [-> _]; reflexivity|intros [t ->]; reflexivity]. Qed.

  Lemma timed_facts evs ks : Forall2 reads evs ks ->
    map (fun s => (Some (activity_name (a_id (s_act s))), s_start s, s_dur s)) (f_activities ks) =
    timed_events us evs.
  Proof.
    induction 1 as [|ev k evs ks H Hl IH]; [reflexivity|].
    destruct H as [pid tid ts name a dur act Hts Hp Hn Ha|pid tid name cnt avg f a dur Hus Ht H1 H2 H3
                     |pid name tid Hp|tid name]; cbn [f_activities timed_events map de_ts de_name s_act s_start s_dur].
    - apply Z.ltb_lt in Hts. rewrite Hts, IH, (names_name _ _ Hn). reflexivity.
    - assert (L : (us <? 0)%Z = false) by (apply Z.ltb_ge; lia). rewrite L. exact IH.
    - exact IH.
    - exact IH.
  Qed.

  Lemma map_snd_combine {X} (xs : list X) n : map snd (combine (seq n (length xs)) xs) = xs.
  Proof. revert n; induction xs as [|x xs IH]; intros n; simpl; [|rewrite IH]; reflexivity. Qed.

  Lemma loaded_activities td ct : distinct_data td -> from_data us up al td = Ok ct ->
    map (fun e => (Some (activity_name (a_id (s_act (snd e)))), s_start (snd e), s_dur (snd e)))
        (all_activities (ct_activities ct)) = timed_events us (td_events td).
  Proof.
    intros Hd H. apply from_data_iff in H; [|exact Hd].
    destruct H as (_ & _ & _ & _ & ks & H1 & H2 & _).
    rewrite <- (timed_facts _ _ H1).
    destruct (all_listed _ _ _ H2) as [-> _].
    rewrite <- (map_map snd (fun s => (Some (activity_name (a_id (s_act s))), s_start s, s_dur s))).
    rewrite map_snd_combine. reflexivity.
  Qed.

  Lemma loaded_args td ct : distinct_data td -> from_data us up al td = Ok ct ->
    forall i s, In (i, s) (all_activities (ct_activities ct)) -> well_formed_arg (a_arg (s_act s)).
  Proof.
    intros Hd H i s Hin. apply from_data_iff in H; [|exact Hd].
    destruct H as (_ & _ & _ & _ & ks & H1 & H2 & _).
    destruct (all_listed _ _ _ H2) as [E _]. rewrite E in Hin. apply in_combine_r in Hin.
    apply f_activities_In in Hin. destruct (Forall2_In_r _ _ _ _ H1 Hin) as (ev & _ & Hr).
    inversion Hr; subst. simpl. eapply argument_reads_wf; eassumption.
  Qed.

  Lemma loaded_globals td ct : distinct_data td -> from_data us up al td = Ok ct ->
    forall n g, lookup n (ct_globals ct) = Some g <->
      exists d, In (EvX d (gs_dur g) None None) (td_events td) /\ (de_ts d <= us)%Z /\
        de_name d = Some (of_string "Total " ++ n) /\ reports_count d (gs_count g).
  Proof.
    intros Hd H n g. apply from_data_iff in H; [|exact Hd].
    destruct H as (_ & _ & _ & _ & ks & H1 & _ & -> & Hnd & _).
    rewrite (lookup_iff _ _ _ Hnd), f_globals_In. split.
    - intros Hin. destruct (Forall2_In_r _ _ _ _ H1 Hin) as (ev & Hev & Hr).
      inversion Hr as [|pid tid name cnt avg f a dur Hus Ht K1 K2 K3| |]; subst.
      eexists; split; [exact Hev|]. cbn [de_ts de_name]. split; [exact Hus|]. split; [reflexivity|].
      exists a, cnt. split; [reflexivity|]. split; [|exact K1].
      apply (Permutation_in _ (Permutation_sym K3)). left. reflexivity.
    - intros (d & Hin & Hts & Hn & a & v & Ha & Hv & Hc).
      destruct (Forall2_In_l _ _ _ _ H1 Hin) as (k & Hk & Hr).
      inversion Hr as [pid tid ts name a' dur act Hts' Hp Hna Ha'|pid tid name cnt avg f a' dur Hus Ht K1 K2 K3| |]; subst.
      + cbn [de_ts] in Hts. lia.
      + cbn [de_name de_args] in *. injection Hn as ->.
        injection Ha as <-.
        assert (f = gs_count g).
        { apply (Permutation_in _ K3) in Hv. destruct Hv as [[= <-]|[Hv|[]]]; [congruence|discriminate]. }
        subst f. destruct g as [gd gc]. exact Hk.
  Qed.

  Lemma loaded_names td ct : distinct_data td -> from_data us up al td = Ok ct ->
    (forall n, n = ct_process ct <-> exists pid x tid o, In (EvM (ProcessName pid n x tid o)) (td_events td)) /\
    (forall n, ct_thread ct = Some n <-> exists tid x pid o, In (EvM (ThreadName tid n x pid o)) (td_events td)).
  Proof.
    intros Hd H. apply from_data_iff in H; [|exact Hd].
    destruct H as (_ & _ & _ & _ & ks & H1 & _ & _ & _ & Hp & Ht). split; intros n.
    - assert (E : In n (f_processes ks) <-> n = ct_process ct) by (rewrite Hp; simpl; intuition congruence).
      rewrite <- E, f_processes_In. split.
      + intros Hin. destruct (Forall2_In_r _ _ _ _ H1 Hin) as (ev & Hev & Hr). inversion Hr; subst. eauto 10.
      + intros (pid & x & tid & o & Hin). destruct (Forall2_In_l _ _ _ _ H1 Hin) as (k & Hk & Hr).
        inversion Hr; subst. exact Hk.
    - assert (E : In n (f_threads ks) <-> ct_thread ct = Some n).
      { rewrite Ht. destruct (ct_thread ct); simpl; intuition congruence. }
      rewrite <- E, f_threads_In. split.
      + intros Hin. destruct (Forall2_In_r _ _ _ _ H1 Hin) as (ev & Hev & Hr). inversion Hr; subst. eauto 10.
      + intros (tid & x & pid & o & Hin). destruct (Forall2_In_l _ _ _ _ H1 Hin) as (k & Hk & Hr).
        inversion Hr; subst. exact Hk.
  Qed.

  (** Two different positions of the event list *)
  Lemma two_positions {X Y} (l : list X) (ks : list Y) (R : X -> Y -> Prop) a b c x y :
    Forall2 R l ks -> l = a ++ x :: b ++ y :: c ->
    exists ka kx kb ky kc, ks = ka ++ kx :: kb ++ ky :: kc /\ R x kx /\ R y ky.
  Proof.
    intros H ->. apply Forall2_app_inv_l in H. destruct H as (ka & r1 & _ & H & ->).
    inversion H as [|? kx ? r2 Hx H2]; subst.
    apply Forall2_app_inv_l in H2. destruct H2 as (kb & r3 & _ & H3 & ->).
    inversion H3 as [|? ky ? kc Hy H4]; subst.
    exists ka, kx, kb, ky, kc. auto.
  Qed.

  Lemma rejects td ct : distinct_data td -> from_data us up al td = Ok ct ->
    one_pid (td_events td) /\
    (forall a b c p1 n1 x1 t1 o1 p2 n2 x2 t2 o2,
       td_events td <> a ++ EvM (ProcessName p1 n1 x1 t1 o1) :: b ++ EvM (ProcessName p2 n2 x2 t2 o2) :: c) /\
    (forall a b c p1 n1 x1 t1 o1 p2 n2 x2 t2 o2,
       td_events td <> a ++ EvM (ThreadName p1 n1 x1 t1 o1) :: b ++ EvM (ThreadName p2 n2 x2 t2 o2) :: c) /\
    (forall a b c d1 u1 v1 w1 d2 u2 v2 w2, (de_ts d1 <= us)%Z -> (de_ts d2 <= us)%Z -> de_name d1 = de_name d2 ->
       td_events td <> a ++ EvX d1 u1 v1 w1 :: b ++ EvX d2 u2 v2 w2 :: c) /\
    (exists p n x t o, In (EvM (ProcessName p n x t o)) (td_events td)) /\
    (forall d, ~ In (EvB d) (td_events td) /\ ~ In (EvE d) (td_events td)) /\
    (forall k, ~ In (EvM (OtherMetadata k)) (td_events td)).
  Proof.
    intros Hd H. pose proof (loaded_names _ _ Hd H) as [Hn _].
    apply from_data_iff in H; [|exact Hd].
    destruct H as (_ & _ & Ho & _ & ks & H1 & _ & _ & Hnd & Hp & Ht).
    split; [exact Ho|]. split; [|split; [|split; [|split; [|split]]]].
    - intros a b c p1 n1 x1 t1 o1 p2 n2 x2 t2 o2 E.
      destruct (two_positions _ _ _ _ _ _ _ _ H1 E) as (ka & kx & kb & ky & kc & -> & R1 & R2).
      inversion R1; inversion R2; subst. rewrite f_processes_app in Hp. cbn [f_processes] in Hp.
      rewrite f_processes_app in Hp. cbn [f_processes] in Hp.
      destruct (f_processes ka) as [|z zs]; cbn in Hp.
      + injection Hp as _ Hp. destruct (f_processes kb); discriminate.
      + injection Hp as _ Hp. destruct zs; discriminate.
    - intros a b c p1 n1 x1 t1 o1 p2 n2 x2 t2 o2 E.
      destruct (two_positions _ _ _ _ _ _ _ _ H1 E) as (ka & kx & kb & ky & kc & -> & R1 & R2).
      inversion R1; inversion R2; subst. rewrite f_threads_app in Ht. cbn [f_threads] in Ht.
      rewrite f_threads_app in Ht. cbn [f_threads] in Ht.
      destruct (ct_thread ct); destruct (f_threads ka) as [|z zs]; cbn in Ht; try discriminate.
      + injection Ht as _ Ht. destruct (f_threads kb); discriminate.
      + injection Ht as _ Ht. destruct zs; discriminate.
    - intros a b c d1 u1 v1 w1 d2 u2 v2 w2 L1 L2 En E.
      destruct (two_positions _ _ _ _ _ _ _ _ H1 E) as (ka & kx & kb & ky & kc & -> & R1 & R2).
      inversion R1; inversion R2; subst; cbn [de_ts de_name] in *; try lia.
      injection En as ->.
      rewrite f_globals_app in Hnd. cbn [f_globals] in Hnd. rewrite f_globals_app in Hnd. cbn [f_globals] in Hnd.
      rewrite map_app in Hnd. cbn [map fst] in Hnd. apply NoDup_remove_2 in Hnd. apply Hnd.
      apply in_or_app. right. rewrite map_app. apply in_or_app. right. left. reflexivity.
    - destruct (Hn (ct_process ct)) as [Hx _]. destruct (Hx eq_refl) as (pid & x & tid & o & Hin). eauto 10.
    - intros d. split; intros Hin; destruct (Forall2_In_l _ _ _ _ H1 Hin) as (k & _ & Hr); inversion Hr.
    - intros k Hin. destruct (Forall2_In_l _ _ _ _ H1 Hin) as (k' & _ & Hr); inversion Hr.
  Qed.
End Consequences.

(** ** Guessed types *)
Lemma infer_fits up al d t : infer_from_detail up al d = Some t ->
  (t = TyFilePathOrModule -> absolute d \/ d = of_string "[module]") /\
  (t = TyUnnamedLoop -> d = of_string "<unnamed loop>") /\
  t <> TyNothing /\ t <> TySymbolOpt /\ t <> TyUnnamedLoopOpt.
Proof.
  unfold infer_from_detail.
  set (sy := match d with 40%N :: _ => _ | _ => _ end). clearbody sy.
  destruct (_ || _ || _ || _ || _)%bool.
  { intros [= <-]. repeat split; discriminate. }
  destruct (str_eqb_spec d k_loop) as [->|_].
  { intros [= <-]. repeat split; try discriminate. }
  destruct (path_has_root d || str_eqb d k_module)%bool eqn:E.
  { intros [= <-]. repeat split; try discriminate. intros _.
    apply orb_prop in E. destruct E as [E|E].
    - left. destruct d as [|c d]; [discriminate|]. simpl in E. apply N.eqb_eq in E. subst c. exists d. reflexivity.
    - right. apply str_eqb_eq in E. exact E. }
  destruct d as [|c d]; [discriminate|].
  destruct (negb (up c)); [intros [= <-]; repeat split; discriminate|].
  destruct (forallb _ _); intros [= <-]; repeat split; discriminate.
Qed.

Lemma infer_parses up al d t : infer_from_detail up al d = Some t ->
  forall EK pe dm comp_hash seq_hash probe cw w lb st r st',
  parse_arg EK pe dm comp_hash seq_hash probe cw w lb (mk_raw t (Some d)) st = (r, st') ->
  match r with
  | Ok _ => True
  | Err e => t = TyCppEntity /\ e = BadCppEntity d /\ pe d = Ret None
  | Boom => (exists s, pe s = Panic) \/ fst (pi_intern comp_hash seq_hash probe cw w lb st d) = Panic
  end.
Proof.
  intros Hi EK pe dm ch sh pr cw w lb st r st' H.
  pose proof (infer_needs up al _ _ Hi) as Hn.
  destruct (infer_fits _ _ _ _ Hi) as (F1 & F2 & _).
  destruct r as [v|e|]; [exact I| |].
  - destruct t; cbn in Hn; try contradiction.
    + discriminate.
    + rewrite parse_arg_file in H. destruct (str_eqb d k_module); [discriminate|].
      destruct (pi_intern _ _ _ _ _ _ _ _) as [[[k|q]|] s2]; discriminate.
    + unfold parse_arg, parse_entity_arg in H. cbn [ra_type ra_detail] in H.
      destruct (pe d) as [[x|]|] eqn:Ep; try discriminate. injection H as <- _. auto.
    + unfold parse_arg, parse_symbol in H. cbn [ra_type ra_detail] in H.
      set (sy := match d with 40%N :: _ => _ | _ => _ end) in H. clearbody sy.
      destruct (dm sy) as [z|].
      * unfold parse_demangled in H. destruct (pe z) as [[x|]|]; discriminate.
      * destruct (_ || _)%bool; [|discriminate].
        unfold parse_demangled in H. destruct (pe sy) as [[x|]|]; discriminate.
    + specialize (F2 eq_refl). subst d. discriminate.
  - assert (W : well_formed_arg (mk_raw t (Some d))).
    { split; cbn; [discriminate|]. intros _ ->. exact Hn. }
    assert (B : fst (parse_arg EK pe dm ch sh pr cw w lb (mk_raw t (Some d)) st) = Boom) by (rewrite H; reflexivity).
    destruct (parse_arg_boom EK pe dm ch sh pr cw w lb _ _ W B) as [(d' & E1 & E2 & [E3|[E3 E4]])|E]; auto.
    + cbn in E2. injection E2 as <-. auto.
    + cbn in E1, E2. injection E2 as <-. destruct (F1 E1) as [[rest ->]|Hm]; [discriminate|contradiction].
Qed.

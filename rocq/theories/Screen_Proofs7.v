(** * Proofs about the screen: executions *)

From Coq Require Import List PeanoNat NArith Bool Lia.
From Verif Require Import Screen_Model Screen_Spec Screen_Proofs Screen_Proofs2 Screen_Proofs3
  Screen_Proofs4 Screen_Proofs5 Screen_Proofs6.
Import ListNotations.
Local Open Scope nat_scope.

Lemma exec_reach W : well_labelled W -> forall evs s s',
  base s -> mode W s -> call_path (stack s) (profiles s) -> calm W s evs ->
  exec W s evs = Some (Running s') ->
  base s' /\ mode W s' /\ call_path (stack s') (profiles s').
Proof.
  intros WL. induction evs as [|e r IH]; intros s s' B M P C H; cbn [exec] in H.
  - injection H as <-. auto.
  - destruct C as [Q C]. destruct (step W s e) as [w'|] eqn:Es; [|discriminate].
    destruct w' as [s1| |]; try (destruct r; discriminate).
    pose proof (step_good W s e _ WL B M Q Es) as [B' M'].
    exact (IH s1 s' B' M' (step_path W s e s1 WL B M Q Es P) (C s1 eq_refl) H).
Qed.

Lemma reach W s0 evs s :
  well_labelled W -> initial s0 -> calm W s0 evs -> exec W s0 evs = Some (Running s) ->
  base s /\ mode W s /\ call_path (stack s) (profiles s).
Proof.
  intros WL I C H. destruct (initial_good W s0 I) as [B M].
  apply (exec_reach W WL evs s0 s B M); auto.
  destruct I as [E|E]; rewrite E; exact Logic.I.
Qed.

Lemma mirror W s0 evs s :
  well_labelled W -> initial s0 -> calm W s0 evs -> exec W s0 evs = Some (Running s) ->
  mirrors W s /\ call_path (stack s) (profiles s).
Proof.
  intros WL I C H. destruct (reach W s0 evs s WL I C H) as [B [M P]].
  split; [exact (mode_mirrors W s M)|exact P].
Qed.

Lemma no_crash W s0 evs :
  well_labelled W -> (forall l tr, W l = Some tr -> takes_time tr) ->
  initial s0 -> calm W s0 evs -> exec W s0 evs <> Some Crash.
Proof.
  intros WL T I C H. destruct (initial_good W s0 I) as [B M].
  destruct (exec_good W WL evs s0 Crash B M C H) as [l [tr [Wl N]]]. exact (N (T l tr Wl)).
Qed.

(** ** Escape *)

Lemma escape W s0 evs s :
  well_labelled W -> initial s0 -> calm W s0 evs -> exec W s0 evs = Some (Running s) ->
  exists s', step W s Esc = Some (Running s')
    /\ ((length (screen s) <= 1 \/ exists x, on_screen s x
             /\ ((exists l, x = LLoading l) \/ exists m, x = LMeasuring m))
        -> s' = s)
    /\ (1 < length (screen s) ->
        (forall x, on_screen s x -> match x with LLoading _ | LMeasuring _ => False | _ => True end) ->
        screen s' = tl (screen s)
        /\ stack s' = match screen s with LProfile _ :: _ => tl (stack s) | _ => stack s end).
Proof.
  intros WL I C H. destruct (reach W s0 evs s WL I C H) as [B [M P]].
  cbn [step]. eexists. split; [reflexivity|]. unfold exit_current_layer. split.
  - intros Hc. destruct (Nat.ltb_spec 1 (length (screen s))) as [L|L]; [|reflexivity].
    destruct Hc as [Hc|[x [Hx Hc]]]; [lia|].
    destruct (no_escape s) eqn:NE; [reflexivity|]. exfalso. unfold on_screen in Hx.
    destruct M as [d Pl St NE' R Ex Wt|l tr d tops profs bots Pr NE' Ex Wt
                  |l tops bots Sc Ct Pb Lb St NE' Nc Lt Wt Src
                  |m tops bots d Sc Ct Pb Lb St NE' R Src]; try congruence.
    + rewrite Forall_forall in Pl. specialize (Pl x Hx).
      destruct Hc as [[l ->]|[m ->]]; exact Pl.
    + destruct Pr as [Sc [Ne [To [Pb _]]]]. rewrite Sc in Hx.
      rewrite Forall_forall in To. rewrite Forall_forall in Pb.
      apply in_app_or in Hx. destruct Hx as [Hx|Hx].
      * specialize (To x Hx). destruct Hc as [[k ->]|[m ->]]; exact To.
      * apply in_app_or in Hx. destruct Hx as [Hx|Hx].
        -- apply in_map_iff in Hx. destruct Hx as [v [Ev _]].
           destruct Hc as [[k ->]|[m ->]]; discriminate.
        -- specialize (Pb x Hx). destruct Hc as [[k ->]|[m ->]]; exact Pb.
  - intros L N. destruct (Nat.ltb_spec 1 (length (screen s))) as [_|L']; [|lia].
    unfold on_screen in N.
    destruct M as [d Pl St NE' R Ex Wt|l tr d tops profs bots Pr NE' Ex Wt
                  |l tops bots Sc Ct Pb Lb St NE' Nc Lt Wt Src
                  |m tops bots d Sc Ct Pb Lb St NE' R Src].
    + rewrite NE'. destruct (_ =? _).
      * split; [reflexivity|]. cbn. rewrite St.
        destruct (screen s) as [|[| | | | | |v] r]; reflexivity.
      * split; [reflexivity|]. cbn. rewrite St.
        destruct (screen s) as [|[| | | | | |v] r]; reflexivity.
    + rewrite NE'. destruct Pr as [Sc [Ne [To [Pb [Lb [F _]]]]]].
      pose proof (Forall2_length _ _ _ F) as Len.
      rewrite Sc, !app_length, map_length, Len, <- Lb.
      destruct (Nat.eqb_spec (length tops + (length profs + length bots)) (length profs + length bots)) as [E|E].
      * destruct tops as [|x tops]; [|cbn in E; lia].
        destruct profs as [|v ps]; [congruence|]. split; [cbn; rewrite Sc; reflexivity|reflexivity].
      * destruct tops as [|x tops]; [cbn in E; lia|].
        split; [cbn; rewrite Sc; reflexivity|]. cbn.
        inversion To as [|x' tops' Hx To']; subst. destruct x; try reflexivity. destruct Hx.
    + exfalso. apply (N (LLoading l)). rewrite Sc. apply in_or_app. right. left. reflexivity.
    + exfalso. apply (N (LMeasuring m)). rewrite Sc. apply in_or_app. right. left. reflexivity.
Qed.

(** ** Backtrace *)

Lemma backtrace W s0 evs s n b r :
  well_labelled W -> initial s0 -> calm W s0 evs -> exec W s0 evs = Some (Running s) ->
  screen s = LDialog (Backtrace n b) :: r ->
  n = length (profiles s)
  /\ forall idx,
      (idx < n -> exists s' v, step W s (Jump idx) = Some (Running s')
         /\ profiles s' = skipn (n - S idx) (profiles s)
         /\ stack s' = skipn (n - S idx) (stack s)
         /\ nth_error (rev (profiles s)) idx = Some v
         /\ (exists l, screen s' = LProfile v :: l)
         /\ exists tops, screen s = tops ++ screen s')
      /\ (n <= idx -> step W s (Jump idx) = None).
Proof.
  intros WL I C H Sc0. destruct (reach W s0 evs s WL I C H) as [B [M P]].
  pose proof (mode_length W s M) as L.
  assert (Hn : n = length (profiles s)).
  { destruct (mode_cases W s M) as [[Ep Es]|[l [tr [d [tops [profs [bots [Pr _]]]]]]]].
    - exfalso. destruct M as [d Pl St NE' R Ex Wt|l tr d tops profs bots Pr NE' Ex Wt
                  |l tops bots Sc Ct Pb Lb St NE' Nc Lt Wt Src
                  |m tops bots d Sc Ct Pb Lb St NE' R Src].
      + rewrite Sc0 in Pl. inversion Pl; subst. assumption.
      + rewrite (views_profiling _ _ _ _ _ _ _ _ Pr) in Ep. destruct Pr as [_ [Ne _]]. contradiction.
      + destruct tops as [|x tops]; rewrite Sc0 in Sc; inversion Sc; subst. inversion Ct; subst. assumption.
      + destruct tops as [|x tops]; rewrite Sc0 in Sc; inversion Sc; subst. inversion Ct; subst. assumption.
    - rewrite (views_profiling _ _ _ _ _ _ _ _ Pr).
      destruct Pr as [Sc [Ne [To _]]]. destruct tops as [|x tops].
      + exfalso. destruct profs; [congruence|]. rewrite Sc0 in Sc. discriminate.
      + rewrite Sc0 in Sc. inversion Sc; subst. inversion To; subst. cbn in *. tauto. }
  split; [exact Hn|]. intros idx. cbn [step]. rewrite Sc0. split.
  - intros Hi. destruct (Nat.ltb_spec idx n) as [_|F]; [|lia].
    destruct (mode_jump W s idx n b r Sc0 Hi M) as [M' [[tops [profs [bots [E1 [E2 E3]]]]] [E4 E5]]].
    pose proof (mode_length W _ M') as L'.
    assert (Ep : profiles (jump s idx b) = skipn (n - S idx) (profiles s)).
    { destruct (views_suffix (screen (jump s idx b)) (screen s)) as [j Ej].
      { exists tops. rewrite E1. exact E3. }
      change (profiles (jump s idx b) = skipn j (profiles s)) in Ej.
      rewrite E4, Ej, !skipn_length in L'. rewrite Ej. f_equal. lia. }
    exists (jump s idx b). destruct profs as [|v ps]; [discriminate|]. exists v.
    split; [reflexivity|]. split; [exact Ep|]. split; [rewrite E4; f_equal; lia|].
    split; [|split; [exists (map LProfile ps ++ bots); exact E1|exists tops; rewrite <- Sc0, E1; exact E3]].
    assert (Eh : exists q, profiles (jump s idx b) = v :: q).
    { unfold profiles. rewrite E1. cbn. eexists. reflexivity. }
    destruct Eh as [q Eq]. rewrite Ep in Eq.
    rewrite <- (firstn_skipn (n - S idx) (profiles s)), Eq, rev_app_distr. cbn [rev].
    assert (Lq : length (rev q) = idx).
    { apply (f_equal (@length view)) in Eq. rewrite skipn_length in Eq. cbn in Eq.
      rewrite rev_length. lia. }
    rewrite <- app_assoc, nth_error_app2 by lia. rewrite Lq, Nat.sub_diag. reflexivity.
  - intros Hi. destruct (Nat.ltb_spec idx n) as [F|_]; [lia|reflexivity].
Qed.

(** ** Loads *)

Lemma only_load W s l tops l' bots :
  mode W s -> In (LLoading l) (screen s) ->
  screen s = tops ++ LLoading l' :: bots -> Forall cover tops -> Forall plain bots -> l = l'.
Proof.
  intros M H Sc Ct Pb. rewrite Sc in H. apply in_app_or in H.
  rewrite Forall_forall in Ct, Pb. destruct H as [H|[H|H]].
  - destruct (Ct _ H).
  - congruence.
  - destruct (Pb _ H).
Qed.

(** The load whose dialog is displayed. *)
Lemma loading_mode W s l : mode W s -> In (LLoading l) (screen s) ->
  ~ In l (canceled s)
  /\ ((exists th, nth_error (threads s) (cur s) = Some th /\ In l (t_queue th))
      \/ In (CLoaded l) (callbacks s)).
Proof.
  intros M H.
  destruct M as [d Pl St NE' R Ex Wt|k tr d tops profs bots Pr NE' Ex Wt
                |k tops bots Sc Ct Pb Lb St NE' Nc Lt Wt Src
                |m tops bots d Sc Ct Pb Lb St NE' R Src].
  - exfalso. rewrite Forall_forall in Pl. exact (Pl _ H).
  - exfalso. destruct Pr as [Sc [Ne [To [Pb _]]]]. rewrite Sc in H.
    rewrite Forall_forall in To, Pb. apply in_app_or in H. destruct H as [H|H]; [exact (To _ H)|].
    apply in_app_or in H. destruct H as [H|H]; [|exact (Pb _ H)].
    apply in_map_iff in H. destruct H as [v [Ev _]]. discriminate.
  - assert (l = k).
    { rewrite Sc in H. apply in_app_or in H. rewrite Forall_forall in Ct, Pb.
      destruct H as [H|[H|H]]; [destruct (Ct _ H)|congruence|destruct (Pb _ H)]. }
    subst k. split; [exact Nc|]. destruct Src as [[d [Ht _]]|[_ Ex]].
    + left. eexists. split; [exact Ht|]. left. reflexivity.
    + right. assert (G : In (CLoaded l) (expected s)) by (rewrite Ex; left; reflexivity).
      apply filter_In in G. apply G.
  - exfalso. rewrite Sc in H. apply in_app_or in H. rewrite Forall_forall in Ct, Pb.
    destruct H as [H|[H|H]]; [destruct (Ct _ H)|congruence|destruct (Pb _ H)].
Qed.

Lemma load_result W s0 evs s l r :
  well_labelled W -> initial s0 -> calm W s0 evs -> exec W s0 evs = Some (Running s) ->
  callbacks s = CLoaded l :: r ->
  (~ on_screen s (LLoading l)
   /\ exists s', step W s RunCallback = Some (Running s')
        /\ screen s' = screen s /\ stack s' = stack s)
  \/ exists tops bots,
      screen s = tops ++ LLoading l :: bots
      /\ (forall x, In x tops -> x = LInfo \/ exists d, x = LDialog d)
      /\ (forall x, In x bots -> match x with LProfile _ | LLoading _ | LMeasuring _ => False
                                            | _ => True end)
      /\ match W l with
         | None => exists s', step W s RunCallback = Some (Running s')
                     /\ screen s' = LInfo :: bots /\ stack s' = []
         | Some tr =>
             (step W s RunCallback = Some Crash /\ ~ takes_time tr)
             \/ exists s' v, step W s RunCallback = Some (Running s')
                  /\ screen s' = LProfile v :: bots
                  /\ p_src v = l /\ p_kind v = Hierarchical /\ p_rows v = map info tr
         end.
Proof.
  intros WL I C H Ec. destruct (reach W s0 evs s WL I C H) as [B [M P]].
  cbn [step]. rewrite Ec. cbn [run_callback].
  destruct (mem l (canceled s)) eqn:Em.
  - left. split.
    + intros F. destruct (loading_mode W s l M F) as [N _]. apply N. apply mem_In. exact Em.
    + unfold loaded. cbn [set_callbacks canceled]. rewrite Em. eexists. split; [reflexivity|]. auto.
  - right. assert (Nl : ~ In l (canceled s)) by (intros F; apply mem_In in F; congruence).
    destruct (loaded_live W s l r WL B M Ec Nl) as [tops [bots [Sc [Ct [Pb Hl]]]]].
    exists tops, bots. split; [exact Sc|]. rewrite Forall_forall in Ct, Pb. split; [|split].
    + intros x Hx. specialize (Ct x Hx). destruct x; try contradiction; eauto.
    + intros x Hx. specialize (Pb x Hx). destruct x; try exact Pb; exact Logic.I.
    + destruct Hl as [[-> [s' [E [_ [_ [S1 S2]]]]]]|[tr [-> [[E NT]|[s' [v [d [E [_ [_ [_ [_ [_ [S1 [S2 [S3 [S4 _]]]]]]]]]]]]]]]]].
      * rewrite E. exists s'. auto.
      * left. rewrite E. auto.
      * right. rewrite E. exists s', v. auto 6.
Qed.

Lemma load_pending W s0 evs s l :
  well_labelled W -> initial s0 -> calm W s0 evs -> exec W s0 evs = Some (Running s) ->
  on_screen s (LLoading l) ->
  (exists s', step W s (ThreadLoads (cur s)) = Some (Running s')
     /\ In (CLoaded l) (callbacks s'))
  \/ In (CLoaded l) (callbacks s).
Proof.
  intros WL I C H On. destruct (reach W s0 evs s WL I C H) as [B [M P]].
  destruct (loading_mode W s l M On) as [_ [[th [Ht Hl]]|Hc]]; [|right; exact Hc].
  left. 
  destruct M as [d Pl St NE' R Ex Wt|k tr d tops profs bots Pr NE' Ex Wt
                |k tops bots Sc Ct Pb Lb St NE' Nc Lt Wt Src
                |m tops bots d Sc Ct Pb Lb St NE' R Src].
  - unfold ready in R. rewrite R in Ht. injection Ht as <-. destruct Hl.
  - assert (R : ready s (Some k)) by apply Pr.
    unfold ready in R. rewrite R in Ht. injection Ht as <-. destruct Hl.
  - destruct Src as [[d [Ht' _]]|[R _]].
    + rewrite Ht' in Ht. injection Ht as <-. destruct Hl as [->|[]].
      cbn [step]. rewrite Ht'. cbn [load_next t_queue]. eexists. split; [reflexivity|].
      cbn. apply in_or_app. right. left. reflexivity.
    + unfold ready in R. rewrite R in Ht. injection Ht as <-. destruct Hl.
  - unfold ready in R. rewrite R in Ht. injection Ht as <-. destruct Hl.
Qed.

(** ** Cancelled loads, in all executions *)

Definition grows (s : state) (w : world) : Prop :=
  match w with Running s' => incl (canceled s) (canceled s') | _ => True end.

Lemma ask_canceled W s l tr s' : ask W s = Some (l, tr, s') -> canceled s' = canceled s.
Proof.
  unfold ask. destruct (nth_error (threads s) (cur s)) as [t|]; [|discriminate].
  destruct (load_all W (t_queue t) (t_data t)) as [k|]; [|discriminate].
  destruct (W k) as [x|]; [|discriminate]. intros H. injection H as _ _ <-. reflexivity.
Qed.

Lemma show_grows W s name norm rows src o k :
  grows s (show_profile W s name norm rows src o k).
Proof.
  unfold show_profile. destruct (match cfg_dd s with Some d => _ | None => _ end); [|exact I].
  cbn [bind]. destruct (ask W _) as [[[l tr] s1]|] eqn:Ea; [|exact I]. cbn [bind].
  destruct (negb (describable tr rows)); [exact I|]. destruct rows; [exact I|].
  apply ask_canceled in Ea. cbn in *. rewrite Ea. apply incl_refl.
Qed.

Lemma grows_eq s s' w : canceled s' = canceled s -> grows s' w -> grows s w.
Proof. intros E. destruct w; cbn; rewrite ?E; auto. Qed.

Lemma step_grows W s e w : step W s e = Some w -> grows s w.
Proof.
  intros Hs.
  assert (R : incl (canceled s) (canceled s)) by apply incl_refl.
  assert (L : forall s', canceled s' = canceled s -> grows s (show_loader s')).
  { intros s' E. unfold show_loader. destruct (nth_error _ _); [|exact I]. cbn. rewrite E. exact R. }
  destruct e as [ | | | | | |wz|create f|row|c| | |idx| |t|m r|m| ]; cbn [step] in Hs.
  - injection Hs as <-. cbn. unfold exit_current_layer.
    destruct (1 <? length (screen s)); [|exact R].
    destruct (no_escape s); [exact R|]. destruct (_ =? _); exact R.
  - injection Hs as <-. unfold switch_duration_unit. destruct (stack s); [exact R|].
    destruct (cfg_dd s) as [d|]; [|exact R].
    destruct (match d with Time => _ | Percentage _ _ => _ end); [|exact I]. cbn [bind].
    destruct (restyle_all _ _ _ _); [|exact I]. exact R.
  - injection Hs as <-. unfold global_dialog. destruct (existsb _ _); exact R.
  - injection Hs as <-. unfold global_dialog. destruct (existsb _ _); [exact R|].
    destruct (backtrace_dialog s); exact R.
  - injection Hs as <-. unfold global_dialog. destruct (existsb _ _); [exact R|].
    destruct (help_dialog s); exact R.
  - destruct (screen s) as [|[| | | | | |v] r]; try discriminate. injection Hs as <-.
    unfold toggle. destruct (stack s) as [|e0 st]; [exact I|].
    destruct (p_other v) as [q|rows src].
    + destruct (ask W _) as [[[l tr] s2]|] eqn:Ea; [|exact I].
      destruct (match q with Some _ => _ | None => _ end); [|exact I]. cbn [bind].
      apply ask_canceled in Ea. apply (grows_eq s (pop s2)); [exact Ea|apply show_grows].
    + cbn [bind]. eapply grows_eq; [|apply show_grows]. reflexivity.
  - destruct (screen s) as [|[| | | | | |v] r]; try discriminate. injection Hs as <-.
    destruct wz; try exact R. apply L. reflexivity.
  - destruct (screen s) as [|[|ex| | | | |v] r]; try discriminate. injection Hs as <-.
    destruct create; [destruct f; exact R|]. destruct ex; [apply L; reflexivity|exact R].
  - destruct (screen s) as [|[| | | | | |v] r] eqn:Sc; try discriminate.
    destruct (p_kind v); [|discriminate]. destruct (row <? length (p_rows v)); [|discriminate].
    injection Hs as <-. unfold zoom.
    destruct (find_table _ _) as [v'|]; [|exact I]. cbn [bind].
    destruct (nth_error (p_rows v') row) as [a|]; [|exact I]. cbn [bind].
    destruct (a_kids a); cbn [negb]; [|exact R].
    destruct (ask W s) as [[[l tr] s1]|] eqn:Ea; [|exact I]. cbn [bind].
    destruct (direct_children tr (a_id a)) as [[|k0 kr]|]; try exact I. cbn [bind].
    destruct (percent_norm (a_dur a)); [|exact I]. cbn [bind].
    apply ask_canceled in Ea. apply (grows_eq s s1 _ Ea). apply show_grows.
  - destruct (screen s) as [|[| | | | | |v] r]; try discriminate.
    destruct (has_column v c (p_dd v)); [|discriminate]. injection Hs as <-.
    unfold sort_profiles. destruct (stack s); [exact I|].
    destruct (cfg_dd s); [|exact I]. cbn [bind].
    destruct (sort_all _ _ _ _); [|exact I]. exact R.
  - destruct (screen s) as [|[| | |g| | |v] r]; try discriminate; injection Hs as <-; exact R.
  - destruct (screen s) as [|[| | |[| |n b]| | |v] r]; try discriminate. injection Hs as <-. exact I.
  - destruct (screen s) as [|[| | |[| |n b]| | |v] r]; try discriminate.
    destruct (idx <? n); [|discriminate]. injection Hs as <-. exact R.
  - destruct (screen s) as [|[| | | |l|m|v] r]; try discriminate; injection Hs as <-; [|exact R].
    unfold abort_load. destruct (screen _); [exact I|]. cbn. apply incl_tl. exact R.
  - destruct (nth_error (threads s) t) as [th|]; [|discriminate].
    destruct (load_next W th) as [[th' c]|]; [|discriminate]. injection Hs as <-. exact R.
  - destruct (get_job m (jobs s)) as [[c|]|]; try discriminate. injection Hs as <-. exact R.
  - destruct (get_job m (jobs s)) as [[[|c r]|]|]; try discriminate. injection Hs as <-. exact R.
  - destruct (callbacks s) as [|c r]; [discriminate|]. injection Hs as <-.
    destruct c as [l|m|m|]; cbn [run_callback]; try exact R.
    + unfold loaded. cbn [set_callbacks canceled]. destruct (mem l (canceled s)); [exact R|].
      destruct (W l); [|exact R].
      destruct (ask W _) as [[[src tr] s2]|] eqn:Ea; [|exact I]. cbn [bind].
      destruct (percent_norm _); [|exact I]. cbn [bind].
      apply ask_canceled in Ea. eapply grows_eq; [|apply show_grows]. exact Ea.
    + apply L. reflexivity.
Qed.

Lemma exec_grows W : forall evs s s', exec W s evs = Some (Running s') -> incl (canceled s) (canceled s').
Proof.
  induction evs as [|e r IH]; intros s s' H; cbn [exec] in H; [injection H as <-; apply incl_refl|].
  destruct (step W s e) as [[s1| |]|] eqn:Es; try discriminate; try (destruct r; discriminate).
  apply (incl_tran (m := canceled s1)); [exact (step_grows W s e _ Es)|exact (IH s1 s' H)].
Qed.

Lemma cancelled_never_shown W s0 evs1 s1 l r evs2 s2 :
  initial s0 -> exec W s0 evs1 = Some (Running s1) -> screen s1 = LLoading l :: r ->
  exec W s1 (Abort :: evs2) = Some (Running s2) ->
  forall v, In v (profiles s2) -> p_src v <> l.
Proof.
  intros Hi E1 Sc E2 v Hv Ev.
  pose proof (exec_fine W evs1 s0 _ (initial_inv W s0 Hi) E1) as I1.
  pose proof (exec_fine W _ s1 _ I1 E2) as I2. cbn [fine] in I2.
  cbn [exec step] in E2. rewrite Sc in E2.
  destruct (abort_load s1 l) as [s3| |] eqn:Ea; try (destruct evs2; discriminate).
  assert (Hc : In l (canceled s3)).
  { unfold abort_load in Ea. destruct (screen (end_wait _)); [discriminate|]. injection Ea as <-.
    left. reflexivity. }
  apply (exec_grows W _ _ _ E2) in Hc.
  apply views_In in Hv. destruct I2 as [_ [_ [I3 _]]].
  destruct (I3 v Hv) as [[_ [N _]] _]. rewrite Ev in N. exact (N Hc).
Qed.

Lemma rows_from_source W s0 evs s :
  initial s0 -> exec W s0 evs = Some (Running s) ->
  forall v, In v (profiles s) ->
    exists tr, W (p_src v) = Some tr /\ incl (p_rows v) (map info (all_nodes tr)).
Proof.
  intros Hi E v Hv. pose proof (exec_fine W evs s0 _ (initial_inv W s0 Hi) E) as I1.
  apply views_In in Hv. destruct I1 as [_ [_ [I3 _]]].
  destruct (I3 v Hv) as [[_ [_ [_ D]]] _]. exact D.
Qed.

(** ** Display settings *)

Lemma settings W s0 evs s :
  well_labelled W -> initial s0 -> calm W s0 evs -> exec W s0 evs = Some (Running s) ->
  profiles s <> [] ->
  exists u c, uniform W s u c
    /\ forall e s', calm W s [e] -> step W s e = Some (Running s') ->
         uniform W s' (match e with KeyU => next_unit u | _ => u end)
                      (match e with Sort c' => c' | _ => c end).
Proof.
  intros WL I C H Np. destruct (reach W s0 evs s WL I C H) as [B [M P]].
  destruct (step_uniform W s WL B M Np) as [u [c [U St]]]. exists u, c. split; [exact U|].
  intros e s' [Q _] Hs. exact (St e s' Hs Q).
Qed.

(** ** Zoom and F *)

Lemma zoom_result W s0 evs s v r row a :
  well_labelled W -> initial s0 -> calm W s0 evs -> exec W s0 evs = Some (Running s) ->
  screen s = LProfile v :: r -> p_kind v = Hierarchical -> nth_error (p_rows v) row = Some a ->
  (a_kids a = false /\ step W s (Zoom row) = Some (Running s))
  \/ (a_kids a = true
      /\ ((step W s (Zoom row) = Some Crash /\ exists l tr, W l = Some tr /\ ~ takes_time tr)
          \/ exists s' w tr n,
              step W s (Zoom row) = Some (Running s') /\ screen s' = LProfile w :: screen s
              /\ W (p_src w) = Some tr /\ In n (all_nodes tr) /\ n_id n = a_id a
              /\ p_rows w = map info (n_kids n))).
Proof.
  intros WL I C H Sc Kv Ha. destruct (reach W s0 evs s WL I C H) as [B [M P]].
  cbn [step]. rewrite Sc, Kv.
  assert (L : row < length (p_rows v)) by (apply nth_error_Some; congruence).
  destruct (Nat.ltb_spec row (length (p_rows v))) as [_|F]; [|lia].
  assert (Hk : a_kids a = false -> zoom W s v row = Running s).
  { intros Hk. destruct (zoom_good W s v r row a WL B M Sc Kv Ha) as [[E U]|[s' [E [_ Hs]]]].
    - exfalso. unfold zoom in E. destruct (top_profile W s v r Sc M) as [l [tr [d [ps [bots [Pr [Er _]]]]]]].
      destruct Pr as [_ [_ [_ [Pb [_ [_ [_ [Nb _]]]]]]]].
      rewrite Sc in E. rewrite (find_here v r) in E
        by (rewrite (numbered_head v ps Nb), Er; apply no_table_rest;
            [exact (numbered_tail v ps Nb)|exact (plain_no_profile _ Pb)]).
      cbn [bind] in E. rewrite Ha in E. cbn [bind] in E. rewrite Hk in E. discriminate.
    - destruct Hs as [[_ ->]|[Hk' _]]; [exact E|congruence]. }
  destruct (a_kids a) eqn:Hka; [|left; split; [reflexivity|rewrite (Hk eq_refl); reflexivity]].
  right. split; [reflexivity|].
  destruct (zoom_good W s v r row a WL B M Sc Kv Ha) as [[E U]|[s' [E [_ Hs]]]].
  - left. rewrite E. auto.
  - right. destruct Hs as [[F _]|[_ [l [tr [d [w [ps [bots [Pr [St [Esc _]]]]]]]]]]]; [congruence|].
    destruct Pr as [_ [_ [_ [_ [_ [F [_ [_ [_ [_ [_ [Wl _]]]]]]]]]]]].
    rewrite St in F. inversion F as [|e0 w0 es ws Sh F' E1 E2]; subst.
    destruct Sh as [[_ [_ [Li _]]] [Es _]]. cbn in Li. destruct Li as [n [Hn [Hi Hr]]].
    exists s', w, tr, n. rewrite E, Es, Esc, Sc. auto 8.
Qed.

Lemma flip_result W s0 evs s v r :
  well_labelled W -> initial s0 -> calm W s0 evs -> exec W s0 evs = Some (Running s) ->
  screen s = LProfile v :: r ->
  exists s' w e e' st tr,
    step W s KeyF = Some (Running s') /\ screen s' = LProfile w :: r
    /\ p_kind w = match p_kind v with Hierarchical => Flat | Flat => Hierarchical end
    /\ stack s = e :: st /\ stack s' = e' :: st /\ e_name e' = e_name e
    /\ W (p_src w) = Some tr /\ lists tr (e_name e) (p_kind w) (p_rows w).
Proof.
  intros WL I C H Sc. destruct (reach W s0 evs s WL I C H) as [B [M P]].
  destruct (toggle_good W s v r WL B M Sc)
    as [s' [E [_ [l [tr [d [w [ps [bots [Pr [Kw [Esc [[e [e' [st [S1 [S2 Nm]]]]] _]]]]]]]]]]]]].
  destruct Pr as [_ [_ [_ [_ [_ [F [_ [_ [_ [_ [_ [Wl _]]]]]]]]]]]].
  rewrite S2 in F. inversion F as [|e0 w0 es ws Sh F' E1 E2]; subst.
  destruct Sh as [[_ [Ek [Li _]]] [Es _]]. rewrite Nm, Ek in Li.
  exists s', w, e, e', st, tr. cbn [step]. rewrite Sc, E, Es. auto 8.
Qed.

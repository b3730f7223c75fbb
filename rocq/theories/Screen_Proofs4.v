(** * Proofs about the screen: loads and measurements in calm executions *)

From Coq Require Import List PeanoNat NArith Bool Lia.
From Verif Require Import Screen_Model Screen_Spec Screen_Proofs Screen_Proofs2 Screen_Proofs3.
Import ListNotations.
Local Open Scope nat_scope.

(** ** Starting *)

Lemma show_loader_good W s d :
  base s -> Forall plain (screen s) -> stack s = [] -> ready s d -> expected s = [] ->
  waiting s = [] ->
  exists s', show_loader s = Running s' /\ base s' /\ mode W s'
    /\ screen s' = LLoading (next_load s) :: screen s.
Proof.
  intros B P St R Ex Wt. unfold show_loader.
  cbn [push set_screen set_wait threads cur]. unfold ready in R. rewrite R.
  eexists. split; [reflexivity|]. destruct B as [B1 [B2 [B3 [B4 B5]]]].
  split; [|split; [|reflexivity]].
  - repeat split; cbn; auto.
    + intros t th l Ht Hn Hl. rewrite replace_other in Hn by congruence. exact (B1 t th l Ht Hn Hl).
    + intros l Hl. specialize (B2 l Hl). lia.
  - apply (Load W _ (next_load s) [] (screen s)); cbn; auto.
    + intros F. specialize (B2 _ F). lia.
    + left. exists d. split; [|exact Ex]. rewrite (replace_get _ _ _ _ R). reflexivity.
Qed.

Lemma start_measure_good W s d f :
  base s -> Forall plain (screen s) -> stack s = [] -> no_escape s = false -> ready s d ->
  expected s = [] -> waiting s = [] ->
  base (start_measure s f) /\ mode W (start_measure s f).
Proof.
  intros B P St NE R Ex Wt. destruct f as [n|]; cbn [start_measure].
  - split; [exact B|]. apply mode_repeat. eapply Idle; eassumption.
  - destruct B as [B1 [B2 [B3 [B4 B5]]]]. split.
    + repeat split; cbn; auto.
      * intros m c [F|H]; [discriminate|exact (B3 m c H)].
      * intros m x [F|H]; [inversion F; subst; lia|]. specialize (B4 m x H). lia.
      * constructor; [|exact B5]. intros F. apply in_map_iff in F. destruct F as [[m x] [Em H]].
        cbn in Em. subst m. specialize (B4 _ _ H). lia.
    + apply (Meas W _ (next_job s) [] (screen s) d); cbn; auto.
      left. split; [|exact Ex]. unfold waiting in *. cbn. rewrite Wt. reflexivity.
Qed.

(** ** Aborting *)

Lemma end_wait_screen s tops x bots :
  screen s = tops ++ x :: bots -> length bots = below s -> screen (end_wait s) = bots.
Proof.
  intros Sc Lb. unfold end_wait, pop_to. cbn [set_screen set_wait screen below].
  rewrite Sc, <- Lb.
  change (tops ++ x :: bots) with (tops ++ [x] ++ bots). rewrite app_assoc.
  apply skipn_all_app.
Qed.

Lemma expected_cancel s l :
  expected s = [] \/ expected s = [CLoaded l] ->
  filter (important (l :: canceled s)) (callbacks s) = [].
Proof.
  unfold expected. intros H.
  assert (G : forall c, In c (callbacks s) -> important (l :: canceled s) c = true ->
                        important (canceled s) c = true /\ c <> CLoaded l).
  { intros c _ I. destruct c as [k| | |]; cbn in *; try discriminate.
    - rewrite negb_true_iff, orb_false_iff in I. destruct I as [I1 I2]. rewrite I2.
      split; [reflexivity|]. intros F. inversion F; subst. rewrite Nat.eqb_refl in I1. discriminate.
    - split; [reflexivity|discriminate]. }
  destruct (filter (important (l :: canceled s)) (callbacks s)) as [|c r] eqn:E; [reflexivity|].
  exfalso. assert (Hc : In c (c :: r)) by (left; reflexivity). rewrite <- E in Hc.
  apply filter_In in Hc. destruct Hc as [Hc I]. destruct (G c Hc I) as [I' N].
  assert (Hf : In c (filter (important (canceled s)) (callbacks s))) by (apply filter_In; auto).
  destruct H as [H|H]; rewrite H in Hf; [destruct Hf|]. destruct Hf as [Hf|[]]. congruence.
Qed.

Lemma abort_good W s l r :
  base s -> mode W s -> screen s = LLoading l :: r -> good W (abort_load s l).
Proof.
  intros B M E.
  destruct M as [d P St NE R Ex Wt|l0 tr d tops profs bots Pr NE Ex Wt
                |l0 tops bots Sc Ct Pb Lb St NE Nc Lt Wt Src
                |m tops bots d Sc Ct Pb Lb St NE R Src].
  - exfalso. rewrite E in P. inversion P; subst. assumption.
  - exfalso. destruct Pr as [Sc [Ne [To _]]]. destruct tops as [|y tops].
    + destruct profs as [|w ps]; [congruence|]. rewrite E in Sc. discriminate.
    + rewrite E in Sc. inversion Sc; subst. inversion To; subst. assumption.
  - destruct tops as [|y tops];
      [|exfalso; rewrite E in Sc; inversion Sc; subst; inversion Ct; subst; assumption].
    cbn in Sc. rewrite E in Sc. inversion Sc; subst l0 r. clear Sc.
    unfold abort_load.
    set (s0 := set_loads (l :: canceled s) (next_load s) s).
    assert (Es : screen (end_wait s0) = bots) by (apply (end_wait_screen s0 [] (LLoading l)); assumption).
    rewrite Es. destruct bots as [|b bots]; [exact I|].
    destruct B as [B1 [B2 [B3 [B4 B5]]]]. cbn [good].
    assert (Hth : exists q d0, nth_error (threads s) (cur s) = Some {| t_queue := q; t_data := d0 |}
                     /\ (forall k, In k q -> k = l)
                     /\ (expected s = [] \/ expected s = [CLoaded l])).
    { destruct Src as [[d [H H2]]|[H H2]].
      - exists [l], d. split; [exact H|]. split; [intros k [<-|[]]; reflexivity|auto].
      - exists [], (match W l with Some _ => Some l | None => None end).
        split; [exact H|]. split; [intros k []|auto]. }
    destruct Hth as [q [d0 [Hth [Hq Hx]]]].
    assert (Hcur : cur s < length (threads s)) by (apply nth_error_Some; congruence).
    split.
    + repeat split; cbn; auto.
      * intros t th k Ht Hn Hk.
        destruct (Nat.eq_dec t (cur s)) as [->|Hc].
        -- rewrite nth_error_app1 in Hn by lia. rewrite Hth in Hn. inversion Hn; subst.
           left. symmetry. apply Hq. exact Hk.
        -- right. destruct (Nat.lt_ge_cases t (length (threads s))) as [L|L].
           ++ rewrite nth_error_app1 in Hn by lia. exact (B1 t th k Hc Hn Hk).
           ++ rewrite nth_error_app2 in Hn by lia.
              destruct (t - length (threads s)) as [|x] eqn:Et; [lia|].
              destruct x; discriminate.
      * intros k [<-|Hk]; [exact Lt|exact (B2 k Hk)].
    + apply (Idle W _ None); cbn [set_threads screen stack no_escape]; auto.
      * rewrite Es. exact Pb.
      * unfold ready. cbn. rewrite nth_error_app2 by lia. rewrite Nat.sub_diag. reflexivity.
      * unfold expected. cbn. exact (expected_cancel s l Hx).
  - exfalso. destruct tops as [|y tops]; rewrite E in Sc; inversion Sc; subst.
    inversion Ct; subst. assumption.
Qed.

(** ** Other threads *)

Lemma filter_canceled c l b :
  In l c -> filter (important c) (b ++ [CLoaded l]) = filter (important c) b.
Proof.
  intros H. rewrite filter_app. cbn. apply mem_In in H. rewrite H. cbn. apply app_nil_r.
Qed.

Lemma filter_live c l b :
  ~ In l c -> filter (important c) (b ++ [CLoaded l]) = filter (important c) b ++ [CLoaded l].
Proof.
  intros H. rewrite filter_app. cbn.
  destruct (mem l c) eqn:E; [apply mem_In in E; contradiction|reflexivity].
Qed.

Lemma base_load W s t th th' c :
  base s -> nth_error (threads s) t = Some th -> load_next W th = Some (th', c) ->
  base (set_callbacks (callbacks s ++ [c]) (set_threads (replace t th' (threads s)) (cur s) s)).
Proof.
  intros [B1 [B2 [B3 [B4 B5]]]] Hn Hl.
  assert (Q : forall l, In l (t_queue th') -> In l (t_queue th)).
  { unfold load_next in Hl. destruct (t_queue th) as [|x q]; inversion Hl; subst.
    cbn. intros l Hq. right. exact Hq. }
  repeat split; cbn; auto.
  intros u uh l Hu Hun Hul. destruct (Nat.eq_dec t u) as [->|N].
  - rewrite (replace_get _ _ _ _ Hn) in Hun. inversion Hun; subst.
    apply (B1 u th l Hu Hn). apply Q. exact Hul.
  - rewrite replace_other in Hun by exact N. exact (B1 u uh l Hu Hun Hul).
Qed.

Lemma thread_good W s t w :
  base s -> mode W s -> step W s (ThreadLoads t) = Some w -> good W w.
Proof.
  intros B M Hs. cbn [step] in Hs.
  destruct (nth_error (threads s) t) as [th|] eqn:Hn; [|discriminate].
  destruct (load_next W th) as [[th' c]|] eqn:Hl; [|discriminate].
  inversion Hs; subst w. cbn [good]. split; [exact (base_load W s t th th' c B Hn Hl)|].
  destruct B as [B1 [B2 _]].
  assert (Hc : exists l q, t_queue th = l :: q /\ c = CLoaded l
             /\ th' = {| t_queue := q; t_data := match W l with Some _ => Some l | None => None end |}).
  { unfold load_next in Hl. destruct (t_queue th) as [|l q]; inversion Hl; subst. exists l, q. auto. }
  destruct Hc as [l [q [Eq [-> ->]]]].
  destruct (Nat.eq_dec t (cur s)) as [->|N].
  - (* the current thread *)
    destruct M as [d P St NE R Ex Wt|l0 tr d tops profs bots Pr NE Ex Wt
                  |l0 tops bots Sc Ct Pb Lb St NE Nc Lt Wt Src
                  |m tops bots d Sc Ct Pb Lb St NE R Src].
    + exfalso. unfold ready in R. rewrite R in Hn. inversion Hn; subst. discriminate.
    + exfalso. destruct Pr as [_ [_ [_ [_ [_ [_ [_ [_ [_ [_ [_ [_ R]]]]]]]]]]]].
      unfold ready in R. rewrite R in Hn. inversion Hn; subst. discriminate.
    + destruct Src as [[d [H Ex]]|[R _]].
      * rewrite H in Hn. inversion Hn; subst th. cbn in Eq. inversion Eq; subst l q.
        apply (Load W _ l0 tops bots); cbn; auto. right. split.
        -- unfold ready. cbn. exact (replace_get _ _ _ _ H).
        -- unfold expected in *. cbn. rewrite filter_live by exact Nc. rewrite Ex. reflexivity.
      * exfalso. unfold ready in R. rewrite R in Hn. inversion Hn; subst. discriminate.
    + exfalso. unfold ready in R. rewrite R in Hn. inversion Hn; subst. discriminate.
  - assert (Hc : In l (canceled s)) by (apply (B1 t th l N Hn); rewrite Eq; left; reflexivity).
    set (s' := set_callbacks _ _).
    assert (Ee : expected s' = expected s) by (apply filter_canceled; exact Hc).
    assert (Et : nth_error (threads s') (cur s') = nth_error (threads s) (cur s))
      by (cbn; apply replace_other; exact N).
    destruct M as [d P St NE R Ex Wt|l0 tr d tops profs bots Pr NE Ex Wt
                  |l0 tops bots Sc Ct Pb Lb St NE Nc Lt Wt Src
                  |m tops bots d Sc Ct Pb Lb St NE R Src].
    + apply (Idle W s' d); auto; [|congruence]. unfold ready. rewrite Et. exact R.
    + apply (Prof W s' l0 tr d tops profs bots); auto; [|congruence].
      destruct Pr as [Sc [Ne [To [Pb [Lb [F [K [Nb [Cd [Gn [Go [Wl R]]]]]]]]]]]].
      repeat split; auto. unfold ready. rewrite Et. exact R.
    + apply (Load W s' l0 tops bots); auto.
      destruct Src as [[d [H Ex]]|[R Ex]]; [left; exists d|right].
      * rewrite Et, Ee. auto.
      * unfold ready. rewrite Et, Ee. auto.
    + apply (Meas W s' m tops bots d); auto.
      * unfold ready. rewrite Et. exact R.
      * rewrite Ee. exact Src.
Qed.

(** Jobs *)

Lemma get_job_In m l x : get_job m l = Some x -> In (m, x) l.
Proof.
  induction l as [|[k y] r IH]; cbn; [discriminate|].
  destruct (Nat.eqb_spec k m) as [->|N]; intros H; [inversion H; subst; left; reflexivity|].
  right. exact (IH H).
Qed.

Lemma set_job_fst m x l : map fst (set_job m x l) = map fst l.
Proof.
  induction l as [|[k y] r IH]; cbn; [reflexivity|].
  destruct (k =? m); cbn; congruence.
Qed.

Lemma set_job_In m x l k y : In (k, y) (set_job m x l) -> In (k, y) l \/ (k = m /\ y = x).
Proof.
  induction l as [|[k' y'] r IH]; cbn; [tauto|].
  destruct (Nat.eqb_spec k' m) as [->|N]; cbn; intros [F|H].
  - inversion F; subst. auto.
  - auto.
  - auto.
  - destruct (IH H); auto.
Qed.

Definition waits (j : list (nat * option (list callback))) : list nat :=
  flat_map (fun j => match snd j with None => [fst j] | Some _ => [] end) j.

Lemma waits_set m x y l :
  NoDup (map fst l) -> get_job m l = Some x ->
  waits (set_job m (Some y) l) =
  match x with None => remove Nat.eq_dec m (waits l) | Some _ => waits l end.
Proof.
  induction l as [|[k z] r IH]; cbn; [discriminate|]. intros ND H.
  apply NoDup_cons_iff in ND. destruct ND as [Nk ND].
  assert (Hr : forall k', In k' (waits r) -> In k' (map fst r)).
  { intros k' Hk. apply in_flat_map in Hk. destruct Hk as [[a b] [Ha Hb]].
    apply in_map_iff. exists (a, b). split; [|exact Ha]. destruct b; cbn in Hb; [destruct Hb|].
    destruct Hb as [<-|[]]. reflexivity. }
  destruct (Nat.eqb_spec k m) as [->|N].
  - inversion H; subst. cbn. destruct x as [c|]; [reflexivity|]. cbn.
    destruct (Nat.eq_dec m m) as [_|F]; [|congruence].
    symmetry. apply notin_remove. intros F. apply Nk. apply Hr. exact F.
  - specialize (IH ND H). cbn. fold (waits r) in *. fold (waits (set_job m (Some y) r)).
    rewrite IH. destruct x as [c|]; [reflexivity|].
    destruct z as [c|]; cbn [app]; [reflexivity|]. cbn.
    destruct (Nat.eq_dec m k) as [F|_]; [congruence|reflexivity].
Qed.

Lemma base_job s m c x y :
  base s -> get_job m (jobs s) = Some x -> Forall benign y ->
  base (set_callbacks c (set_jobs (set_job m (Some y) (jobs s)) (next_job s) s)).
Proof.
  intros [B1 [B2 [B3 [B4 B5]]]] H Hy. repeat split; cbn; auto.
  - intros k z Hk. apply set_job_In in Hk. destruct Hk as [Hk|[-> Ez]]; [exact (B3 k z Hk)|].
    inversion Ez; subst. exact Hy.
  - intros k z Hk. apply set_job_In in Hk. destruct Hk as [Hk|[-> _]]; [exact (B4 k z Hk)|].
    apply get_job_In in H. exact (B4 m x H).
  - rewrite set_job_fst. exact B5.
Qed.

Lemma clang_good W s m r w :
  base s -> mode W s -> step W s (ClangEnds m r) = Some w -> good W w.
Proof.
  intros B M Hs. cbn [step] in Hs.
  destruct (get_job m (jobs s)) as [[c|]|] eqn:Hj; try discriminate.
  inversion Hs; subst w. cbn [good]. split.
  { apply (base_job s m _ None); auto.
    destruct r as [[|]|[|]|[|]]; cbn; repeat constructor. }
  pose proof (proj2 (proj2 (proj2 (proj2 B)))) as ND.
  assert (Hw : In m (waiting s)).
  { apply get_job_In in Hj. apply in_flat_map. exists (m, None). split; [exact Hj|left; reflexivity]. }
  set (s' := set_callbacks _ _).
  assert (Ew : waiting s' = remove Nat.eq_dec m (waiting s)).
  { exact (waits_set m None _ (jobs s) ND Hj). }
  assert (Ee : expected s' = expected s ++ [CEndMeasure m]).
  { unfold expected. cbn. rewrite filter_app. reflexivity. }
  destruct M as [d P St NE R Ex Wt|l0 tr d tops profs bots Pr NE Ex Wt
                |l0 tops bots Sc Ct Pb Lb St NE Nc Lt Wt Src
                |m0 tops bots d Sc Ct Pb Lb St NE R Src];
    try (exfalso; rewrite Wt in Hw; exact Hw).
  destruct Src as [[Wt Ex]|[Wt Ex]]; [|exfalso; rewrite Wt in Hw; exact Hw].
  rewrite Wt in Hw. destruct Hw as [->|[]].
  apply (Meas W s' m tops bots d); auto. right. split.
  - rewrite Ew, Wt. cbn. destruct (Nat.eq_dec m m); [reflexivity|congruence].
  - rewrite Ee, Ex. reflexivity.
Qed.

Lemma sends_good W s m w :
  base s -> mode W s -> step W s (JobSends m) = Some w -> good W w.
Proof.
  intros B M Hs. cbn [step] in Hs.
  destruct (get_job m (jobs s)) as [[[|c r]|]|] eqn:Hj; try discriminate.
  inversion Hs; subst w. cbn [good].
  assert (Hb : Forall benign (c :: r)).
  { apply get_job_In in Hj. exact (proj1 (proj2 (proj2 B)) _ _ Hj). }
  split; [apply (base_job s m _ (Some (c :: r))); auto; inversion Hb; assumption|].
  pose proof (proj2 (proj2 (proj2 (proj2 B)))) as ND.
  set (s' := set_callbacks _ _).
  assert (Ew : waiting s' = waiting s) by exact (waits_set m (Some (c :: r)) _ (jobs s) ND Hj).
  assert (Ee : expected s' = expected s).
  { unfold expected. cbn. rewrite filter_app. inversion Hb as [|c' r' Hc _]; subst.
    destruct c; cbn in *; try contradiction; apply app_nil_r. }
  destruct M as [d P St NE R Ex Wt|l0 tr d tops profs bots Pr NE Ex Wt
                |l0 tops bots Sc Ct Pb Lb St NE Nc Lt Wt Src
                |m0 tops bots d Sc Ct Pb Lb St NE R Src].
  - apply (Idle W s' d); auto; congruence.
  - apply (Prof W s' l0 tr d tops profs bots); auto; congruence.
  - apply (Load W s' l0 tops bots); auto; [congruence|]. rewrite Ee. exact Src.
  - apply (Meas W s' m0 tops bots d); auto. rewrite Ee, Ew. exact Src.
Qed.

(** ** Callbacks *)

(** A mode without the first callback, if it does not matter. *)
Lemma mode_skip W s c r :
  callbacks s = c :: r -> important (canceled s) c = false -> mode W s ->
  mode W (set_callbacks r s).
Proof.
  intros Ec I M. set (s' := set_callbacks r s).
  assert (Ee : expected s' = expected s).
  { unfold expected. cbn. rewrite Ec. cbn. rewrite I. reflexivity. }
  destruct M as [d P St NE R Ex Wt|l0 tr d tops profs bots Pr NE Ex Wt
                |l0 tops bots Sc Ct Pb Lb St NE Nc Lt Wt Src
                |m0 tops bots d Sc Ct Pb Lb St NE R Src].
  - apply (Idle W s' d); auto; congruence.
  - apply (Prof W s' l0 tr d tops profs bots); auto; congruence.
  - apply (Load W s' l0 tops bots); auto. rewrite Ee. exact Src.
  - apply (Meas W s' m0 tops bots d); auto. rewrite Ee. exact Src.
Qed.

Lemma quiet_idle W s : quiet s -> mode W s ->
  Forall plain (screen s) /\ stack s = [] /\ no_escape s = false
  /\ (exists d, ready s d) /\ expected s = [] /\ waiting s = [].
Proof.
  intros Q M. unfold quiet, on_screen in Q.
  destruct M as [d P St NE R Ex Wt|l tr d tops profs bots Pr NE Ex Wt
                |l tops bots Sc Ct Pb Lb St NE Nc Lt Wt Src
                |m tops bots d Sc Ct Pb Lb St NE R Src].
  - repeat split; auto. exists d. exact R.
  - exfalso. destruct Pr as [Sc [Ne _]]. destruct profs as [|v ps]; [congruence|].
    apply (Q (LProfile v)). rewrite Sc. apply in_or_app. right. left. reflexivity.
  - exfalso. apply (Q (LLoading l)). rewrite Sc. apply in_or_app. right. left. reflexivity.
  - exfalso. apply (Q (LMeasuring m)). rewrite Sc. apply in_or_app. right. left. reflexivity.
Qed.

(** The completion of a load that was not canceled. *)
Lemma loaded_live W s l r :
  well_labelled W -> base s -> mode W s -> callbacks s = CLoaded l :: r ->
  ~ In l (canceled s) ->
  exists tops bots,
    screen s = tops ++ LLoading l :: bots /\ Forall cover tops /\ Forall plain bots
    /\ ((W l = None /\ exists s', loaded W (set_callbacks r s) l = Running s'
           /\ base s' /\ mode W s' /\ screen s' = LInfo :: bots /\ stack s' = [])
        \/ exists tr, W l = Some tr
           /\ ((loaded W (set_callbacks r s) l = Crash /\ ~ takes_time tr)
               \/ exists s' v d, loaded W (set_callbacks r s) l = Running s' /\ base s'
                  /\ profiling W s' l tr d [] [v] bots
                  /\ no_escape s' = false /\ expected s' = [] /\ waiting s' = []
                  /\ screen s' = LProfile v :: bots /\ p_src v = l
                  /\ p_kind v = Hierarchical /\ p_rows v = map info tr
                  /\ exists e, stack s' = [e] /\ e_name e = None)).
Proof.
  intros WL B M Ec Nl.
  assert (Hx : expected s = CLoaded l :: filter (important (canceled s)) r).
  { unfold expected. rewrite Ec. cbn. destruct (mem l (canceled s)) eqn:E; [|reflexivity].
    apply mem_In in E. contradiction. }
  destruct M as [d P St NE R Ex Wt|l0 tr d tops profs bots Pr NE Ex Wt
                |l0 tops bots Sc Ct Pb Lb St NE Nc Lt Wt Src
                |m0 tops bots d Sc Ct Pb Lb St NE R Src]; try congruence.
  2:{ exfalso. destruct Src as [[_ Ex]|[_ Ex]]; rewrite Hx in Ex; discriminate. }
  destruct Src as [[d [_ Ex]]|[R Ex]]; [rewrite Hx in Ex; discriminate|].
  rewrite Hx in Ex. injection Ex as El Er. subst l0.
  exists tops, bots. split; [exact Sc|]. split; [exact Ct|]. split; [exact Pb|].
  unfold loaded. cbn [set_callbacks canceled].
  destruct (mem l (canceled s)) eqn:Em; [apply mem_In in Em; contradiction|].
  set (s0 := set_callbacks r s).
  assert (Es : screen (end_wait s0) = bots) by (apply (end_wait_screen s0 tops (LLoading l)); assumption).
  assert (Ex' : expected (end_wait s0) = []) by exact Er.
  destruct (W l) as [tr|] eqn:Wl.
  - right. exists tr. split; [reflexivity|].
    rewrite (ask_ready W (end_wait s0) l tr R Wl). cbn [bind].
    unfold percent_norm. cbv zeta.
    replace (sum_durations (root_activities tr)) with (duration tr)
      by (symmetry; exact (duration_sum tr)).
    destruct (N.eqb_spec (duration tr) 0) as [Z|Z].
    { left. split; [reflexivity|]. intros [T _]. exact (T Z). }
    right. cbn [bind].
    set (s1 := set_config None _ _ _).
    destruct (show_ok W s1 l tr (Percentage (total tr) Global) [] bots None
                (duration tr) (root_activities tr) (Query None) Hierarchical)
      as [s' [E [B' [Pr' [NE' [Ex'' [Wt' [St' Ck]]]]]]]]; try assumption; try reflexivity.
    + exact (WL l tr Wl).
    + cbn [s1 set_config stack end_wait pop_to set_screen set_wait s0 set_callbacks].
      rewrite St. constructor.
    + cbn [s1 set_config stack end_wait pop_to set_screen set_wait s0 set_callbacks].
      rewrite St. intros e [].
    + apply numbered_nil.
    + right. split; reflexivity.
    + intros F. apply Z. unfold root_activities in *. apply map_eq_nil in F. now rewrite F.
    + cbn. auto.
    + eexists s', _, _. split; [exact E|]. split; [exact B'|]. split; [exact Pr'|].
      destruct Pr' as [Sc' _]. repeat split; auto.
      eexists. split; [rewrite St'; f_equal; exact St|reflexivity].
  - left. split; [reflexivity|]. eexists. split; [reflexivity|].
    split; [exact B|]. split; [|split; [cbn; f_equal; exact Es|exact St]].
    apply mode_push; [exact I|].
    apply (Idle W _ None); auto. rewrite Es. exact Pb.
Qed.

Lemma callback_good W s w :
  well_labelled W -> base s -> mode W s ->
  (forall m c, callbacks s = CShowLoader m :: c -> quiet s) ->
  step W s RunCallback = Some w -> good W w.
Proof.
  intros WL B M Q Hs. cbn [step] in Hs.
  destruct (callbacks s) as [|c r] eqn:Ec; [discriminate|].
  inversion Hs; subst w. clear Hs.
  assert (B' : base (set_callbacks r s)) by exact B.
  destruct c as [l|m|m|]; cbn [run_callback].
  - destruct (mem l (canceled s)) eqn:Em.
    + unfold loaded. cbn [set_callbacks canceled]. rewrite Em. cbn [good].
      split; [exact B'|]. apply (mode_skip W s (CLoaded l)); auto. cbn. rewrite Em. reflexivity.
    + assert (Nl : ~ In l (canceled s)) by (intros F; apply mem_In in F; congruence).
      destruct (loaded_live W s l r WL B M Ec Nl) as [tops [bots [Sc [Ct [Pb H]]]]].
      destruct H as [[_ [s' [E [B2 [M2 _]]]]]|[tr [Wl [[E NT]|[s' [v [d [E [B2 [Pr [NE [Ex [Wt _]]]]]]]]]]]]].
      * rewrite E. cbn. auto.
      * rewrite E. cbn. exists l, tr. auto.
      * rewrite E. cbn. split; [exact B2|]. eapply Prof; eassumption.
  - cbn [good]. split; [exact B'|].
    assert (Hx : expected s = CEndMeasure m :: filter (important (canceled s)) r).
    { unfold expected. rewrite Ec. reflexivity. }
    destruct M as [d P St NE R Ex Wt|l0 tr d tops profs bots Pr NE Ex Wt
                  |l0 tops bots Sc Ct Pb Lb St NE Nc Lt Wt Src
                  |m0 tops bots d Sc Ct Pb Lb St NE R Src]; try congruence.
    { exfalso. destruct Src as [[d [_ Ex]]|[_ Ex]]; rewrite Hx in Ex; discriminate. }
    destruct Src as [[_ Ex]|[Wt Ex]]; [rewrite Hx in Ex; discriminate|].
    rewrite Hx in Ex. injection Ex as Em Er.
    set (s0 := set_callbacks r s).
    assert (Es : screen (end_wait s0) = bots) by (apply (end_wait_screen s0 tops (LMeasuring m0)); assumption).
    apply (Idle W _ d); auto. rewrite Es. exact Pb.
  - assert (M' : mode W (set_callbacks r s)) by (apply (mode_skip W s (CShowLoader m)); auto).
    assert (Q' : quiet (set_callbacks r s)) by exact (Q m r eq_refl).
    destruct (quiet_idle W _ Q' M') as [P [St [NE [[d R] [Ex Wt]]]]].
    destruct (show_loader_good W (set_callbacks r s) d B' P St R Ex Wt) as [s' [E [B2 [M2 _]]]].
    rewrite E. cbn. auto.
  - cbn [good]. split; [exact B'|]. apply mode_push; [exact I|].
    apply (mode_skip W s CInfo); auto.
Qed.

(** ** All events *)

Lemma dialog_good W s d :
  base s -> mode W s ->
  (match d with Some (Backtrace n b) => stack s <> [] /\ n = length (stack s) /\ b = below s
              | _ => True end) ->
  base (global_dialog s d) /\ mode W (global_dialog s d).
Proof.
  intros B M H. unfold global_dialog.
  destruct (existsb is_global (screen s)); [auto|].
  destruct d as [d|]; [|auto]. split; [exact B|].
  destruct d as [| |n b]; try (apply mode_push; [exact I|exact M]).
  destruct H as [Ne [-> ->]].
  destruct M as [d P St NE R Ex Wt|l tr d tops profs bots Pr NE Ex Wt
                |l tops bots Sc Ct Pb Lb St NE Nc Lt Wt Src
                |m tops bots d Sc Ct Pb Lb St NE R Src]; try congruence.
  eapply (Prof W _ l tr d (LDialog (Backtrace (length (stack s)) (below s)) :: tops) profs bots);
    try assumption.
  destruct Pr as [Sc [Nep [To [Pb [Lb [F Pr]]]]]].
  repeat split; try apply Pr; try assumption.
  - cbn. rewrite Sc. reflexivity.
  - constructor; [|exact To]. cbn. split; [exact (Forall2_length _ _ _ F)|symmetry; exact Lb].
Qed.

Lemma step_good W s e w :
  well_labelled W -> base s -> mode W s ->
  (e = RunCallback -> forall m c, callbacks s = CShowLoader m :: c -> quiet s) ->
  step W s e = Some w -> good W w.
Proof.
  intros WL B M Q Hs.
  destruct e as [ | | | | | |wz|create f|row|c| | |idx| |t|m r|m| ]; cbn [step] in Hs.
  - inversion Hs; subst. cbn [good]. split; [|exact (mode_esc W s M)].
    unfold exit_current_layer. destruct (1 <? length (screen s)); [|exact B].
    destruct (no_escape s); [exact B|]. destruct (_ =? _); exact B.
  - inversion Hs; subst. destruct (unit_good W s B M) as [s' [E H]]. rewrite E. exact H.
  - inversion Hs; subst. apply dialog_good; auto.
  - inversion Hs; subst. apply dialog_good; auto. unfold backtrace_dialog.
    destruct (stack s) eqn:St; [exact I|]. repeat split. discriminate.
  - inversion Hs; subst. apply dialog_good; auto. unfold help_dialog.
    destruct (stack s); [destruct (full_build s)|]; exact I.
  - destruct (screen s) as [|[| | | | | |v] r] eqn:Sc; try discriminate. inversion Hs; subst.
    destruct (toggle_good W s v r WL B M Sc)
      as [s' [E [B' [l [tr [d [w [ps [bots [Pr [_ [_ [_ [NE [Ex [Wt _]]]]]]]]]]]]]]]].
    rewrite E. split; [exact B'|]. eapply Prof; eassumption.
  - destruct (screen s) as [|[| | | | | |v] r] eqn:Sc; try discriminate. inversion Hs; subst.
    destruct (top_plain W s LTable r Sc (or_introl eq_refl) M)
      as [P [St [NE [[d R] [Ex Wt]]]]].
    destruct wz as [|ex|].
    + split; [exact B|]. apply mode_push; [exact I|exact M].
    + split; [exact B|]. apply (Idle W _ d); auto. constructor; [exact I|exact P].
    + destruct (show_loader_good W s d B P St R Ex Wt) as [s' [E [B2 [M2 _]]]].
      rewrite E. cbn. auto.
  - destruct (screen s) as [|[|ex| | | | |v] r] eqn:Sc; try discriminate. inversion Hs; subst.
    destruct (top_plain W s (LPrompt ex) r Sc (or_intror (ex_intro _ ex eq_refl)) M)
      as [P [St [NE [[d R] [Ex Wt]]]]].
    assert (P' : Forall plain (screen (pop s))).
    { cbn. rewrite Sc in *. inversion P; assumption. }
    destruct create.
    + exact (start_measure_good W (pop s) d f B P' St NE R Ex Wt).
    + destruct ex.
      * destruct (show_loader_good W (pop s) d B P' St R Ex Wt) as [s' [E [B2 [M2 _]]]].
        rewrite E. cbn. auto.
      * split; [exact B|]. apply (Idle W _ d); auto.
  - destruct (screen s) as [|[| | | | | |v] r] eqn:Sc; try discriminate.
    destruct (p_kind v) eqn:Kv; [|discriminate].
    destruct (Nat.ltb_spec row (length (p_rows v))) as [L|L]; [|discriminate].
    inversion Hs; subst.
    destruct (nth_error (p_rows v) row) as [a|] eqn:Ha; [|apply nth_error_None in Ha; lia].
    destruct (zoom_good W s v r row a WL B M Sc Kv Ha) as [[E U]|[s' [E [B' H]]]].
    + rewrite E. exact U.
    + rewrite E. split; [exact B'|].
      destruct H as [[_ ->]|[_ [l [tr [d [w [ps [bots [Pr [_ [_ [NE [Ex [Wt _]]]]]]]]]]]]]];
        [exact M|eapply Prof; eassumption].
  - destruct (screen s) as [|[| | | | | |v] r] eqn:Sc; try discriminate.
    destruct (has_column v c (p_dd v)) eqn:Hc; [|discriminate]. inversion Hs; subst.
    destruct (sort_good W s v r c B M Sc Hc)
      as [s' [E [B' [[l [tr [d [ps [bots [Pr _]]]]]] [NE [Ex [Wt _]]]]]]].
    rewrite E. split; [exact B'|]. eapply Prof; eassumption.
  - destruct (screen s) as [|[| | |d| | |v] r] eqn:Sc; try discriminate; inversion Hs; subst;
      split; try exact B; (eapply mode_dismiss; [exact Sc| | | |exact M]; discriminate).
  - destruct (screen s) as [|[| | |[| |n b]| | |v] r] eqn:Sc; try discriminate. inversion Hs; exact I.
  - destruct (screen s) as [|[| | |[| |n b]| | |v] r] eqn:Sc; try discriminate.
    destruct (Nat.ltb_spec idx n) as [L|L]; [|discriminate]. inversion Hs; subst.
    split; [exact B|]. exact (proj1 (mode_jump W s idx n b r Sc L M)).
  - destruct (screen s) as [|[| | | |l|m|v] r] eqn:Sc; try discriminate; inversion Hs; subst.
    + exact (abort_good W s l r B M Sc).
    + split; assumption.
  - exact (thread_good W s t w B M Hs).
  - exact (clang_good W s m r w B M Hs).
  - exact (sends_good W s m w B M Hs).
  - exact (callback_good W s w WL B M (Q eq_refl) Hs).
Qed.

(** ** Executions *)

Lemma initial_good W s : initial s -> base s /\ mode W s.
Proof.
  assert (B : base empty_state).
  { repeat split; cbn; try tauto; try constructor.
    intros t th l Ht Hn Hl. destruct t as [|t]; [congruence|]. destruct t; discriminate. }
  intros [E0|E0]; subst s.
  - assert (R : ready empty_state None) by reflexivity.
    destruct (show_loader_good W empty_state None B (Forall_nil _) eq_refl R eq_refl eq_refl)
      as [s' [E [B' [M _]]]].
    unfold start_with_trace. rewrite E. auto.
  - split; [exact B|]. apply (Idle W _ None); try reflexivity. repeat constructor.
Qed.

Lemma exec_good W : well_labelled W -> forall evs s w,
  base s -> mode W s -> calm W s evs -> exec W s evs = Some w -> good W w.
Proof.
  intros WL. induction evs as [|e r IH]; intros s w B M C H; cbn [exec] in H.
  - inversion H; subst. split; assumption.
  - destruct C as [Q C]. destruct (step W s e) as [w'|] eqn:Es; [|discriminate].
    pose proof (step_good W s e w' WL B M Q Es) as G.
    destruct w' as [s'| |].
    + destruct G as [B' M']. exact (IH s' w B' M' (C s' eq_refl) H).
    + destruct r; [|discriminate]. inversion H; subst. exact G.
    + destruct r; [|discriminate]. inversion H; subst. exact G.
Qed.

(** * Proofs about the screen: what the properties say *)

From Coq Require Import List PeanoNat NArith Bool Lia.
From Verif Require Import Screen_Model Screen_Spec Screen_Proofs Screen_Proofs2 Screen_Proofs3
  Screen_Proofs4 Screen_Proofs5.
Import ListNotations.
Local Open Scope nat_scope.

(** ** Profiles on screen *)

Definition views (l : list layer) : list view :=
  flat_map (fun l => match l with LProfile v => [v] | _ => [] end) l.

Lemma views_app a b : views (a ++ b) = views a ++ views b.
Proof. unfold views. apply flat_map_app. Qed.

Lemma views_none l : no_profile l -> views l = [].
Proof.
  induction l as [|x l IH]; intros H; [reflexivity|]. cbn.
  fold (views l). rewrite IH by (intros v Hv; apply (H v); right; exact Hv).
  destruct x; try reflexivity. exfalso. apply (H v). left. reflexivity.
Qed.

Lemma views_map vs : views (map LProfile vs) = vs.
Proof. induction vs as [|v vs IH]; cbn; [reflexivity|]. f_equal. exact IH. Qed.

Lemma views_In v l : In v (views l) <-> In (LProfile v) l.
Proof.
  unfold views. rewrite in_flat_map. split.
  - intros [x [Hx Hv]]. destruct x; try destruct Hv as []; try contradiction.
    subst. exact Hx.
  - intros H. exists (LProfile v). split; [exact H|left; reflexivity].
Qed.

Lemma cover_no_profile l : Forall cover l -> no_profile l.
Proof. intros F v H. rewrite Forall_forall in F. exact (F _ H). Qed.

Lemma views_profiling W s l tr d tops profs bots :
  profiling W s l tr d tops profs bots -> profiles s = profs.
Proof.
  intros [Sc [_ [To [Pb _]]]]. change (views (screen s) = profs).
  rewrite Sc, !views_app, views_map.
  rewrite (views_none tops) by exact (overlay_no_profile _ _ _ To).
  rewrite (views_none bots) by exact (plain_no_profile _ Pb).
  cbn. apply app_nil_r.
Qed.

Lemma views_wait tops x bots :
  Forall cover tops -> Forall plain bots -> (forall v, x <> LProfile v) ->
  views (tops ++ x :: bots) = [].
Proof.
  intros Ct Pb N. apply views_none. intros v H. apply in_app_or in H.
  destruct H as [H|[H|H]].
  - exact (cover_no_profile _ Ct v H).
  - exact (N v H).
  - exact (plain_no_profile _ Pb v H).
Qed.

(** Either profiles are displayed, or none are, and none is recorded. *)
Lemma mode_cases W s : mode W s ->
  (profiles s = [] /\ stack s = [])
  \/ exists l tr d tops profs bots,
      profiling W s l tr d tops profs bots /\ expected s = [] /\ waiting s = []
      /\ no_escape s = false.
Proof.
  intros M.
  destruct M as [d P St NE R Ex Wt|l tr d tops profs bots Pr NE Ex Wt
                |l tops bots Sc Ct Pb Lb St NE Nc Lt Wt Src
                |m tops bots d Sc Ct Pb Lb St NE R Src].
  - left. split; [|exact St]. apply (views_none (screen s)). exact (plain_no_profile _ P).
  - right. exists l, tr, d, tops, profs, bots. auto.
  - left. split; [|exact St]. change (views (screen s) = []). rewrite Sc.
    apply views_wait; auto. discriminate.
  - left. split; [|exact St]. change (views (screen s) = []). rewrite Sc.
    apply views_wait; auto. discriminate.
Qed.

Lemma mode_length W s : mode W s -> length (stack s) = length (profiles s).
Proof.
  intros M. destruct (mode_cases W s M) as [[-> ->]|[l [tr [d [tops [profs [bots [Pr _]]]]]]]];
    [reflexivity|].
  rewrite (views_profiling _ _ _ _ _ _ _ _ Pr).
  destruct Pr as [_ [_ [_ [_ [_ [F _]]]]]]. exact (Forall2_length _ _ _ F).
Qed.

Lemma mode_mirrors W s : mode W s -> mirrors W s.
Proof.
  intros M. destruct (mode_cases W s M) as [H|[l [tr [d [tops [profs [bots [Pr _]]]]]]]];
    [left; exact H|]. right. exists l, tr.
  pose proof (views_profiling _ _ _ _ _ _ _ _ Pr) as E.
  destruct Pr as [Sc [Ne [To [Pb [Lb [F [K [Nb [Cd [Gn [Go [Wl R]]]]]]]]]]]].
  rewrite E. split; [exact Wl|]. split; [|split; [|split]].
  - clear - F. induction F as [|e v st vs H F IH]; intros w Hw; [destruct Hw|].
    destruct Hw as [<-|Hw]; [apply H|exact (IH w Hw)].
  - clear - F. induction F as [|e v st vs H F IH]; constructor; [apply H|exact IH].
  - clear - F K. destruct F as [|e v st vs H F]; [intros w []|]. cbn [tl] in *.
    induction F as [|e' v' st vs H' F IH]; intros w Hw; [destruct Hw|].
    destruct Hw as [<-|Hw].
    + destruct H' as [[_ [Ek _]] _]. rewrite <- Ek. apply K. left. reflexivity.
    + apply IH; [|exact Hw]. intros x Hx. apply K. right. exact Hx.
  - apply numbered_NoDup. exact Nb.
Qed.

(** ** Units and sorting *)

Definition unit_of (d : dd) : unit_kind :=
  match d with Time => UTime | Percentage _ Global => UGlobal | Percentage _ Parent => UParent end.

Lemma unit_with_norm d x : unit_of (with_norm d x) = unit_of d.
Proof. destruct d as [|n [|]]; reflexivity. Qed.

Lemma shows_uniform l tr d key st vs e v :
  Forall2 (shows l tr d key) st vs -> global_ok tr d -> In (e, v) (combine st vs) ->
  p_src v = l
  /\ p_key v = (match p_kind v, key with Flat, TotalDuration => SelfDuration | _, _ => key end)
  /\ match unit_of d with
     | UTime => p_dd v = Time
     | UGlobal => p_dd v = Percentage (duration tr) Global
     | UParent => exists x, lasts tr (e_name e) x /\ p_dd v = Percentage x Parent
     end.
Proof.
  intros F G. induction F as [|e' v' st vs H F IH]; intros Hin; [destruct Hin|].
  destruct Hin as [Ei|Hin]; [|exact (IH Hin)]. injection Ei as -> ->.
  destruct H as [[A1 [A2 [A3 A4]]] [B [C [D [E1 E2]]]]].
  split; [exact B|]. split.
  - rewrite E2, A2. destruct (p_kind v); [reflexivity|]. destruct key; reflexivity.
  - destruct d as [|n [|]]; cbn in *.
    + exact E1.
    + subst n. exact E1.
    + exists (e_norm e). auto.
Qed.

Lemma profiling_uniform W s l tr d tops profs bots :
  profiling W s l tr d tops profs bots -> uniform W s (unit_of d) (cfg_key s).
Proof.
  intros Pr e v tr' Hin Wv.
  rewrite (views_profiling _ _ _ _ _ _ _ _ Pr) in Hin.
  destruct Pr as [Sc [Ne [To [Pb [Lb [F [K [Nb [Cd [Gn [Go [Wl R]]]]]]]]]]]].
  destruct (shows_uniform _ _ _ _ _ _ _ _ F Go Hin) as [A [B C]].
  rewrite A, Wl in Wv. injection Wv as <-. auto.
Qed.

(** The settings after an event. *)
Definition unit_after (e : event) (u : unit_kind) : unit_kind :=
  match e with KeyU => next_unit u | _ => u end.
Definition key_after (e : event) (c : column) : column :=
  match e with Sort c' => c' | _ => c end.

Lemma ask_config W s l tr s' :
  ask W s = Some (l, tr, s') -> cfg_dd s' = cfg_dd s /\ cfg_key s' = cfg_key s.
Proof.
  unfold ask. destruct (nth_error (threads s) (cur s)) as [t|]; [|discriminate].
  destruct (load_all W (t_queue t) (t_data t)) as [k|]; [|discriminate].
  destruct (W k) as [x|]; [|discriminate]. intros H. injection H as _ _ <-. split; reflexivity.
Qed.

Lemma show_config W s name norm rows src o k s' d :
  cfg_dd s = Some d -> show_profile W s name norm rows src o k = Running s' ->
  cfg_dd s' = Some (with_norm d norm) /\ cfg_key s' = cfg_key s.
Proof.
  intros Cd H. unfold show_profile in H. rewrite Cd in H. cbn [bind] in H.
  destruct (ask W _) as [[[l tr] s1]|] eqn:Ea; [|discriminate]. cbn [bind] in H.
  destruct (negb (describable tr rows)); [discriminate|].
  destruct rows; [discriminate|]. injection H as <-.
  apply ask_config in Ea. destruct Ea as [E1 E2]. cbn in *. auto.
Qed.

Lemma step_config W s e s' d :
  mode W s -> expected s = [] -> (e = RunCallback -> forall m c, callbacks s = CShowLoader m :: c -> quiet s) ->
  profiles s <> [] -> cfg_dd s = Some d -> step W s e = Some (Running s') ->
  exists d', cfg_dd s' = Some d' /\ unit_of d' = unit_after e (unit_of d)
    /\ cfg_key s' = key_after e (cfg_key s).
Proof.
  intros M Ex Q Np Cd Hs.
  assert (G : forall s', cfg_dd s' = cfg_dd s -> cfg_key s' = cfg_key s ->
            exists d', cfg_dd s' = Some d' /\ unit_of d' = unit_of d /\ cfg_key s' = cfg_key s).
  { intros s0 E1 E2. exists d. rewrite E1. auto. }
  assert (Np' : forall x, Forall plain (screen s) -> screen s = x -> False).
  { intros x P _. apply Np. apply (views_none (screen s)). exact (plain_no_profile _ P). }
  destruct e as [ | | | | | |wz|create f|row|c| | |idx| |t|m r|m| ]; cbn [step unit_after key_after] in *.
  - injection Hs as <-. apply G; unfold exit_current_layer;
      destruct (1 <? length (screen s)); try reflexivity;
      destruct (no_escape s); try reflexivity; destruct (_ =? _); reflexivity.
  - injection Hs as Hs. unfold switch_duration_unit in Hs.
    destruct (stack s) as [|e0 st] eqn:St.
    { exfalso. pose proof (mode_length W s M) as L. rewrite St in L.
      apply Np. destruct (profiles s); [reflexivity|discriminate]. }
    rewrite <- St in Hs. rewrite Cd in Hs.
    destruct (match d with Time => _ | Percentage _ _ => _ end) as [d'|] eqn:Ed; [|discriminate].
    cbn [bind] in Hs. destruct (restyle_all _ _ _ _) as [l'|]; [|discriminate].
    cbn [bind] in Hs. injection Hs as <-. exists d'. split; [reflexivity|]. split; [|reflexivity].
    destruct d as [|n [|]].
    + destruct (global_norm s); [|discriminate]. injection Ed as <-. reflexivity.
    + injection Ed as <-. reflexivity.
    + injection Ed as <-. reflexivity.
  - injection Hs as <-. unfold global_dialog. destruct (existsb is_global (screen s)); apply G; reflexivity.
  - injection Hs as <-. unfold global_dialog. destruct (existsb is_global (screen s)); [apply G; reflexivity|].
    destruct (backtrace_dialog s); apply G; reflexivity.
  - injection Hs as <-. unfold global_dialog. destruct (existsb is_global (screen s)); [apply G; reflexivity|].
    destruct (help_dialog s); apply G; reflexivity.
  - destruct (screen s) as [|[| | | | | |v] r] eqn:Sc; try discriminate. injection Hs as Hs.
    unfold toggle in Hs. destruct (stack s) as [|e0 st]; [discriminate|].
    assert (H : forall rows src s2,
      (match p_other v with
       | Saved rows src => Some (rows, src, set_stack st s)
       | Query about =>
           match ask W (set_stack st s) with
           | None => None
           | Some (l, tr, s2) =>
               match (match about with
                      | None => Some (all_activities tr)
                      | Some id => all_children tr id
                      end) with
               | None => None
               | Some rows => Some (rows, l, s2)
               end
           end
       end) = Some (rows, src, s2) -> cfg_dd s2 = cfg_dd s /\ cfg_key s2 = cfg_key s).
    { intros rows src s2 E. destruct (p_other v) as [q|rows' src'].
      - destruct (ask W (set_stack st s)) as [[[l tr] s3]|] eqn:Ea; [|discriminate].
        destruct (match q with Some _ => _ | None => _ end); [|discriminate].
        injection E as _ _ <-. exact (ask_config _ _ _ _ _ Ea).
      - injection E as _ _ <-. split; reflexivity. }
    destruct (match p_other v with Query _ => _ | Saved _ _ => _ end) as [[[rows src] s2]|]; [|discriminate].
    cbn [bind] in Hs. destruct (H rows src s2 eq_refl) as [E1 E2].
    apply (show_config W _ _ _ _ _ _ _ _ d) in Hs; [|cbn; congruence].
    destruct Hs as [E3 E4]. exists (with_norm d (e_norm e0)). rewrite unit_with_norm.
    cbn in E4. split; [exact E3|]. split; [reflexivity|congruence].
  - destruct (screen s) as [|[| | | | | |v] r] eqn:Sc; try discriminate.
    exfalso. apply (Np' (LTable :: r)); [|reflexivity]. rewrite <- Sc.
    exact (proj1 (top_plain W s LTable r Sc (or_introl eq_refl) M)).
  - destruct (screen s) as [|[|ex| | | | |v] r] eqn:Sc; try discriminate.
    exfalso. apply (Np' (LPrompt ex :: r)); [|reflexivity]. rewrite <- Sc.
    exact (proj1 (top_plain W s (LPrompt ex) r Sc (or_intror (ex_intro _ ex eq_refl)) M)).
  - destruct (screen s) as [|[| | | | | |v] r] eqn:Sc; try discriminate.
    destruct (p_kind v); [|discriminate]. destruct (row <? length (p_rows v)); [|discriminate].
    injection Hs as Hs. unfold zoom in Hs.
    destruct (find_table _ _) as [v'|]; [|discriminate]. cbn [bind] in Hs.
    destruct (nth_error (p_rows v') row) as [a|]; [|discriminate]. cbn [bind] in Hs.
    destruct (a_kids a); cbn [negb] in Hs; [|injection Hs as <-; apply G; reflexivity].
    destruct (ask W s) as [[[l tr] s1]|] eqn:Ea; [|discriminate]. cbn [bind] in Hs.
    destruct (direct_children tr (a_id a)) as [[|k0 kr]|]; try discriminate. cbn [bind] in Hs.
    destruct (percent_norm (a_dur a)) as [norm|]; [|discriminate]. cbn [bind] in Hs.
    destruct (ask_config _ _ _ _ _ Ea) as [E1 E2].
    apply (show_config W _ _ _ _ _ _ _ _ d) in Hs; [|congruence].
    destruct Hs as [E3 E4]. exists (with_norm d norm). rewrite unit_with_norm.
    split; [exact E3|]. split; [reflexivity|congruence].
  - destruct (screen s) as [|[| | | | | |v] r] eqn:Sc; try discriminate.
    destruct (has_column v c (p_dd v)); [|discriminate]. injection Hs as Hs.
    unfold sort_profiles in Hs. destruct (stack s) as [|e0 st]; [discriminate|].
    rewrite Cd in Hs. cbn [bind] in Hs.
    destruct (sort_all _ _ _ _) as [l'|]; [|discriminate]. cbn [bind] in Hs. injection Hs as <-.
    exists d. repeat split.
  - destruct (screen s) as [|[| | |g| | |v] r] eqn:Sc; try discriminate; injection Hs as <-; apply G; reflexivity.
  - destruct (screen s) as [|[| | |[| |n b]| | |v] r]; discriminate.
  - destruct (screen s) as [|[| | |[| |n b]| | |v] r] eqn:Sc; try discriminate.
    destruct (idx <? n); [|discriminate]. injection Hs as <-. apply G; reflexivity.
  - destruct (screen s) as [|[| | | |l|m|v] r] eqn:Sc; try discriminate.
    + injection Hs as Hs. unfold abort_load in Hs.
      destruct (screen (end_wait (set_loads (l :: canceled s) (next_load s) s))); [discriminate|].
      injection Hs as <-. apply G; reflexivity.
    + injection Hs as <-. apply G; reflexivity.
  - destruct (nth_error (threads s) t) as [th|]; [|discriminate].
    destruct (load_next W th) as [[th' c]|]; [|discriminate]. injection Hs as <-. apply G; reflexivity.
  - destruct (get_job m (jobs s)) as [[c|]|]; try discriminate. injection Hs as <-. apply G; reflexivity.
  - destruct (get_job m (jobs s)) as [[[|c r]|]|]; try discriminate. injection Hs as <-. apply G; reflexivity.
  - destruct (callbacks s) as [|c r] eqn:Ec; [discriminate|]. injection Hs as Hs.
    unfold expected in Ex. rewrite Ec in Ex. cbn [filter] in Ex.
    destruct c as [l|m|m|]; cbn [run_callback] in Hs.
    + cbn [important] in Ex. unfold loaded in Hs. cbn [set_callbacks canceled] in Hs.
      destruct (mem l (canceled s)); [|discriminate]. injection Hs as <-. apply G; reflexivity.
    + discriminate.
    + exfalso. specialize (Q eq_refl m r eq_refl).
      apply Np. apply (views_none (screen s)). intros v Hv. exact (Q (LProfile v) Hv).
    + injection Hs as <-. apply G; reflexivity.
Qed.

Lemma step_uniform W s :
  well_labelled W -> base s -> mode W s -> profiles s <> [] ->
  exists u c, uniform W s u c
    /\ forall e s', step W s e = Some (Running s') ->
         (e = RunCallback -> forall m c, callbacks s = CShowLoader m :: c -> quiet s) ->
         uniform W s' (unit_after e u) (key_after e c).
Proof.
  intros WL B M Np.
  destruct (mode_cases W s M) as [[F _]|[l [tr [d [tops [profs [bots [Pr [Ex [Wt NE]]]]]]]]]];
    [contradiction|].
  exists (unit_of d), (cfg_key s). split; [exact (profiling_uniform _ _ _ _ _ _ _ _ Pr)|].
  intros e s' Hs Q.
  assert (Cd : cfg_dd s = Some d) by apply Pr.
  destruct (step_config W s e s' d M Ex Q Np Cd Hs) as [d' [E1 [E2 E3]]].
  pose proof (step_good W s e (Running s') WL B M Q Hs) as [B' M'].
  destruct (mode_cases W s' M') as [[F _]|[l' [tr' [d2 [tops' [profs' [bots' [Pr' _]]]]]]]].
  - intros e0 v tr0 Hin. rewrite F in Hin. destruct (stack s'); destruct Hin.
  - assert (Ed : d2 = d').
    { assert (H : cfg_dd s' = Some d2) by apply Pr'. congruence. }
    rewrite <- E2, <- E3, <- Ed. exact (profiling_uniform _ _ _ _ _ _ _ _ Pr').
Qed.

(** ** The call path *)

Lemma path_skipn k : forall es vs, call_path es vs -> call_path (skipn k es) (skipn k vs).
Proof.
  induction k as [|k IH]; intros es vs H; [exact H|].
  destruct es as [|e es]; destruct vs as [|v vs].
  - exact I.
  - destruct H.
  - exfalso. destruct es; exact H.
  - cbn [skipn]. apply IH. destruct es as [|e' es]; destruct vs as [|v' vs]; cbn in *; auto.
    + destruct H. contradiction.
    + contradiction.
    + apply H.
Qed.

Lemma views_suffix a b : suffix a b -> exists k, views a = skipn k (views b).
Proof.
  intros [c ->]. rewrite views_app. exists (length (views c)).
  rewrite skipn_app, skipn_all, Nat.sub_diag. reflexivity.
Qed.

Lemma path_shrink W s s' :
  mode W s -> mode W s' -> suffix (screen s') (screen s) ->
  (exists k, stack s' = skipn k (stack s)) ->
  call_path (stack s) (profiles s) -> call_path (stack s') (profiles s').
Proof.
  intros M M' Su [k Ek] H.
  pose proof (mode_length W s M) as L. pose proof (mode_length W s' M') as L'.
  destruct (views_suffix _ _ Su) as [j Ej].
  change (profiles s' = skipn j (profiles s)) in Ej.
  rewrite Ek, Ej, !skipn_length in L'. rewrite Ek, Ej.
  destruct (Nat.lt_ge_cases k (length (stack s))) as [Lt|Ge].
  - replace j with k by lia. apply path_skipn. exact H.
  - rewrite !skipn_all2 by lia. exact I.
Qed.

Lemma path_same s s' :
  stack s' = stack s -> profiles s' = profiles s ->
  call_path (stack s) (profiles s) -> call_path (stack s') (profiles s').
Proof. intros -> ->. auto. Qed.

Lemma path_none W s : mode W s -> stack s = [] -> call_path (stack s) (profiles s).
Proof.
  intros M E. pose proof (mode_length W s M) as L. rewrite E in *.
  destruct (profiles s); [exact I|discriminate].
Qed.

Lemma path_rows : forall es vs ws,
  map p_rows ws = map p_rows vs -> call_path es vs -> call_path es ws.
Proof.
  induction es as [|e es IH]; intros vs ws E H.
  - destruct vs; [|contradiction]. destruct ws; [exact I|discriminate].
  - destruct vs as [|v vs]; [destruct es; contradiction|].
    destruct ws as [|w ws]; [discriminate|]. cbn [map] in E. injection E as Ev Er.
    destruct vs as [|v' vs]; destruct ws as [|w' ws]; try discriminate.
    + destruct es; exact H.
    + assert (E' : p_rows w' = p_rows v') by (cbn in Er; congruence).
      destruct es as [|e' es]; cbn [call_path] in *.
      * destruct H as [[a Ha] []].
      * destruct H as [[a Ha] Hr]. split; [exists a; rewrite E'; exact Ha|].
        exact (IH (v' :: vs) (w' :: ws) Er Hr).
Qed.

Lemma like_rows a b : Forall2 like a b -> map p_rows (views b) = map p_rows (views a).
Proof.
  intros F. induction F as [|x y a b H F IH]; [reflexivity|].
  change (x :: a) with ([x] ++ a). change (y :: b) with ([y] ++ b).
  rewrite !views_app, !map_app, IH. f_equal.
  destruct H as [<-|[v [w [-> [-> [E _]]]]]]; [reflexivity|]. cbn. rewrite E. reflexivity.
Qed.

Lemma views_push x s : (forall v, x <> LProfile v) -> profiles (push x s) = profiles s.
Proof. intros H. unfold profiles. cbn. destruct x; try reflexivity. exfalso. exact (H v eq_refl). Qed.

Lemma path_dialog s d :
  call_path (stack s) (profiles s) ->
  call_path (stack (global_dialog s d)) (profiles (global_dialog s d)).
Proof.
  intros H. unfold global_dialog. destruct (existsb is_global (screen s)); [exact H|].
  destruct d; exact H.
Qed.

Lemma step_path W s e s' :
  well_labelled W -> base s -> mode W s ->
  (e = RunCallback -> forall m c, callbacks s = CShowLoader m :: c -> quiet s) ->
  step W s e = Some (Running s') ->
  call_path (stack s) (profiles s) -> call_path (stack s') (profiles s').
Proof.
  intros WL B M Q Hs P.
  pose proof (step_good W s e (Running s') WL B M Q Hs) as [B' M'].
  assert (Shrink : suffix (screen s') (screen s) -> (exists k, stack s' = skipn k (stack s)) ->
                   call_path (stack s') (profiles s')).
  { intros H1 H2. exact (path_shrink W s s' M M' H1 H2 P). }
  assert (Same : exists k, stack s = skipn k (stack s)) by (exists 0; reflexivity).
  destruct e as [ | | | | | |wz|create f|row|c| | |idx| |t|m r|m| ]; cbn [step] in Hs.
  - injection Hs as <-. apply Shrink; unfold exit_current_layer.
    + destruct (1 <? length (screen s)); [|exists []; reflexivity].
      destruct (no_escape s); [exists []; reflexivity|]. destruct (_ =? _); cbn; apply suffix_tl.
    + destruct (1 <? length (screen s)); [|exact Same].
      destruct (no_escape s); [exact Same|]. destruct (_ =? _); [|exact Same].
      exists 1. cbn. destruct (stack s); reflexivity.
  - injection Hs as Hs. unfold switch_duration_unit in Hs.
    destruct (stack s) as [|e0 st] eqn:St; [injection Hs as <-; rewrite St; exact P|].
    destruct (cfg_dd s) as [d|]; [|injection Hs as <-; rewrite St; exact P].
    destruct (match d with Time => _ | Percentage _ _ => _ end) as [d'|]; [|discriminate].
    cbn [bind] in Hs. destruct (restyle_all _ _ _ _) as [l'|] eqn:E; [|discriminate].
    cbn [bind] in Hs. injection Hs as <-. cbn [set_screen set_config stack screen profiles].
    rewrite St. apply (path_rows _ (profiles s)); [|exact P].
    exact (like_rows _ _ (restyle_like _ _ _ _ _ E)).
  - injection Hs as <-. apply path_dialog. exact P.
  - injection Hs as <-. apply path_dialog. exact P.
  - injection Hs as <-. apply path_dialog. exact P.
  - destruct (screen s) as [|[| | | | | |v] r] eqn:Sc; try discriminate. injection Hs as Hs.
    destruct (toggle_good W s v r WL B M Sc)
      as [s2 [E [_ [l [tr [d [w [ps [bots [Pr [_ [Esc [[e0 [e1 [st [S1 [S2 Nm]]]]] _]]]]]]]]]]]]].
    rewrite E in Hs. injection Hs as <-. unfold profiles in *. rewrite Esc. rewrite Sc in P.
    rewrite S1 in P. rewrite S2. cbn [flat_map app] in *.
    destruct st as [|e2 st]; destruct (flat_map _ r) as [|v2 vs]; cbn [call_path] in *;
      rewrite ?Nm; exact P.
  - destruct (screen s) as [|[| | | | | |v] r] eqn:Sc; try discriminate. injection Hs as Hs.
    destruct (top_plain W s LTable r Sc (or_introl eq_refl) M) as [_ [St _]].
    apply (path_none W s' M'). destruct wz as [|ex|]; try (injection Hs as <-; exact St).
    unfold show_loader in Hs. destruct (nth_error _ _); [|discriminate].
    injection Hs as <-. exact St.
  - destruct (screen s) as [|[|ex| | | | |v] r] eqn:Sc; try discriminate. injection Hs as Hs.
    destruct (top_plain W s (LPrompt ex) r Sc (or_intror (ex_intro _ ex eq_refl)) M) as [_ [St _]].
    apply (path_none W s' M').
    destruct create; [injection Hs as <-; destruct f; exact St|].
    destruct ex; [|injection Hs as <-; exact St].
    unfold show_loader in Hs. destruct (nth_error _ _); [|discriminate].
    injection Hs as <-. exact St.
  - destruct (screen s) as [|[| | | | | |v] r] eqn:Sc; try discriminate.
    destruct (p_kind v) eqn:Kv; [|discriminate].
    destruct (Nat.ltb_spec row (length (p_rows v))) as [L|L]; [|discriminate].
    injection Hs as Hs.
    destruct (nth_error (p_rows v) row) as [a|] eqn:Ha; [|apply nth_error_None in Ha; lia].
    destruct (zoom_good W s v r row a WL B M Sc Kv Ha) as [[E _]|[s2 [E [_ H]]]];
      rewrite E in Hs; [discriminate|]. injection Hs as <-.
    destruct H as [[_ ->]|[Hk [l [tr [d [w [ps [bots [Pr [St [Esc _]]]]]]]]]]]; [exact P|].
    rewrite St. unfold profiles. rewrite Esc. cbn [flat_map app].
    change (flat_map _ (screen s)) with (profiles s).
    destruct (profiles s) as [|v' vs] eqn:Ep.
    { exfalso. unfold profiles in Ep. rewrite Sc in Ep. discriminate. }
    assert (v' = v) by (unfold profiles in Ep; rewrite Sc in Ep; cbn in Ep; congruence). subst v'.
    destruct (stack s) as [|e0 st] eqn:Es; [exfalso; exact P|].
    split; [|exact P]. exists a. split; [exact (nth_error_In _ _ Ha)|]. auto.
  - destruct (screen s) as [|[| | | | | |v] r] eqn:Sc; try discriminate.
    destruct (has_column v c (p_dd v)) eqn:Hc; [|discriminate]. injection Hs as Hs.
    unfold sort_profiles in Hs. destruct (stack s) as [|e0 st] eqn:St; [discriminate|].
    destruct (cfg_dd s) as [d|]; [|discriminate]. cbn [bind] in Hs.
    destruct (sort_all _ _ _ _) as [l'|] eqn:E; [|discriminate].
    cbn [bind] in Hs. injection Hs as <-. cbn [set_screen set_config stack screen profiles].
    rewrite St. apply (path_rows _ (profiles s)); [|exact P].
    apply like_rows. rewrite Sc in *. cbn [tl] in E.
    apply (like_trans _ (LProfile (sort_by c (p_dd v) v) :: r)); [|exact (sort_like _ _ _ _ _ E)].
    constructor; [|apply like_refl]. right. exists v, (sort_by c (p_dd v) v).
    destruct (sort_by_keeps c (p_dd v) v) as [A1 [A2 A3]]. auto.
  - destruct (screen s) as [|[| | |d| | |v] r] eqn:Sc; try discriminate; injection Hs as <-;
      (apply Shrink; [cbn; rewrite Sc; apply (suffix_tl (_ :: r))|exact Same]).
  - destruct (screen s) as [|[| | |[| |n b]| | |v] r]; discriminate.
  - destruct (screen s) as [|[| | |[| |n b]| | |v] r] eqn:Sc; try discriminate.
    destruct (idx <? n); [|discriminate]. injection Hs as <-.
    apply Shrink; [|eexists; reflexivity]. rewrite <- Sc. cbn. apply suffix_skipn.
  - destruct (screen s) as [|[| | | |l|m|v] r] eqn:Sc; try discriminate; injection Hs as Hs.
    + unfold abort_load in Hs.
      destruct (screen (end_wait (set_loads (l :: canceled s) (next_load s) s))) eqn:Ew; [discriminate|].
      injection Hs as <-. apply Shrink; [|exact Same]. rewrite <- Sc. cbn. apply suffix_skipn.
    + rewrite <- Hs. exact P.
  - destruct (nth_error (threads s) t) as [th|]; [|discriminate].
    destruct (load_next W th) as [[th' c]|]; [|discriminate]. injection Hs as <-. exact P.
  - destruct (get_job m (jobs s)) as [[c|]|]; try discriminate. injection Hs as <-. exact P.
  - destruct (get_job m (jobs s)) as [[[|c r]|]|]; try discriminate. injection Hs as <-. exact P.
  - destruct (callbacks s) as [|c r] eqn:Ec; [discriminate|]. injection Hs as Hs.
    destruct c as [l|m|m|]; cbn [run_callback] in Hs.
    + destruct (mem l (canceled s)) eqn:Em.
      { unfold loaded in Hs. cbn [set_callbacks canceled] in Hs. rewrite Em in Hs.
        injection Hs as <-. exact P. }
      assert (Nl : ~ In l (canceled s)) by (intros F; apply mem_In in F; congruence).
      destruct (loaded_live W s l r WL B M Ec Nl) as [tops [bots [Sc [Ct [Pb H]]]]].
      destruct H as [[_ [s2 [E [_ [_ [_ St]]]]]]|[tr [Wl [[E _]|H]]]].
      * rewrite E in Hs. injection Hs as <-. exact (path_none W _ M' St).
      * rewrite E in Hs. discriminate.
      * destruct H as [s2 [v [d [E [_ [Pr [_ [_ [_ [_ [_ [_ [_ [e0 [St Nm]]]]]]]]]]]]]]].
        rewrite E in Hs. injection Hs as <-.
        rewrite (views_profiling _ _ _ _ _ _ _ _ Pr), St. exact Nm.
    + injection Hs as <-. apply Shrink; [cbn; apply suffix_skipn|exact Same].
    + assert (Np : stack s = []).
      { destruct (quiet_idle W s (Q eq_refl m r eq_refl) M) as [_ [St _]]. exact St. }
      apply (path_none W s' M'). unfold show_loader in Hs. destruct (nth_error _ _); [|discriminate].
      injection Hs as <-. exact Np.
    + injection Hs as <-. exact P.
Qed.

(** * Proofs about the screen: every event keeps the invariant of calm executions *)

From Coq Require Import List PeanoNat NArith Bool Lia.
From Verif Require Import Screen_Model Screen_Spec Screen_Proofs Screen_Proofs2.
Import ListNotations.
Local Open Scope nat_scope.

Lemma top_profile W s v r :
  screen s = LProfile v :: r -> mode W s ->
  exists l tr d ps bots,
    profiling W s l tr d [] (v :: ps) bots /\ r = map LProfile ps ++ bots
    /\ no_escape s = false /\ expected s = [] /\ waiting s = [].
Proof.
  intros E M.
  destruct M as [d P St NE R Ex Wt|l tr d tops profs bots Pr NE Ex Wt
                |l tops bots Sc Ct Pb Lb St NE Nc Lt Wt Src
                |m tops bots d Sc Ct Pb Lb St NE R Src].
  - exfalso. rewrite E in P. inversion P; subst. assumption.
  - pose proof Pr as Pr0. destruct Pr as [Sc [Ne [To _]]].
    destruct tops as [|x tops].
    + destruct profs as [|w ps]; [congruence|]. cbn in Sc. rewrite E in Sc. inversion Sc; subst.
      exists l, tr, d, ps, bots. auto 10.
    + exfalso. rewrite E in Sc. inversion Sc; subst. inversion To; subst. assumption.
  - exfalso. destruct tops as [|x tops]; rewrite E in Sc; inversion Sc; subst.
    inversion Ct; subst. assumption.
  - exfalso. destruct tops as [|x tops]; rewrite E in Sc; inversion Sc; subst.
    inversion Ct; subst. assumption.
Qed.

Lemma top_plain W s x r :
  screen s = x :: r -> (x = LTable \/ exists b, x = LPrompt b) -> mode W s ->
  Forall plain (screen s) /\ stack s = [] /\ no_escape s = false
  /\ (exists d, ready s d) /\ expected s = [] /\ waiting s = [].
Proof.
  intros E Hx M.
  assert (H1 : ~ cover x) by (destruct Hx as [->|[b ->]]; intros F; exact F).
  assert (H2 : forall n b, ~ overlay n b x) by (destruct Hx as [->|[b ->]]; intros ? ? F; exact F).
  destruct M as [d P St NE R Ex Wt|l tr d tops profs bots Pr NE Ex Wt
                |l tops bots Sc Ct Pb Lb St NE Nc Lt Wt Src
                |m tops bots d Sc Ct Pb Lb St NE R Src].
  - repeat split; auto. exists d. exact R.
  - exfalso. destruct Pr as [Sc [Ne [To _]]]. destruct tops as [|y tops].
    + destruct profs as [|w ps]; [congruence|]. rewrite E in Sc. inversion Sc; subst.
      destruct Hx as [F|[b F]]; discriminate.
    + rewrite E in Sc. inversion Sc; subst. inversion To; subst. exact (H2 _ _ H3).
  - exfalso. destruct tops as [|y tops]; rewrite E in Sc; inversion Sc; subst.
    + destruct Hx as [F|[b F]]; discriminate.
    + inversion Ct; subst. contradiction.
  - exfalso. destruct tops as [|y tops]; rewrite E in Sc; inversion Sc; subst.
    + destruct Hx as [F|[b F]]; discriminate.
    + inversion Ct; subst. contradiction.
Qed.

(** ** U *)

Lemma restyle_state W s l tr d d' tops profs bots :
  profiling W s l tr d tops profs bots -> no_escape s = false -> expected s = [] ->
  waiting s = [] -> base s -> global_ok tr d' ->
  exists s',
    bind (restyle_all (rev (stack s)) d' (cfg_key s) (screen s)) (fun l =>
      Running (set_screen l (set_config (Some d') (cfg_key s) (global_norm s) s))) = Running s'
    /\ base s' /\ profiling W s' l tr d' tops (restyled (stack s) d' (cfg_key s) profs) bots
    /\ no_escape s' = false /\ expected s' = [] /\ waiting s' = [] /\ cfg_key s' = cfg_key s
    /\ stack s' = stack s.
Proof.
  intros Pr NE Ex Wt B G.
  destruct Pr as [Sc [Ne [To [Pb [Lb [F [K [Nb [Cd [Gn [Go [Wl R]]]]]]]]]]]].
  rewrite Sc.
  rewrite (restyle_all_ok (stack s) profs d' (cfg_key s) tops bots
             (shows_tables _ _ _ _ _ _ F) Nb (plain_no_profile _ Pb)).
  cbn [bind]. eexists. split; [reflexivity|]. split; [exact B|].
  split; [|repeat split; auto].
  unfold profiling. cbn [set_screen set_config screen stack below cfg_key cfg_dd global_norm].
  rewrite restyled_length. repeat split; auto.
  - intros E. apply (f_equal (@length view)) in E. rewrite restyled_length in E.
    destruct profs; [congruence|discriminate].
  - apply (shows_restyled l tr d). exact F.
  - apply restyled_numbered. exact Nb.
Qed.

Lemma unit_good W s :
  base s -> mode W s -> exists s', switch_duration_unit s = Running s' /\ base s' /\ mode W s'.
Proof.
  intros B M. pose proof M as M0. unfold switch_duration_unit.
  destruct M as [d P St NE R Ex Wt|l tr d tops profs bots Pr NE Ex Wt
                |l tops bots Sc Ct Pb Lb St NE Nc Lt Wt Src
                |m tops bots d Sc Ct Pb Lb St NE R Src];
    try (rewrite St; exists s; auto).
  pose proof Pr as Pr0.
  destruct Pr as [Sc [Ne [To [Pb [Lb [F [K [Nb [Cd [Gn [Go [Wl R]]]]]]]]]]]].
  destruct (stack s) as [|e st] eqn:St; [exists s; auto|].
  rewrite <- St in *. rewrite Cd. clear e st St.
  assert (H : exists d', (match d with
                | Percentage _ Global => Some (Percentage 0 Parent)
                | Percentage _ Parent => Some Time
                | Time => option_map (fun g => Percentage g Global) (global_norm s)
                end) = Some d' /\ global_ok tr d').
  { destruct d as [|x [|]].
    - rewrite Gn. eexists. split; reflexivity.
    - eexists. split; [reflexivity|exact I].
    - eexists. split; [reflexivity|exact I]. }
  destruct H as [d' [-> G]]. cbn [bind].
  destruct (restyle_state W s l tr d d' tops profs bots Pr0 NE Ex Wt B G)
    as [s' [Es [B' [Pr' [NE' [Ex' [Wt' _]]]]]]].
  exists s'. split; [exact Es|]. split; [exact B'|].
  eapply Prof; eassumption.
Qed.

(** ** Sort *)

Lemma sort_good W s v r c :
  base s -> mode W s -> screen s = LProfile v :: r -> has_column v c (p_dd v) = true ->
  exists s', sort_profiles s v c = Running s' /\ base s'
    /\ (exists l tr d ps bots, profiling W s' l tr d [] ps bots /\ cfg_dd s = Some d)
    /\ no_escape s' = false /\ expected s' = [] /\ waiting s' = [] /\ cfg_key s' = c
    /\ stack s' = stack s.
Proof.
  intros B M E Hc. destruct (top_profile W s v r E M) as [l [tr [d [ps [bots [Pr [-> [NE [Ex Wt]]]]]]]]].
  destruct Pr as [Sc [Ne [To [Pb [Lb [F [K [Nb [Cd [Gn [Go [Wl R]]]]]]]]]]]].
  unfold sort_profiles.
  destruct (stack s) as [|e st] eqn:Est; inversion F as [|e' v' st' ps' Sh F' E1 E2]; subst.
  rewrite Cd. cbn [bind]. rewrite E. cbn [tl].
  change (LProfile (sort_by c (p_dd v) v) :: map LProfile ps ++ bots)
    with ([LProfile (sort_by c (p_dd v) v)] ++ map LProfile ps ++ bots).
  rewrite (sort_all_ok st ps d c [LProfile (sort_by c (p_dd v) v)] bots
             (shows_tables _ _ _ _ _ _ F') (numbered_tail v ps Nb) (plain_no_profile _ Pb) K).
  cbn [bind]. eexists. split; [reflexivity|]. split; [exact B|].
  split; [|repeat split; auto].
  exists l, tr, d, (sort_by c (p_dd v) v :: sorted st d c ps), bots.
  split; [|reflexivity].
  unfold profiling. cbn [set_screen set_config screen stack below cfg_key cfg_dd global_norm].
  rewrite Est. repeat split; auto.
  - discriminate.
  - constructor; [|apply (shows_sorted l tr d (cfg_key s)); assumption].
    rewrite (sort_by_own v c Hc).
    destruct Sh as [A [A2 [A3 [A4 [A5 A6]]]]].
    unfold shows, describes, other_ok in *. cbn in *. repeat split; auto; try apply A.
    destruct A as [_ [A _]]. rewrite A. destruct (p_kind v) eqn:Kv; [reflexivity|].
    destruct c; try reflexivity. exfalso. cbn in Hc. rewrite Kv in Hc.
    rewrite andb_false_r in Hc. discriminate.
  - apply numbered_cons.
    + rewrite sort_by_table, sorted_length. exact (numbered_head v ps Nb).
    + apply sorted_numbered. exact (numbered_tail v ps Nb).
Qed.

(** ** Zoom *)

Lemma zoom_good W s v r row a :
  well_labelled W -> base s -> mode W s -> screen s = LProfile v :: r ->
  p_kind v = Hierarchical -> nth_error (p_rows v) row = Some a ->
  (zoom W s v row = Crash /\ unfit W)
  \/ exists s', zoom W s v row = Running s' /\ base s'
      /\ ((a_kids a = false /\ s' = s)
          \/ (a_kids a = true
              /\ exists l tr d w ps bots,
                  profiling W s' l tr d [] (w :: v :: ps) bots
                  /\ stack s' = {| e_name := Some (a_id a); e_table := length (v :: ps);
                                   e_norm := a_dur a; e_kind := Hierarchical |} :: stack s
                  /\ screen s' = LProfile w :: screen s
                  /\ no_escape s' = false /\ expected s' = [] /\ waiting s' = []
                  /\ cfg_key s' = cfg_key s
                  /\ (exists d0, cfg_dd s = Some d0 /\ d = with_norm d0 (a_dur a)))).
Proof.
  intros WL B M E Kv Hr.
  destruct (top_profile W s v r E M) as [l [tr [d [ps [bots [Pr [-> [NE [Ex Wt]]]]]]]]].
  destruct Pr as [Sc [Ne [To [Pb [Lb [F [K [Nb [Cd [Gn [Go [Wl R]]]]]]]]]]]].
  pose proof (WL l tr Wl) as ND.
  unfold zoom. rewrite E.
  rewrite (find_here v (map LProfile ps ++ bots))
    by (rewrite (numbered_head v ps Nb); apply no_table_rest;
        [exact (numbered_tail v ps Nb)|exact (plain_no_profile _ Pb)]).
  cbn [bind]. rewrite Hr. cbn [bind].
  destruct (a_kids a) eqn:Ha; cbn [negb]; [|right; exists s; auto].
  rewrite (ask_ready W s l tr R Wl). cbn [bind].
  destruct (stack s) as [|e st] eqn:Est; inversion F as [|e' v' st' ps' Sh F' E1 E2]; subst.
  destruct Sh as [[A1 [A2 [A3 A4]]] _].
  destruct (lists_in tr _ _ _ A3 a (nth_error_In _ _ Hr)) as [n [Hn ->]].
  unfold direct_children. cbn [info a_id]. rewrite (find_node_in tr n ND Hn). cbn [option_map bind].
  cbn [info a_kids] in Ha.
  assert (Kn : n_kids n <> []) by (intros F0; rewrite F0 in Ha; discriminate).
  destruct (map info (n_kids n)) as [|k0 kr] eqn:Ek.
  { exfalso. destruct (n_kids n); [congruence|discriminate]. }
  unfold percent_norm. cbn [a_dur info].
  destruct (N.eqb_spec (n_dur n) 0) as [Z|Z].
  { left. split; [reflexivity|]. exists l, tr. split; [exact Wl|].
    intros [_ T]. exact (T n Hn Kn Z). }
  cbn [bind]. right.
  destruct (show_ok W s l tr d (v :: ps) bots (Some (n_id n)) (n_dur n) (k0 :: kr)
              (Query (Some (n_id n))) Hierarchical) as [s' [Es [B' [Pr' [NE' [Ex' [Wt' [St' Ck]]]]]]]];
    try assumption.
  - rewrite Est. exact F.
  - rewrite Est. intros e0 [<-|H]; [|exact (K e0 H)]. congruence.
  - left. exact Cd.
  - exists n. split; [exact Hn|]. split; [reflexivity|]. symmetry. exact Ek.
  - exists n. auto.
  - discriminate.
  - cbn. auto.
  - exists s'. split; [exact Es|]. split; [exact B'|]. right. split; [reflexivity|].
    eexists l, tr, (with_norm d (n_dur n)), _, ps, bots.
    split; [exact Pr'|]. rewrite <- Est. split; [exact St'|].
    split; [|repeat split; auto; exists d; auto].
    destruct Pr' as [Sc' _]. rewrite Sc'. reflexivity.
Qed.

(** ** F *)

Lemma toggle_good W s v r :
  well_labelled W -> base s -> mode W s -> screen s = LProfile v :: r ->
  exists s', toggle W s v = Running s' /\ base s'
    /\ exists l tr d w ps bots,
        profiling W s' l tr d [] (w :: ps) bots
        /\ p_kind w = other_kind (p_kind v)
        /\ screen s' = LProfile w :: r
        /\ (exists e e' st, stack s = e :: st /\ stack s' = e' :: st /\ e_name e' = e_name e)
        /\ no_escape s' = false /\ expected s' = [] /\ waiting s' = []
        /\ cfg_key s' = cfg_key s
        /\ (exists d0 x, cfg_dd s = Some d0 /\ d = with_norm d0 x).
Proof.
  intros WL B M E.
  destruct (top_profile W s v r E M) as [l [tr [d [ps [bots [Pr [-> [NE [Ex Wt]]]]]]]]].
  destruct Pr as [Sc [Ne [To [Pb [Lb [F [K [Nb [Cd [Gn [Go [Wl R]]]]]]]]]]]].
  pose proof (WL l tr Wl) as ND.
  unfold toggle.
  destruct (stack s) as [|e st] eqn:Est; inversion F as [|e' v' st' ps' Sh F' E1 E2]; subst.
  destruct Sh as [[A1 [A2 [A3 A4]]] [A5 [A6 [A7 [A8 A9]]]]].
  set (s1 := set_stack st s).
  assert (H : exists rows,
    (match p_other v with
     | Saved rows src => Some (rows, src, s1)
     | Query about =>
         match ask W s1 with
         | None => None
         | Some (l, tr, s2) =>
             match (match about with
                    | None => Some (all_activities tr)
                    | Some id => all_children tr id
                    end) with
             | None => None
             | Some rows => Some (rows, l, s2)
             end
         end
     end) = Some (rows, l, s1)
    /\ rows <> [] /\ lists tr (e_name e) (other_kind (e_kind e)) rows).
  { unfold other_ok in A7. destruct (p_other v) as [q|rows src].
    - destruct A7 as [Kh ->]. rewrite Kh in *. cbn [other_kind].
      rewrite (ask_ready W s1 l tr) by (try exact R; exact Wl).
      destruct (e_name e) as [i|].
      + cbn [lists] in A3. destruct A3 as [n [Hn [Hi Er]]].
        unfold all_children. rewrite <- Hi, (find_node_in tr n ND Hn). cbn [option_map].
        eexists. split; [reflexivity|]. split.
        * rewrite Er in A6. destruct (n_kids n) as [|x k]; [exfalso; apply A6; reflexivity|].
          cbn [flat_map]. rewrite (nodes_kids x). discriminate.
        * exists n. auto.
      + cbn [lists] in A3. eexists. split; [reflexivity|]. split.
        * rewrite A3 in A6. destruct tr as [|x k]; [exfalso; apply A6; reflexivity|].
          unfold all_activities, all_nodes. cbn [flat_map]. rewrite (nodes_kids x). discriminate.
        * reflexivity.
    - destruct A7 as [-> [Hn Hl]]. exists rows. auto. }
  destruct H as [rows [-> [Hn Hl]]]. cbn [bind].
  assert (Ek : (match p_kind v with Hierarchical => Flat | Flat => Hierarchical end)
               = other_kind (e_kind e)) by (rewrite A2; reflexivity).
  rewrite Ek, A5.
  destruct (show_ok W (pop s1) l tr d ps bots (e_name e) (e_norm e) rows
              (Saved (p_rows v) l) (other_kind (e_kind e)))
    as [s' [Es [B' [Pr' [NE' [Ex' [Wt' [St' Ck]]]]]]]]; try assumption.
  - cbn. rewrite E. reflexivity.
  - exact (numbered_tail v ps Nb).
  - left. exact Cd.
  - cbn. repeat split; auto. rewrite A2. rewrite A2 in A3. destruct (p_kind v); exact A3.
  - exists s'. split; [exact Es|]. split; [exact B'|].
    eexists l, tr, (with_norm d (e_norm e)), _, ps, bots.
    split; [exact Pr'|]. split; [cbn; rewrite A2; reflexivity|].
    split; [destruct Pr' as [Sc' _]; rewrite Sc'; reflexivity|].
    split; [|repeat split; auto; exists d, (e_norm e); auto].
    exists e. eexists. exists st. split; [reflexivity|]. split; [exact St'|reflexivity].
Qed.

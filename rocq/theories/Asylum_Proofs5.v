(** Statistics of path interners (C09). *)
From Verif Require Import Base Asylum_Model Asylum_Spec Asylum_Proofs1 Asylum_Proofs2 Asylum_Proofs4.
From Coq Require Import Permutation.

Section PI.
  Variable comp_hash : str -> N.
  Variable seq_hash : list key -> N.
  Variable probe : N -> N -> bool.
  Hypothesis probe_refl : forall h, probe h h = true.
  Variable cw : N.
  Variables w lb : N.
  Hypothesis lb_pos : (0 < lb)%N.
  Hypothesis lb_lt : (lb < 64)%N.

  Notation CInv := (Inv str comp_hash cw).
  Notation SInv := (SInv key seq_hash lb).
  Notation loop := (pi_loop comp_hash probe cw).
  Notation intern := (pi_intern comp_hash seq_hash probe cw w lb).
  Notation run := (pi_run comp_hash seq_hash probe cw w lb).

  Definition kept (c : component) : Prop := match c with Normal _ | RootDir => True | _ => False end.

  (** The strings that the loop interns *)
  Lemma loop_items l : forall cs e r cs' e', CInv cs -> loop cs e l = (r, cs', e') ->
    CInv cs' /\ ext cs cs' /\
    (forall s, In s (it_items cs') -> In s (it_items cs) \/ exists c, In c l /\ kept c /\ component_str c = s) /\
    (r = Ret tt -> forall c, In c l -> kept c -> In (component_str c) (it_items cs')).
  Proof.
    induction l as [|x l IH]; intros cs e r cs' e' HI; cbn [pi_loop].
    - intros E. injection E as <- <- <-. split; [exact HI|]. split; [apply ext_refl|]. split; [auto|]. intros _ c [].
    - assert (Hpush : forall x, kept x ->
        match comp_intern comp_hash probe cw cs (component_str x) with
        | Ret (k, cs'0) => loop cs'0 (en_push e k) l
        | Panic => (Panic, cs, e)
        end = (r, cs', e') ->
        CInv cs' /\ ext cs cs' /\
        (forall s, In s (it_items cs') -> In s (it_items cs) \/ exists c, In c (x :: l) /\ kept c /\ component_str c = s) /\
        (r = Ret tt -> forall c, In c (x :: l) -> kept c -> In (component_str c) (it_items cs'))).
      { intros y Hy. unfold comp_intern.
        destruct (intern_spec str str_eqb str_eqb_eq comp_hash probe probe_refl cw cs (component_str y) HI)
          as [(i & Hi & E)|[(Hn & Hc & st1 & E & Hit & HI1)|(Hn & Hc & E)]]; rewrite E; intros Hl.
        - apply IH in Hl; [|exact HI]. destruct Hl as (L1 & L2 & L3 & L4). split; [exact L1|]. split; [exact L2|]. split.
          + intros s Hs. destruct (L3 s Hs) as [|(c & C1 & C2)]; [now left|]. right. exists c. split; [now right|exact C2].
          + intros Hr c [<-|Hc] Hk; [|now apply L4]. destruct L2 as [z Hz]. rewrite Hz. apply in_or_app. left.
            eapply nth_error_In; exact Hi.
        - apply IH in Hl; [|exact HI1]. destruct Hl as (L1 & L2 & L3 & L4). split; [exact L1|].
          split; [eapply ext_trans; [|exact L2]; eexists; exact Hit|]. split.
          + intros s Hs. destruct (L3 s Hs) as [H|(c & C1 & C2)].
            * rewrite Hit in H. apply in_app_or in H as [H|[H|[]]]; [now left|]. right. exists y. split; [now left|]. now split.
            * right. exists c. split; [now right|exact C2].
          + intros Hr c [<-|Hc'] Hk; [|now apply L4]. destruct L2 as [z Hz]. rewrite Hz, Hit. apply in_or_app. left.
            apply in_or_app. right. now left.
        - injection Hl as <- <- <-. split; [exact HI|]. split; [apply ext_refl|]. split; [auto|discriminate]. }
      assert (Hskip : ~ kept x -> forall e0, loop cs e0 l = (r, cs', e') ->
        CInv cs' /\ ext cs cs' /\
        (forall s, In s (it_items cs') -> In s (it_items cs) \/ exists c, In c (x :: l) /\ kept c /\ component_str c = s) /\
        (r = Ret tt -> forall c, In c (x :: l) -> kept c -> In (component_str c) (it_items cs'))).
      { intros Hx e0 Hl. apply IH in Hl; [|exact HI]. destruct Hl as (L1 & L2 & L3 & L4). split; [exact L1|]. split; [exact L2|]. split.
        - intros s Hs. destruct (L3 s Hs) as [|(c & C1 & C2)]; [now left|]. right. exists c. split; [now right|exact C2].
        - intros Hr c [<-|Hc] Hk; [contradiction|now apply L4]. }
      destruct x as [| | |s].
      + apply (Hpush RootDir I).
      + apply Hskip. intros [].
      + destruct (Nat.ltb 1 (en_len e)); apply Hskip; intros [].
      + apply (Hpush (Normal s) I).
  Qed.

  (** The stored sequences [seqs] are the names [forms] *)
  Definition QInv (st : pathint) (seqs : list (list key)) (forms : list (list str)) : Prop :=
    PInv comp_hash seq_hash cw lb st seqs /\
    Forall2 (fun ks ns => denotes (pi_comps st) ks ([slash] :: ns)) seqs forms.

  Lemma intern_forms st seqs forms p r st' : QInv st seqs forms -> intern st p = (r, st') ->
    exists seqs' forms', QInv st' seqs' forms' /\
      (forall ns, In ns forms' <-> In ns forms \/ exists k, r = Ret (PKey k) /\ normal_form p = ns) /\
      (forall s, In s (it_items (pi_comps st')) -> In s (it_items (pi_comps st)) \/
         absolute p /\ exists c, In c (path_components p) /\ kept c /\ component_str c = s) /\
      (forall s, In s (it_items (pi_comps st)) -> In s (it_items (pi_comps st'))) /\
      (absolute p -> r <> Panic -> forall c, In c (path_components p) -> kept c -> In (component_str c) (it_items (pi_comps st'))).
  Proof.
    intros [[HC HS] HF]. unfold pi_intern. destruct (path_is_relative p) eqn:Hrel.
    - intros E. injection E as <- <-. exists seqs, forms. split; [split; [split|]; assumption|]. split.
      { intros ns. split; [auto|]. intros [H|(k & H & _)]; [exact H|discriminate]. }
      split; [auto|]. split; [auto|]. intros Ha. apply absolute_iff in Ha. congruence.
    - assert (Habs : absolute p) by (apply absolute_iff; exact Hrel).
      destruct (loop _ _ _) as [[lr cs'] e'] eqn:El.
      destruct (loop_items _ _ _ _ _ _ HC El) as (_ & Hx & L3 & L4).
      assert (Hitems : forall s, In s (it_items cs') -> In s (it_items (pi_comps st)) \/
         absolute p /\ exists c, In c (path_components p) /\ kept c /\ component_str c = s).
      { intros s Hs. destruct (L3 s Hs); [now left|right; now split]. }
      assert (Hold : forall s, In s (it_items (pi_comps st)) -> In s (it_items cs')).
      { intros s Hs. destruct Hx as [z ->]. apply in_or_app. now left. }
      unfold sq_entry in El. pose proof (mk_eta key (pi_seqs st)) as Heta.
      assert (El' : loop (pi_comps st) (mk_entry (mk_seqint (sq_concat (pi_seqs st) ++ []) (sq_table (pi_seqs st)))
                 (length (sq_concat (pi_seqs st)))) (path_components p) = (lr, cs', e')).
      { rewrite app_nil_r, Heta. exact El. }
      apply (loop_spec comp_hash probe probe_refl cw lb lb_pos lb_lt _ _ _ _ _ []) in El'; [|exact HC|constructor].
      destruct El' as (HC' & Hext & ks & -> & Hden).
      assert (HF' : Forall2 (fun ks ns => denotes cs' ks ([slash] :: ns)) seqs forms).
      { clear -HF Hext. induction HF; constructor; [eapply denotes_ext; eassumption|assumption]. }
      destruct lr as [[]|].
      + specialize (Hden eq_refl). rewrite components_absolute in Hden by exact Hrel.
        pose proof (entry_intern_eq key N.eqb N.eqb_eq seq_hash probe probe_refl w lb lb_pos lb_lt (pi_seqs st) seqs ks HS) as Hei.
        cbv zeta in Hei. destruct Hei as [(Hf & k & s1 & E & Ee)|(Hf & Ee)]; rewrite Ee; intros Eq; injection Eq as <- <-.
        * pose proof (step_spec key N.eqb N.eqb_eq seq_hash probe probe_refl w lb lb_pos lb_lt (pi_seqs st) seqs (OpIntern ks) ([], Some (Ret k)) s1 HS) as Hst.
          cbn [sq_step] in Hst. rewrite E in Hst. specialize (Hst eq_refl). destruct Hst as (seqs' & S1 & S2 & S3 & _ & S4).
          cbn [wanted snd] in S4. destruct S4 as (Hin & Hk & Hold1 & Hnew).
          destruct (in_dec (list_eq_dec N.eq_dec) ks seqs) as [Hi|Hi].
          -- destruct (Hold1 Hi) as [-> ->]. exists seqs, forms. split; [split; [split; [exact HC'|exact HS]|exact HF']|]. split.
             ++ intros ns. split; [auto|]. intros [H|(k' & _ & <-)]; [exact H|].
                clear -HF' Hi Hden. induction HF' as [|k0 n0 s0 f0 H0 HF IH]; [destruct Hi|].
                destruct Hi as [->|Hi]; [|right; auto]. left. apply denotes_get in H0. apply denotes_get in Hden. congruence.
             ++ cbn [pi_comps]. split; [exact Hitems|]. split; [exact Hold|]. intros _ _. exact (L4 eq_refl).
          -- destruct (Hnew Hi) as (_ & -> & _). exists (ks :: seqs), (normal_form p :: forms).
             split; [split; [split; [exact HC'|exact S1]|constructor; [exact Hden|exact HF']]|]. split.
             ++ intros ns. cbn [In]. split.
                ** intros [<-|H]; [right; exists k; split; reflexivity|now left].
                ** intros [H|(k' & _ & <-)]; auto.
             ++ cbn [pi_comps]. split; [exact Hitems|]. split; [exact Hold|]. intros _ _. exact (L4 eq_refl).
        * exists seqs, forms. split; [split; [split; [exact HC'|exact HS]|exact HF']|]. split.
          { intros ns. split; [auto|]. intros [H|(k & H & _)]; [exact H|discriminate]. }
          cbn [pi_comps]. split; [exact Hitems|]. split; [exact Hold|]. intros _ H. now destruct H.
      + intros Eq; injection Eq as <- <-. exists seqs, forms. rewrite (drop_entry key).
        split; [split; [split; [exact HC'|exact HS]|exact HF']|]. split.
        { intros ns. split; [auto|]. intros [H|(k & H & _)]; [exact H|discriminate]. }
        cbn [pi_comps]. split; [exact Hitems|]. split; [exact Hold|]. intros _ H. now destruct H.
  Qed.

  Lemma run_forms ps : forall st seqs forms outs st', QInv st seqs forms -> run st ps = (outs, st') ->
    exists seqs' forms', QInv st' seqs' forms' /\
      (forall ns, In ns forms' <-> In ns forms \/
         exists i p k, nth_error ps i = Some p /\ nth_error outs i = Some (Ret (PKey k)) /\ normal_form p = ns) /\
      (~ In Panic outs -> forall s, In s (it_items (pi_comps st')) <-> In s (it_items (pi_comps st)) \/
         exists p c, In p ps /\ absolute p /\ In c (path_components p) /\ kept c /\ component_str c = s).
  Proof.
    induction ps as [|p ps IH]; intros st seqs forms outs st' HI; cbn [pi_run].
    - intros E; injection E as <- <-. exists seqs, forms. split; [exact HI|]. split.
      + intros ns. split; [auto|]. intros [H|(i & p & k & H & _)]; [exact H|destruct i; discriminate].
      + intros _ s. split; [auto|]. intros [H|(p & c & [] & _)]; exact H.
    - destruct (intern st p) as [r st1] eqn:Ei. destruct (run st1 ps) as [rs st2] eqn:Er.
      intros E; injection E as <- <-.
      destruct (intern_forms _ _ _ _ _ _ HI Ei) as (s1 & f1 & HI1 & Hf1 & A1 & A2 & A3).
      destruct (IH _ _ _ _ _ HI1 Er) as (s2 & f2 & HI2 & Hf2 & A4).
      exists s2, f2. split; [exact HI2|]. split.
      + intros ns. rewrite Hf2, Hf1. split.
        * intros [[H|(k & -> & H)]|(i & q & k & H1 & H2 & H3)]; [now left| |].
          -- right. exists 0, p, k. auto.
          -- right. exists (S i), q, k. auto.
        * intros [H|([|i] & q & k & H1 & H2 & H3)]; [now left; left| |].
          -- cbn in H1, H2. injection H1 as ->. injection H2 as ->. left. right. exists k. auto.
          -- right. exists i, q, k. auto.
      + intros Hn s. assert (Hn1 : r <> Panic) by (intros ->; apply Hn; now left).
        assert (Hn2 : ~ In Panic rs) by (intros H; apply Hn; now right).
        rewrite (A4 Hn2 s). split.
        * intros [H|(q & c & H1 & H2 & H3)].
          -- destruct (A1 s H) as [H1|(Ha & c & H1 & H2)]; [now left|]. right. exists p, c. split; [now left|]. tauto.
          -- right. exists q, c. split; [now right|]. tauto.
        * intros [H|(q & c & [<-|H1] & H2 & H3 & H4 & H5)].
          -- left. now apply A2.
          -- left. subst s. now apply A3.
          -- right. exists q, c. auto.
  Qed.

  Lemma segment_kept (segs : list str) (s : str) :
    (exists c, In c (filter_some (map segment_component segs)) /\ kept c /\ component_str c = s) <->
    In s segs /\ s <> [] /\ s <> [dot] /\ s <> [dot; dot].
  Proof.
    induction segs as [|x segs IH]; cbn [map filter_some In].
    - split; [intros (c & [] & _)|intros [[] _]].
    - assert (X : match segment_component x with
        | None => x = [] \/ x = [dot]
        | Some c => (c = ParentDir /\ x = [dot; dot]) \/ (c = Normal x /\ x <> [] /\ x <> [dot] /\ x <> [dot; dot]) end).
      { unfold segment_component. destruct x as [|a x]; [now left|]. unfold is_dot, is_dotdot.
        destruct (str_eqb_spec (a :: x) [dot]); [now right|]. destruct (str_eqb_spec (a :: x) [dot; dot]); [now left|].
        right. repeat split; try discriminate; assumption. }
      destruct (segment_component x) as [c|]; cbn [filter_some In].
      + split.
        * intros (c' & [<-|H] & K & E).
          -- destruct X as [[-> _]|(-> & Hx)]; [destruct K|]. cbn in E. subst s. split; [now left|exact Hx].
          -- destruct (proj1 IH) as [I1 I2]; [now exists c'|]. split; [now right|exact I2].
        * intros [[<-|H] Hs].
          -- destruct X as [[_ ->]|(-> & Hx)]; [tauto|]. exists (Normal x). repeat split. now left.
          -- destruct (proj2 IH) as (c' & C1 & C2); [now split|]. exists c'. split; [now right|exact C2].
      + rewrite IH. split; [intros [H1 H2]; split; [now right|exact H2]|]. intros [[<-|H] Hs]; [|now split].
        destruct X; tauto.
  Qed.

  Theorem path_counts ps outs st : run pi_new ps = (outs, st) ->
    (forall l, NoDup l ->
       (forall ns, In ns l <-> exists i p k, nth_error ps i = Some p /\ nth_error outs i = Some (Ret (PKey k)) /\ normal_form p = ns) ->
       pi_len st = length l /\ (pi_is_empty st = true <-> l = []) /\
       pi_num_components st = length (concat (map (fun ns => [slash] :: ns) l))) /\
    (~ In Panic outs -> forall names, NoDup names ->
       (forall s, In s names <-> exists p, In p ps /\ absolute p /\
          (s = [slash] \/ In s (split_slash p) /\ s <> [] /\ s <> [dot] /\ s <> [dot; dot])) ->
       pi_num_unique_components st = length names).
  Proof.
    intros H. assert (HQ : QInv pi_new [] []) by (split; [apply new_pinv|constructor]).
    destruct (run_forms _ _ _ _ _ _ HQ H) as (seqs & forms & [[HC HS] HF] & Hin & Hnames). split.
    - intros l Hl Hin2. assert (Hnd : NoDup forms).
      { pose proof (si_nodup _ _ _ _ _ HS) as Hs. clear -HF Hs HC lb_pos lb_lt. induction HF as [|ks ns seqs forms H HF IH]; [constructor|].
        inversion Hs as [|? ? Hn Hr]; subst. constructor; [|now apply IH]. intros Hi. apply Hn. clear -HF Hi H HC lb_pos lb_lt.
        induction HF as [|k0 n0 s0 f0 H0 HF IH]; [destruct Hi|]. destruct Hi as [->|Hi]; [|right; auto].
        left. eapply denotes_inj; eassumption. }
      assert (Hperm : Permutation forms l).
      { apply NoDup_Permutation; [exact Hnd|exact Hl|]. intros ns. rewrite Hin2, Hin. cbn [In]. tauto. }
      assert (Hlen : pi_len st = length l).
      { unfold pi_len, sq_len. rewrite (Forall2_length _ _ _ (si_rep _ _ _ _ _ HS)), (Forall2_length _ _ _ HF).
        now apply Permutation_length. }
      split; [exact Hlen|]. split.
      + unfold pi_is_empty, sq_is_empty. unfold pi_len in Hlen. rewrite Hlen, Nat.eqb_eq. destruct l; cbn; split; congruence.
      + unfold pi_num_components, sq_num_items. rewrite (si_total _ _ _ _ _ HS).
        transitivity (length (concat (map (fun ns : list str => [slash] :: ns) forms))).
        * unfold total. clear -HF. induction HF as [|ks ns s f H0 HF IH]; [reflexivity|].
          cbn [concat map fold_right]. rewrite ?app_length. pose proof (Forall2_length _ _ _ H0) as E0.
          f_equal; [exact E0|exact IH].
        * assert (G : forall (X Y : Type) (g : X -> list Y) (l1 l2 : list X), Permutation l1 l2 ->
            length (concat (map g l1)) = length (concat (map g l2))).
          { clear. intros X Y g l1 l2 P. induction P; cbn [map concat]; rewrite ?app_length; lia. }
          exact (G _ _ _ _ _ Hperm).
    - intros Hn names Hnd Hspec. unfold pi_num_unique_components, it_len.
      apply Permutation_length. apply NoDup_Permutation; [apply (inv_nodup _ _ _ _ HC)|exact Hnd|].
      intros s. rewrite (Hnames Hn s), Hspec. cbn [it_items pi_comps pi_new it_new In]. split.
      + intros [[]|(p & c & H1 & H2 & H3 & H4 & H5)]. exists p. split; [exact H1|]. split; [exact H2|].
        destruct H2 as [rest ->]. unfold path_components in H3. cbn [path_has_root] in H3. rewrite N.eqb_refl in H3.
        destruct H3 as [<-|H3]; [left; now subst s|]. right. apply segment_kept. now exists c.
      + intros (p & H1 & H2 & H3). right. exists p. destruct H3 as [->|H3].
        * exists RootDir. split; [exact H1|]. split; [exact H2|]. destruct H2 as [rest ->]. unfold path_components. cbn [path_has_root].
          rewrite N.eqb_refl. repeat split. now left.
        * apply segment_kept in H3 as (c & C1 & C2). exists c. split; [exact H1|]. split; [exact H2|]. split; [|exact C2].
          destruct H2 as [rest ->]. unfold path_components. cbn [path_has_root]. rewrite N.eqb_refl. now right.
  Qed.
End PI.

(** Proofs about the path interner (asylum/src/path.rs). *)
From Verif Require Import Base Asylum_Model Asylum_Spec Asylum_Proofs1 Asylum_Proofs2.

Local Arguments seqkey_into_impl_key : simpl never.
Local Arguments slice : simpl never.

(** ** Path strings *)
Lemma split_slash_app_nonempty s : split_slash s <> [].
Proof. induction s as [|c s IH]; simpl; [discriminate|]. destruct (N.eqb c slash); [discriminate|]. destruct (split_slash s); discriminate. Qed.

Lemma split_slash_no_slash s : Forall (fun seg => ~ In slash seg) (split_slash s).
Proof.
  induction s as [|c s IH]; simpl; [constructor; [intros []|constructor]|].
  destruct (N.eqb_spec c slash) as [->|Hne]; [constructor; [intros []|exact IH]|].
  destruct (split_slash s) as [|seg rest]; [constructor; [|constructor]; intros [H|[]]; congruence|].
  inversion IH; subst. constructor; [|assumption]. intros [H|H]; [congruence|contradiction].
Qed.

(** Components as used by the interning loop. *)
Definition comp_step (acc : list str) (c : component) : list str :=
  match c with
  | RootDir | Normal _ => acc ++ [component_str c]
  | ParentDir => if Nat.ltb 1 (length acc) then removelast acc else acc
  | CurDir => acc
  end.

Lemma sub_len {A} (c ks : list A) : length (c ++ ks) - length c = length ks.
Proof. rewrite app_length; lia. Qed.

Lemma removelast_cons_app {A} (r : A) acc : acc <> [] -> removelast (r :: acc) = r :: removelast acc.
Proof. destruct acc; [congruence|reflexivity]. Qed.

Lemma comp_steps_norm segs : forall acc,
  fold_left comp_step (filter_some (map segment_component segs)) ([slash] :: acc)
  = [slash] :: fold_left norm_step segs acc.
Proof.
  induction segs as [|s segs IH]; intros acc; [reflexivity|].
  cbn [map filter_some fold_left]. unfold segment_component, norm_step at 2, is_dot, is_dotdot.
  destruct s as [|c s]; [simpl str_eqb at 1; apply IH|].
  change (str_eqb (c :: s) []) with false. cbv iota.
  destruct (str_eqb (c :: s) [dot]) eqn:E1; [cbn [filter_some]; apply IH|].
  destruct (str_eqb (c :: s) [dot; dot]) eqn:E2; cbn [filter_some fold_left].
  - cbn [comp_step]. destruct acc as [|a acc]; [cbn [length]; simpl Nat.ltb; cbv iota; apply (IH [])|].
    rewrite (proj2 (Nat.ltb_lt _ _)) by (simpl; lia).
    rewrite removelast_cons_app by discriminate. apply IH.
  - cbn [comp_step component_str]. apply (IH (acc ++ [c :: s])).
Qed.

Lemma components_absolute p : path_is_relative p = false ->
  fold_left comp_step (path_components p) [] = [slash] :: normal_form p.
Proof.
  unfold path_is_relative, path_components. destruct (path_has_root p); [|discriminate].
  intros _. cbn [fold_left comp_step component_str app]. apply comp_steps_norm.
Qed.

Lemma absolute_iff p : absolute p <-> path_is_relative p = false.
Proof.
  unfold absolute, path_is_relative, path_has_root. destruct p as [|c p].
  - split; [intros [r H]; discriminate|discriminate].
  - destruct (N.eqb_spec c slash) as [->|Hne]; simpl; split; try discriminate; eauto.
    intros [r H]. congruence.
Qed.

Definition good_name (s : str) : Prop := s <> [] /\ s <> [dot] /\ s <> [dot; dot] /\ ~ In slash s.

Lemma removelast_incl {A} (l : list A) : incl (removelast l) l.
Proof.
  destruct l as [|x l _] using rev_ind; [intros y []|]. rewrite removelast_last.
  intros y H. apply in_or_app; left; exact H.
Qed.

Lemma norm_steps_good segs : forall acc, Forall (fun seg => ~ In slash seg) segs ->
  Forall good_name acc -> Forall good_name (fold_left norm_step segs acc).
Proof.
  induction segs as [|s segs IH]; intros acc Hs Ha; [exact Ha|].
  inversion Hs; subst. cbn [fold_left]. apply IH; [assumption|]. unfold norm_step.
  destruct (str_eqb_spec s []); [exact Ha|]. destruct (str_eqb_spec s [dot]); [exact Ha|].
  destruct (str_eqb_spec s [dot; dot]).
  - eapply incl_Forall; [apply removelast_incl|exact Ha].
  - apply Forall_app. split; [exact Ha|]. constructor; [|constructor]. repeat split; assumption.
Qed.

Lemma normal_form_good p : Forall good_name (normal_form p).
Proof. apply norm_steps_good; [apply split_slash_no_slash|constructor]. Qed.

Lemma split_seg s rest : ~ In slash s -> split_slash (s ++ slash :: rest) = s :: split_slash rest.
Proof.
  induction s as [|c s IH]; intros H; simpl.
  - reflexivity.
  - destruct (N.eqb_spec c slash) as [->|]; [exfalso; apply H; left; reflexivity|].
    rewrite IH by (intros Hi; apply H; right; exact Hi). reflexivity.
Qed.

Lemma split_one s : ~ In slash s -> split_slash s = [s].
Proof.
  induction s as [|c s IH]; intros H; simpl; [reflexivity|].
  destruct (N.eqb_spec c slash) as [->|]; [exfalso; apply H; left; reflexivity|].
  rewrite IH by (intros Hi; apply H; right; exact Hi). reflexivity.
Qed.

Lemma split_join l : Forall good_name l -> l <> [] -> split_slash (join_slash l) = l.
Proof.
  induction l as [|s l IH]; [congruence|]. intros Hg _. inversion Hg as [|? ? (_ & _ & _ & Hs) Hl]; subst.
  destruct l as [|t l]; [apply split_one; exact Hs|].
  change (join_slash (s :: t :: l)) with (s ++ slash :: join_slash (t :: l)).
  rewrite split_seg by exact Hs. f_equal. apply IH; [exact Hl|discriminate].
Qed.

Lemma norm_steps_of_good l : forall acc, Forall good_name l -> fold_left norm_step l acc = acc ++ l.
Proof.
  induction l as [|s l IH]; intros acc Hg; [rewrite app_nil_r; reflexivity|].
  inversion Hg as [|? ? (H1 & H2 & H3 & _) Hl]; subst. cbn [fold_left]. unfold norm_step at 2.
  destruct (str_eqb_spec s []); [contradiction|]. destruct (str_eqb_spec s [dot]); [contradiction|].
  destruct (str_eqb_spec s [dot; dot]); [contradiction|].
  rewrite IH by exact Hl. rewrite <- app_assoc. reflexivity.
Qed.

Lemma normal_form_render l : Forall good_name l -> normal_form (render l) = l.
Proof.
  intros Hg. unfold normal_form, render. cbn [split_slash]. rewrite N.eqb_refl. cbn [fold_left].
  change (norm_step [] []) with (@nil str).
  destruct l as [|s l]; [reflexivity|]. rewrite split_join by (assumption || discriminate).
  apply norm_steps_of_good; exact Hg.
Qed.

Lemma ends_with_slash_app b s : s <> [] -> ~ In slash s -> ends_with_slash (b ++ s) = false.
Proof.
  intros H1 H2. unfold ends_with_slash. destruct s as [|x s _] using rev_ind; [congruence|].
  rewrite app_assoc, rev_app_distr. simpl. apply N.eqb_neq. intros ->. apply H2. apply in_or_app. right; left; reflexivity.
Qed.

Lemma good_no_root s : good_name s -> path_has_root s = false.
Proof.
  intros (H1 & _ & _ & H4). destruct s as [|c s]; [reflexivity|]. simpl. apply N.eqb_neq.
  intros ->; apply H4; left; reflexivity.
Qed.

Lemma push_all l : forall b, Forall good_name l -> b <> [] -> ends_with_slash b = false ->
  fold_left pathbuf_push l b = b ++ concat (map (fun s => slash :: s) l).
Proof.
  induction l as [|s l IH]; intros b Hg Hb He; [simpl; rewrite app_nil_r; reflexivity|].
  inversion Hg as [|? ? Hs Hl]; subst. cbn [fold_left map concat]. unfold pathbuf_push at 2.
  rewrite (good_no_root _ Hs). destruct b as [|c b]; [congruence|]. rewrite He.
  destruct Hs as (H1 & _ & _ & H4).
  rewrite IH; [|exact Hl|intros H; destruct (app_eq_nil _ _ H) as [Hx _]; discriminate|].
  - rewrite <- !app_assoc. reflexivity.
  - rewrite app_assoc. apply ends_with_slash_app; assumption.
Qed.

Lemma join_concat s l : join_slash (s :: l) = s ++ concat (map (fun s => slash :: s) l).
Proof.
  revert s; induction l as [|t l IH]; intros s; [simpl; rewrite app_nil_r; reflexivity|].
  change (join_slash (s :: t :: l)) with (s ++ slash :: join_slash (t :: l)). rewrite IH. reflexivity.
Qed.

Lemma boxed_render l : Forall good_name l -> boxed_path ([slash] :: l) = render l.
Proof.
  intros Hg. unfold boxed_path, render. cbn [fold_left]. change (pathbuf_push [] [slash]) with [slash].
  destruct l as [|s l]; [reflexivity|]. cbn [fold_left].
  inversion Hg as [|? ? Hs Hl]; subst. unfold pathbuf_push at 2. rewrite (good_no_root _ Hs).
  change (ends_with_slash [slash]) with true. cbv iota. destruct Hs as (H1 & _ & _ & H4).
  rewrite push_all; [|exact Hl|destruct s; discriminate|apply ends_with_slash_app; assumption].
  rewrite join_concat. reflexivity.
Qed.

(** ** The interner *)
Section PI.
  Variable comp_hash : str -> N.
  Variable seq_hash : list key -> N.
  Variable probe : N -> N -> bool.
  Hypothesis probe_refl : forall h, probe h h = true.
  Variable cw : N.
  Variables w lb : N.
  Hypothesis lb_pos : (0 < lb)%N.
  Hypothesis lb_lt : (lb < 64)%N.

  Notation CInv := (Inv str comp_hash cw).
  Notation SInv := (SInv key seq_hash lb).
  Notation fits := (fits key w lb).
  Notation key_of := (key_of key N.eqb seq_hash probe lb).
  Notation loop := (pi_loop comp_hash probe cw).
  Notation intern := (pi_intern comp_hash seq_hash probe cw w lb).
  Notation run := (pi_run comp_hash seq_hash probe cw w lb).
  Notation e_intern := (en_intern key N.eqb seq_hash probe w lb).

  Definition ext (cs cs' : interner str) : Prop := exists e, it_items cs' = it_items cs ++ e.
  Lemma ext_refl cs : ext cs cs. Proof. exists []. rewrite app_nil_r; reflexivity. Qed.
  Lemma ext_trans a b c : ext a b -> ext b c -> ext a c.
  Proof. intros [e1 H1] [e2 H2]. exists (e1 ++ e2). rewrite H2, H1, app_assoc. reflexivity. Qed.

  (** Component keys [ks] denote the strings [ss]. *)
  Definition denotes (cs : interner str) (ks : list key) (ss : list str) : Prop :=
    Forall2 (fun k s => (1 <= k)%N /\ index (it_items cs) (key_into_usize k) = Some s) ks ss.

  Lemma index_ext cs cs' k (s : str) : ext cs cs' -> index (it_items cs) k = Some s -> index (it_items cs') k = Some s.
  Proof. intros [e H] E. unfold index in *. rewrite H, nth_error_app1; [exact E|]. apply nth_error_Some. congruence. Qed.

  Lemma denotes_ext cs cs' ks ss : ext cs cs' -> denotes cs ks ss -> denotes cs' ks ss.
  Proof. intros He. apply Forall2_impl. intros k s [H1 H2]. split; [exact H1|eapply index_ext; eassumption]. Qed.

  Lemma denotes_get cs ks ss : denotes cs ks ss -> get_all cs ks = Ret ss.
  Proof.
    induction 1 as [|k s ks ss [_ Hs] Hf IH]; [reflexivity|]. cbn [get_all]. unfold it_get. rewrite Hs. simpl.
    rewrite IH. reflexivity.
  Qed.

  Lemma denotes_inj cs ss : CInv cs -> forall k1 k2, denotes cs k1 ss -> denotes cs k2 ss -> k1 = k2.
  Proof.
    intros HI. induction ss as [|s ss IH]; intros k1 k2 H1 H2; inversion H1; inversion H2; subst; [reflexivity|].
    destruct H4 as [Hx1 Hx2]. destruct H9 as [Hy1 Hy2]. f_equal; [|apply IH; assumption].
    unfold index, key_into_usize in Hx2, Hy2.
    assert (Hlt : N.to_nat (x - 1) < length (it_items cs)) by (apply nth_error_Some; congruence).
    assert (E : N.to_nat (x - 1) = N.to_nat (x0 - 1)).
    { apply (proj1 (NoDup_nth_error _) (inv_nodup _ _ _ _ HI)); [exact Hlt|congruence]. }
    lia.
  Qed.

  Lemma denotes_removelast cs ks ss : denotes cs ks ss -> denotes cs (removelast ks) (removelast ss).
  Proof.
    induction 1 as [|k s ks ss H Hf IH]; [constructor|]. simpl. destruct Hf; [constructor|].
    constructor; [exact H|exact IH].
  Qed.

  Lemma loop_spec l : forall cs c t ks ss cs' e' r, CInv cs -> denotes cs ks ss ->
    loop cs (mk_entry (mk_seqint (c ++ ks) t) (length c)) l = (r, cs', e') ->
    CInv cs' /\ ext cs cs' /\
    exists ks', e' = mk_entry (mk_seqint (c ++ ks') t) (length c) /\
                (r = Ret tt -> denotes cs' ks' (fold_left comp_step l ss)).
  Proof.
    induction l as [|x l IH]; intros cs c t ks ss cs' e' r HI Hd; cbn [pi_loop fold_left].
    - intros E; injection E as <- <- <-. split; [exact HI|]. split; [apply ext_refl|].
      exists ks. auto.
    - assert (Hpush : forall x, comp_step ss x = ss ++ [component_str x] ->
        match comp_intern comp_hash probe cw cs (component_str x) with
        | Ret (k, cs'0) => loop cs'0 (en_push (mk_entry (mk_seqint (c ++ ks) t) (length c)) k) l
        | Panic => (Panic, cs, mk_entry (mk_seqint (c ++ ks) t) (length c))
        end = (r, cs', e') ->
        CInv cs' /\ ext cs cs' /\
        exists ks', e' = mk_entry (mk_seqint (c ++ ks') t) (length c) /\
                (r = Ret tt -> denotes cs' ks' (fold_left comp_step l (comp_step ss x)))).
      { intros y Hy. unfold comp_intern.
        destruct (intern_spec str str_eqb str_eqb_eq comp_hash probe probe_refl cw cs (component_str y) HI)
          as [(i & Hi & E)|[(Hn & Hc & st1 & E & Hit & HI1)|(Hn & Hc & E)]]; rewrite E.
        - unfold en_push; cbn [en_int en_init sq_concat sq_table]. rewrite <- app_assoc. intros Hl.
          apply (IH _ _ _ _ (comp_step ss y)) in Hl; [exact Hl|exact HI|]. rewrite Hy.
          apply Forall2_app; [exact Hd|]. constructor; [|constructor]. split; [lia|].
          rewrite key_of_index. unfold index. rewrite Nat2N.id. exact Hi.
        - unfold en_push; cbn [en_int en_init sq_concat sq_table]. rewrite <- app_assoc. intros Hl.
          assert (Hx : ext cs st1) by (exists [component_str y]; exact Hit).
          apply (IH _ _ _ _ (comp_step ss y)) in Hl; [|exact HI1|].
          + destruct Hl as (L1 & L2 & L3). split; [exact L1|]. split; [eapply ext_trans; eassumption|exact L3].
          + rewrite Hy. apply Forall2_app; [eapply denotes_ext; eassumption|]. constructor; [|constructor]. split; [lia|].
            rewrite key_of_index. unfold index. rewrite Nat2N.id, Hit.
            rewrite nth_error_app2 by lia. rewrite Nat.sub_diag. reflexivity.
        - intros Hl; injection Hl as <- <- <-. split; [exact HI|]. split; [apply ext_refl|].
          exists ks. split; [reflexivity|discriminate]. }
      destruct x as [| | |s].
      + apply Hpush; reflexivity.
      + intros Hl. apply (IH _ _ _ _ ss) in Hl; assumption.
      + cbn [comp_step]. pose proof (Forall2_length _ _ _ Hd) as Hlen.
        assert (Hel : en_len (mk_entry (mk_seqint (c ++ ks) t) (length c)) = length ss).
        { unfold en_len; cbn [en_int en_init sq_concat]. etransitivity; [apply sub_len|exact Hlen]. }
        rewrite Hel.
        destruct (Nat.ltb_spec 1 (length ss)) as [Hlt|Hge].
        * pose proof (en_step_local key lb lb_pos lb_lt c t ks EPop) as Hp.
          cbn [en_step] in Hp. destruct (en_pop _) as [rp ep]. cbn [local_step] in Hp.
          destruct (rev ks) as [|k0 kr] eqn:Er.
          { exfalso. assert (Hz : ks = []) by (rewrite <- (rev_involutive ks), Er; reflexivity).
            subst ks. inversion Hd; subst. simpl in Hlt. lia. }
          injection Hp as _ ->. cbn [snd]. intros Hl.
          apply (IH _ _ _ _ (removelast ss)) in Hl; [exact Hl|exact HI|].
          replace (rev kr) with (removelast ks); [apply denotes_removelast; exact Hd|].
          rewrite <- (rev_involutive ks), Er. simpl. rewrite removelast_last. reflexivity.
        * intros Hl. apply (IH _ _ _ _ ss) in Hl; assumption.
      + apply Hpush; reflexivity.
  Qed.

  Definition PInv (st : pathint) (seqs : list (list key)) : Prop :=
    CInv (pi_comps st) /\ SInv (pi_seqs st) seqs.

  (** key [k] of [st] denotes the names [ns]. *)
  Definition pkey (st : pathint) (seqs : list (list key)) (k : key) (ns : list str) : Prop :=
    exists ks, In ks seqs /\ key_of (pi_seqs st) ks k /\ denotes (pi_comps st) ks ([slash] :: ns).

  Lemma intern_ok st seqs p r st' : PInv st seqs -> intern st p = (r, st') ->
    exists seqs', PInv st' seqs' /\
      (forall k ns, pkey st seqs k ns -> pkey st' seqs' k ns) /\
      match r with
      | Ret (PErrRelative q) => ~ absolute p /\ q = p /\ st' = st
      | Ret (PKey k) => absolute p /\ pkey st' seqs' k (normal_form p) /\
           (N.of_nat (S (length (normal_form p))) < 2 ^ lb)%N
      | Panic => absolute p /\ pi_seqs st' = pi_seqs st
      end.
  Proof.
    intros [HC HS]. unfold pi_intern.
    destruct (path_is_relative p) eqn:Hrel.
    - intros E; injection E as <- <-. exists seqs. split; [split; assumption|]. split; [auto|].
      split; [|auto]. rewrite absolute_iff. congruence.
    - assert (Habs : absolute p) by (apply absolute_iff; exact Hrel).
      destruct (loop _ _ _) as [[lr cs'] e'] eqn:El. unfold sq_entry in El.
      pose proof (mk_eta key (pi_seqs st)) as Heta.
      assert (El' : loop (pi_comps st) (mk_entry (mk_seqint (sq_concat (pi_seqs st) ++ []) (sq_table (pi_seqs st)))
                 (length (sq_concat (pi_seqs st)))) (path_components p) = (lr, cs', e')).
      { rewrite app_nil_r, Heta. exact El. }
      apply (loop_spec _ _ _ _ _ []) in El'; [|exact HC|constructor].
      destruct El' as (HC' & Hext & ks & -> & Hden).
      assert (Hpk : forall seqs2 sq2, (forall ks k, In ks seqs -> key_of (pi_seqs st) ks k -> In ks seqs2 /\ key_of sq2 ks k) ->
         forall k ns, pkey st seqs k ns -> pkey (mk_pathint cs' sq2) seqs2 k ns).
      { intros seqs2 sq2 Hm k ns (ks0 & H1 & H2 & H3). exists ks0. destruct (Hm _ _ H1 H2) as [M1 M2].
        split; [exact M1|]. split; [exact M2|]. eapply denotes_ext; eassumption. }
      destruct lr as [[]|].
      + specialize (Hden eq_refl). rewrite components_absolute in Hden by exact Hrel.
        pose proof (entry_intern_eq key N.eqb N.eqb_eq seq_hash probe probe_refl w lb lb_pos lb_lt (pi_seqs st) seqs ks HS) as Hei.
        cbv zeta in Hei. destruct Hei as [(Hf & k & s1 & E & Ee)|(Hf & Ee)]; rewrite Ee; intros Eq; injection Eq as <- <-.
        * pose proof (step_spec key N.eqb N.eqb_eq seq_hash probe probe_refl w lb lb_pos lb_lt (pi_seqs st) seqs (OpIntern ks) ([], Some (Ret k)) s1 HS) as Hst.
          cbn [sq_step] in Hst. rewrite E in Hst. specialize (Hst eq_refl). destruct Hst as (seqs' & S1 & S2 & S3 & _ & S4).
          cbn [wanted snd] in S4. destruct S4 as (Hin & Hk & _).
          exists seqs'. split; [split; assumption|]. split; [apply Hpk; intros; split; [apply S2; assumption|apply S3; assumption]|].
          split; [exact Habs|]. split; [exists ks; auto|].
          apply Forall2_length in Hden. simpl length in Hden at 2. rewrite <- Hden. apply Hf.
        * exists seqs. split; [split; assumption|]. split; [apply Hpk; auto|]. auto.
      + intros Eq; injection Eq as <- <-. exists seqs.
        rewrite (drop_entry key). split; [split; assumption|]. split; [apply Hpk; auto|]. auto.
  Qed.

  Lemma new_pinv : PInv pi_new [].
  Proof. split; [apply new_inv|apply new_sinv]. Qed.

  Lemma run_ok ps : forall st seqs outs st', PInv st seqs -> run st ps = (outs, st') ->
    exists seqs', PInv st' seqs' /\
      (forall k ns, pkey st seqs k ns -> pkey st' seqs' k ns) /\
      length outs = length ps /\
      (forall i p k, nth_error ps i = Some p -> nth_error outs i = Some (Ret (PKey k)) ->
         absolute p /\ pkey st' seqs' k (normal_form p)).
  Proof.
    induction ps as [|p ps IH]; intros st seqs outs st' HI; cbn [pi_run].
    - intros E; injection E as <- <-. exists seqs. split; [exact HI|]. split; [auto|]. split; [reflexivity|].
      intros i p k Hi. destruct i; discriminate.
    - destruct (intern st p) as [r st1] eqn:Ei. destruct (run st1 ps) as [rs st2] eqn:Er.
      intros E; injection E as <- <-.
      destruct (intern_ok _ _ _ _ _ HI Ei) as (s1 & HI1 & Hm1 & Hr).
      destruct (IH _ _ _ _ HI1 Er) as (s2 & HI2 & Hm2 & Hlen & Hall).
      exists s2. split; [exact HI2|]. split; [auto|]. split; [simpl; congruence|].
      intros [|i] q k Hq Hk; simpl in Hq, Hk; [|eapply Hall; eassumption].
      injection Hq as <-. injection Hk as ->. destruct Hr as (H1 & H2 & _). auto.
  Qed.

  Lemma path_components_ok ps qs outs outs' st st' :
    run pi_new ps = (outs, st) -> run st qs = (outs', st') ->
    forall i p k, nth_error ps i = Some p -> nth_error outs i = Some (Ret (PKey k)) ->
      absolute p /\ pi_components lb st' k = Ret ([slash] :: normal_form p) /\
      pi_to_boxed_path lb st' k = Ret (render (normal_form p)).
  Proof.
    intros H1 H2 i p k Hp Hk.
    destruct (run_ok _ _ _ _ _ new_pinv H1) as (s1 & HI1 & _ & _ & Hall).
    destruct (run_ok _ _ _ _ _ HI1 H2) as (s2 & HI2 & Hm & _).
    destruct (Hall _ _ _ Hp Hk) as [Ha Hpk]. apply Hm in Hpk. destruct Hpk as (ks & _ & [_ Hs] & Hd).
    split; [exact Ha|].
    assert (E : pi_components lb st' k = Ret ([slash] :: normal_form p)).
    { unfold pi_components, sq_get. rewrite Hs. simpl. apply denotes_get; exact Hd. }
    split; [exact E|]. unfold pi_to_boxed_path. rewrite E. simpl obind.
    rewrite boxed_render; [reflexivity|apply normal_form_good].
  Qed.

  Lemma path_injective ps outs st : run pi_new ps = (outs, st) ->
    forall i j p q ki kj, nth_error ps i = Some p -> nth_error ps j = Some q ->
      nth_error outs i = Some (Ret (PKey ki)) -> nth_error outs j = Some (Ret (PKey kj)) ->
      (ki = kj <-> normal_form p = normal_form q).
  Proof.
    intros H1 i j p q ki kj Hp Hq Hki Hkj.
    destruct (run_ok _ _ _ _ _ new_pinv H1) as (s1 & [HC HS] & _ & _ & Hall).
    destruct (Hall _ _ _ Hp Hki) as [_ (k1 & _ & [G1 S1] & D1)].
    destruct (Hall _ _ _ Hq Hkj) as [_ (k2 & _ & [G2 S2] & D2)].
    split; intros E.
    - subst kj. rewrite S1 in S2. injection S2 as <-. apply denotes_get in D1. apply denotes_get in D2. congruence.
    - rewrite E in D1. rewrite (denotes_inj _ _ HC _ _ D1 D2) in G1. congruence.
  Qed.

  Lemma path_relative st p : ~ absolute p -> intern st p = (Ret (PErrRelative p), st).
  Proof.
    intros H. unfold pi_intern. destruct (path_is_relative p) eqn:E; [reflexivity|].
    exfalso; apply H, absolute_iff, E.
  Qed.

  Lemma path_too_long ps outs st p : run pi_new ps = (outs, st) -> absolute p ->
    (2 ^ lb <= N.of_nat (S (length (normal_form p))))%N -> fst (intern st p) = Panic.
  Proof.
    intros H1 Ha Hl. destruct (run_ok _ _ _ _ _ new_pinv H1) as (s1 & HI & _).
    destruct (intern st p) as [r st'] eqn:E. destruct (intern_ok _ _ _ _ _ HI E) as (s2 & _ & _ & Hr).
    destruct r as [[k|q]|]; [|destruct Hr as (Hn & _); contradiction|reflexivity].
    destruct Hr as (_ & _ & Hlt). lia.
  Qed.

  (** A panicking intern call leaves the stored paths as they were, and later keys too. *)
  Lemma path_panic_harmless ps outs st p st' : run pi_new ps = (outs, st) -> intern st p = (Panic, st') ->
    pi_seqs st' = pi_seqs st /\
    (forall i q k, nth_error ps i = Some q -> nth_error outs i = Some (Ret (PKey k)) ->
        pi_components lb st' k = Ret ([slash] :: normal_form q)).
  Proof.
    intros H1 E. destruct (run_ok _ _ _ _ _ new_pinv H1) as (s1 & HI & _ & _ & Hall).
    destruct (intern_ok _ _ _ _ _ HI E) as (s2 & _ & Hm & _ & Hs). split; [exact Hs|].
    intros i q k Hq Hk. destruct (Hall _ _ _ Hq Hk) as [_ Hp]. apply Hm in Hp. destruct Hp as (ks & _ & [_ Hsl] & Hd).
    unfold pi_components, sq_get. rewrite Hsl. simpl. apply denotes_get; exact Hd.
  Qed.
End PI.

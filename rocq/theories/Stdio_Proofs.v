(** Proofs about the non-interactive report: numbers, lines and sections. *)
From Coq Require Import String QArith Permutation.
From Verif Require Import Base Tree_Model Tree_Spec Tree_Proofs2 UI_Model UI_Spec
  UI_Proofs UI_Proofs2 UI_Proofs3 UI_Proofs4 Stdio_Model Stdio_Spec.
Local Open Scope nat_scope.
Local Open Scope bool_scope.
Local Open Scope list_scope.
Local Notation "' s" := (of_string s) (at level 0, s at level 0).

(** *** Numbers *)
Lemma ge_reaches p total d : (0 < total)%Z ->
  num_ge (relative total d) (over100 (Fin p)) = true <-> reaches p total d.
Proof.
  intros H. unfold relative, reaches, over100. destruct (Z.eqb_spec total 0) as [->|_]; [lia|].
  cbn [num_ge]. rewrite Qle_bool_iff.
  assert (Ht : (0 < inject_Z total)%Q) by (change 0%Q with (inject_Z 0); rewrite <- Zlt_Qlt; exact H).
  assert (E : forall a b c e : Q, (0 < b)%Q -> (0 < e)%Q -> (a / b <= c / e <-> a * e <= c * b)%Q).
  { intros a b c e Hb He. split; intros L.
    - apply (Qmult_le_r _ _ (b * e)) in L; [|apply Qmult_lt_0_compat; easy].
      assert (E1 : (a / b * (b * e) == a * e)%Q) by (field; apply Qnot_eq_sym, Qlt_not_eq; easy).
      assert (E2 : (c / e * (b * e) == c * b)%Q) by (field; apply Qnot_eq_sym, Qlt_not_eq; easy).
      rewrite E1, E2 in L. exact L.
    - apply (Qmult_le_r _ _ (b * e)); [apply Qmult_lt_0_compat; easy|].
      assert (E1 : (a / b * (b * e) == a * e)%Q) by (field; apply Qnot_eq_sym, Qlt_not_eq; easy).
      assert (E2 : (c / e * (b * e) == c * b)%Q) by (field; apply Qnot_eq_sym, Qlt_not_eq; easy).
      rewrite E1, E2. exact L. }
  rewrite E by easy. rewrite (Qmult_comm (inject_Z d) 100). reflexivity.
Qed.
Lemma lt_reaches p total d : (0 < total)%Z ->
  num_lt (relative total d) (over100 (Fin p)) = true <-> ~ reaches p total d.
Proof.
  intros H. rewrite <- ge_reaches by exact H.
  assert (E : num_lt (relative total d) (over100 (Fin p)) = negb (num_ge (relative total d) (over100 (Fin p)))).
  { unfold relative. destruct (Z.eqb_spec total 0); [lia|]. reflexivity. }
  rewrite E. destruct (num_ge _ _); simpl; split; congruence.
Qed.
Lemma percentage total d : (0 < total)%Z ->
  exists q, times100 (relative total d) = Fin q /\ (q * inject_Z total == 100 * inject_Z d)%Q.
Proof.
  intros H. unfold relative. destruct (Z.eqb_spec total 0) as [->|_]; [lia|].
  eexists. split; [reflexivity|]. field. intros E.
  unfold inject_Z, Qeq in E. simpl in E. lia.
Qed.
Lemma threshold_back p : exists q, times100 (over100 (Fin p)) = Fin q /\ (q == p)%Q.
Proof. eexists. split; [reflexivity|]. field. Qed.
Lemma order_positive total d : (0 < total)%Z -> order_key total d = d.
Proof. intros H. unfold order_key. destruct (Z.ltb_spec 0 total); [reflexivity|lia]. Qed.

(** *** Programs *)
Lemma bind_lift {A B} (a : A) (f : A -> prog B) : bind (lift (Ret a)) f = f a.
Proof. unfold bind, lift. cbn [fst snd]. destruct (f a); reflexivity. Qed.
Lemma bind_out {A B} out (a : A) (f : A -> prog B) out2 r :
  f a = (out2, r) -> bind (out, Ret a) f = (out ++ out2, r).
Proof. intros H. unfold bind. cbn [fst snd]. rewrite H. reflexivity. Qed.

Section Proofs.
  Variable w : str -> nat.
  Variable graphemes : str -> list str.
  Variable round2 : Z -> Z -> Z.
  Variable two_decimals : number -> str.
  Variable sort_desc : forall A : Type, (A -> Z) -> list A -> list A.
  Context (Hw : widths w) (Hg : splits graphemes) (Hr : rounds round2) (Hs : sorts sort_desc).

  Lemma info_ok total d : (0 < total)%Z -> (0 <= d)%Z ->
    exists info, profile_info round2 two_decimals d total = Ret info /\
      profile_text two_decimals total d info.
  Proof.
    intros Ht Hd. unfold profile_info. destruct (duration_ok round2 Hr d Hd) as (D & -> & HD).
    destruct (percentage total d Ht) as (q & -> & Hq). cbn [obind].
    eexists. split; [reflexivity|]. exists D, q. easy.
  Qed.

  Lemma forced a : (exists arg, shown_argument a arg /\ arg_ok arg /\ cpp_fits w arg) ->
    exists arg, force_parse_arg a = Ret arg /\ shown_argument a arg /\ arg_ok arg /\ cpp_fits w arg.
  Proof.
    intros (arg & [H|[H ->]] & H1 & H2); unfold force_parse_arg; rewrite H; cbn [obind];
      eexists; (split; [reflexivity|]); (split; [|easy]).
    - left. exact H.
    - right. easy.
  Qed.

  Lemma needed_eq a arg : needed w a arg = w (a_name a) + 3 * b2n (has_argument arg).
  Proof. unfold needed. destruct arg; simpl; lia. Qed.
  Lemma described_eq cols a arg desc :
    display_activity_desc w graphemes (a_name a) arg (SingleLine cols) = Ret (DOk false desc) ->
    described w graphemes cols a arg desc.
  Proof.
    unfold display_activity_desc, described. destruct (cols <? _); [discriminate|].
    replace (cols - w (a_name a) - 2) with (cols - (w (a_name a) + 2)) by lia.
    destruct arg as [| | | |comps|bounded full]; cbn [has_argument argument_within display_arg];
      [intros H; now injection H as <-|..].
    all: match goal with |- obind ?o _ = _ -> _ => destruct o as [x|] eqn:E end; [|discriminate].
    all: cbn [obind]; intros H; injection H as <-; exists x; split; [|reflexivity].
    all: first [exact E | reflexivity | congruence].
  Qed.

  Lemma shown_ok a arg max total d :
    1 <= w (a_name a) -> shown_argument a arg -> arg_ok arg -> cpp_fits w arg ->
    1 <= max -> (0 < total)%Z -> (0 <= d)%Z ->
    exists text, show_activity w graphemes round2 two_decimals a arg max d total = Ret text /\
      activity_text w graphemes two_decimals max a total d text.
  Proof.
    intros Hn Hsh Hok Hfit Hm Ht Hd. unfold show_activity.
    assert (Em : Nat.leb 1 max = true) by (apply Nat.leb_le; lia). rewrite Em.
    destruct (info_ok total d Ht Hd) as (info & -> & Hi). cbn [obind].
    unfold display_activity. rewrite Em.
    destruct (display_activity_desc_ok w graphemes Hw Hg (a_name a) arg (max - w info) Hok Hfit)
      as [[L ->]|(L & rest & Er & Hrr & R1 & R2)]; [|pose proof (described_eq _ _ _ _ Er) as Hde; rewrite Er]; cbn [obind].
    - destruct (display_activity_desc_ok w graphemes Hw Hg (a_name a) arg max Hok Hfit)
        as [[L' ->]|(L' & rest & Er & Hrr & R1 & R2)]; [|pose proof (described_eq _ _ _ _ Er) as Hde; rewrite Er]; cbn [obind].
      + eexists. split; [reflexivity|]. apply at_ellipsis with arg; [easy| |easy].
        rewrite needed_eq. exact L'.
      + eexists. split; [reflexivity|]. apply at_name with arg info; [easy| |easy| |easy].
        * exact Hde.
        * rewrite needed_eq. lia.
    - eexists. split; [reflexivity|]. apply at_full with arg; [easy| |easy| |].
      + exact Hde.
      + rewrite needed_eq. lia.
      + pose proof (w_app w Hw (a_name a ++ rest) info). lia.
  Qed.

  Lemma activity_text_fits max a total d text :
    activity_text w graphemes two_decimals max a total d text -> w text <= max.
  Proof.
    intros H. destruct H as [arg desc info _ _ _ _ H|arg desc info _ _ _ _ H|arg _ _ H]; try exact H.
    rewrite (w_ell w Hw). exact H.
  Qed.

  (** *** The breakdown by type *)
  Lemma decreasing_tail {A} (key : A -> Z) a l : decreasing key (a :: l) -> decreasing key l.
  Proof. destruct l; [easy|]. intros [_ H]. exact H. Qed.
  Lemma decreasing_below {A} (key : A -> Z) l : forall a, decreasing key (a :: l) ->
    Forall (fun b => (key b <= key a)%Z) l.
  Proof.
    induction l as [|b l IH]; intros a H; [constructor|]. destruct H as [H1 H2].
    constructor; [exact H1|]. specialize (IH b H2). eapply Forall_impl; [|exact IH].
    cbv beta. intros c Hc. lia.
  Qed.
  Lemma reaches_mono p total d d' : (d <= d')%Z -> reaches p total d -> reaches p total d'.
  Proof.
    unfold reaches. intros H L. eapply Qle_trans; [exact L|].
    rewrite !(Qmult_comm 100). apply Qmult_le_compat_r; [|easy]. rewrite <- Zle_Qle. exact H.
  Qed.

  Lemma type_lines_ok total p : (0 < total)%Z -> forall types,
    Forall (fun e => (0 <= snd e)%Z) types -> decreasing snd types ->
    exists shown hidden texts last,
      types = shown ++ hidden /\
      Forall (fun e => reaches p total (snd e)) shown /\
      Forall (fun e => ~ reaches p total (snd e)) hidden /\
      Forall2 (fun e text => exists info, profile_text two_decimals total (snd e) info /\
                 text = ' "- " ++ fst e ++ info) shown texts /\
      others two_decimals (length hidden) ' "activity types" p last /\
      type_lines round2 two_decimals total (over100 (Fin p)) types
        = (map Stdout (texts ++ last), Ret tt).
  Proof.
    intros Ht. induction types as [|[name d] types IH]; intros Hnn Hdec.
    - exists [], [], [], []. repeat split; try constructor. split; reflexivity.
    - cbn [type_lines]. destruct (num_lt (relative total d) (over100 (Fin p))) eqn:E.
      + apply lt_reaches in E; [|exact Ht]. destruct (threshold_back p) as (q & Eq & Hq).
        exists [], ((name, d) :: types), [],
          [' "- ... and " ++ digits (Z.of_nat (length ((name, d) :: types))) ++ ' " other "
             ++ ' "activity types" ++ ' " below " ++ two_decimals (Fin q) ++ ' "% ..."].
        split; [reflexivity|]. split; [constructor|]. split.
        { constructor; [exact E|]. pose proof (decreasing_below snd _ _ Hdec) as B.
          eapply Forall_impl; [|exact B]. intros e He R. apply E. cbn [snd] in *.
          eapply reaches_mono; [exact He|exact R]. }
        split; [constructor|]. split; [right; split; [simpl; lia|exists q; easy]|].
        rewrite Eq. reflexivity.
      + assert (R : reaches p total d).
        { apply ge_reaches; [exact Ht|].
          destruct (num_ge (relative total d) (over100 (Fin p))) eqn:E'; [reflexivity|].
          assert (X : num_lt (relative total d) (over100 (Fin p)) = true); [|congruence].
          apply lt_reaches; [exact Ht|]. intros R. apply ge_reaches in R; [congruence|exact Ht]. }
        inversion Hnn as [|? ? H1 H2]; subst.
        destruct (IH H2 (decreasing_tail _ _ _ Hdec)) as (shown & hidden & texts & last & -> & S1 & S2 & S3 & S4 & S5).
        destruct (info_ok total d Ht H1) as (info & Ei & Hi).
        exists ((name, d) :: shown), hidden, ((' "- " ++ name ++ info) :: texts), last.
        split; [reflexivity|]. split; [constructor; easy|]. split; [exact S2|].
        split; [constructor; [exists info; easy|exact S3]|]. split; [exact S4|].
        rewrite Ei, S5. reflexivity.
  Qed.

  Lemma type_profile_ok t total p : (0 < total)%Z ->
    Forall (fun n => (0 <= n_self n)%Z) (t_acts t) ->
    exists ls,
      types_section two_decimals (map (fun n => (a_name (s_act (n_stat n)), n_self n)) (t_acts t))
        total p ls /\
      print_activity_type_profile round2 two_decimals sort_desc t total (over100 (Fin p))
        = (map Stdout ((newline :: ' "Self-duration breakdown by activity type:") :: ls), Ret tt).
  Proof.
    intros Ht Hnn. unfold print_activity_type_profile.
    set (acts := map (fun n => (a_name (s_act (n_stat n)), n_self n)) (t_acts t)).
    destruct (breakdown_ok sort_desc Hs acts) as (B1 & B2 & B3 & B4 & _).
    assert (Htot : forall l name, Forall (fun e : str * Z => (0 <= snd e)%Z) l -> (0 <= total_of name l)%Z).
    { intros l name Hl. induction Hl as [|e l He Hl IHl]; simpl; [lia|]. destruct (str_eqb _ _); lia. }
    assert (Hacts : Forall (fun e : str * Z => (0 <= snd e)%Z) acts).
    { apply Forall_map. eapply Forall_impl; [|exact Hnn]. easy. }
    set (b := activity_type_breakdown sort_desc acts) in *.
    destruct (type_lines_ok total p Ht b) as (shown & hidden & texts & last & E & S1 & S2 & S3 & S4 & S5).
    { apply Forall_forall. intros [name d] Hin. cbn [snd]. rewrite (B3 name d Hin). apply Htot, Hacts. }
    { exact B4. }
    exists (texts ++ last). split.
    - exists shown, hidden, texts, last. rewrite E in B1, B2, B3, B4.
      split; [exact B1|]. split; [exact B2|]. split.
      { apply Forall_forall. intros [name d] Hin. cbn [fst snd]. apply B3, Hin. }
      split; [|easy].
      clear -B4. induction shown as [|e l IH]; [exact I|]. destruct l as [|e' l]; [exact I|].
      destruct B4 as [H1 H2]. split; [exact H1|]. apply IH. exact H2.
    - rewrite S5. reflexivity.
  Qed.

  (** *** Selection of the hottest items *)
  Lemma filter_split {A} (f : A -> bool) l :
    Permutation l (filter f l ++ filter (fun x => negb (f x)) l).
  Proof.
    induction l as [|x l IH]; [constructor|]. simpl. destruct (f x); simpl.
    - constructor. exact IH.
    - etransitivity; [constructor; exact IH|]. apply Permutation_middle.
  Qed.
  Lemma decreasing_ext {A} (k1 k2 : A -> Z) l : (forall x, k1 x = k2 x) ->
    decreasing k1 l -> decreasing k2 l.
  Proof.
    intros H. induction l as [|a l IH]; [easy|]. destruct l as [|b l]; [easy|].
    intros [H1 H2]. split; [rewrite <- !H; exact H1|apply IH, H2].
  Qed.
  Lemma hot_ok {A} (items : list A) (dur : A -> Z) total p : (0 < total)%Z ->
    exists hidden, let hot := hottest sort_desc items dur total (over100 (Fin p)) in
      Permutation items (hot ++ hidden) /\ decreasing dur hot /\
      Forall (fun e => reaches p total (dur e)) hot /\
      Forall (fun e => ~ reaches p total (dur e)) hidden.
  Proof.
    intros Ht. cbv zeta. unfold hottest.
    set (f := fun a => num_ge (relative total (dur a)) (over100 (Fin p))).
    destruct (Hs A (fun a => order_key total (dur a)) (filter f items)) as [Hp Hd].
    exists (filter (fun x => negb (f x)) items). split; [|split; [|split]].
    - etransitivity; [apply (filter_split f)|]. apply Permutation_app_tail. exact Hp.
    - eapply decreasing_ext; [|exact Hd]. intros x. cbv beta. apply order_positive, Ht.
    - apply Forall_forall. intros x Hx. apply (Permutation_in _ (Permutation_sym Hp)) in Hx.
      apply filter_In in Hx. destruct Hx as [_ Hx]. apply ge_reaches in Hx; [exact Hx|exact Ht].
    - apply Forall_forall. intros x Hx. apply filter_In in Hx. destruct Hx as [_ Hx].
      intros R. apply ge_reaches in R; [|exact Ht]. unfold f in Hx. rewrite R in Hx. discriminate.
  Qed.

  (** *** The flat profile *)
  Lemma flat_lines_ok t total max : (0 < total)%Z -> 3 <= max -> forall items : list (nat * Z),
    Forall (fun e => exists n, activity_trace t (fst e) = Ret n /\ n_self n = snd e /\
              (0 <= snd e)%Z /\ describable w (s_act (n_stat n))) items ->
    exists texts,
      Forall2 (fun e text => exists n desc, activity_trace t (fst e) = Ret n /\
                 activity_text w graphemes two_decimals (max - 2) (s_act (n_stat n)) total (snd e) desc /\
                 text = ' "- " ++ desc) items texts /\
      flat_lines w graphemes round2 two_decimals t (map fst items) total max
        = (map Stdout texts, Ret tt).
  Proof.
    intros Ht Hm. induction items as [|[id d] items IH]; intros H.
    - exists []. split; [constructor|reflexivity].
    - inversion H as [|? ? (n & E & En & Hd & Hn & Hdesc) H2]; subst. cbn [fst snd] in *.
      destruct (IH H2) as (texts & T1 & T2).
      destruct (forced _ Hdesc) as (arg & Ea & A1 & A2 & A3).
      destruct (shown_ok (s_act (n_stat n)) arg (max - 2) total (n_self n) Hn A1 A2 A3
                  ltac:(lia) Ht ltac:(lia)) as (text & Et & Htx).
      exists ((' "- " ++ text) :: texts). split.
      + constructor; [|exact T1]. exists n, text. cbn [fst snd]. rewrite <- En. easy.
      + cbn [map flat_lines fst]. rewrite E.
        rewrite bind_lift, Ea, bind_lift.
        unfold usub. assert (Em : Nat.leb 2 max = true) by (apply Nat.leb_le; lia).
        rewrite Em, bind_lift, Et, bind_lift.
        rewrite T2. reflexivity.
  Qed.
End Proofs.

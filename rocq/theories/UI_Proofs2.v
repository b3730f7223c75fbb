(** Proofs about path, string and description displays, continued. *)
From Coq Require Import String.
From Verif Require Import Base UI_Model UI_Spec UI_Proofs.
Local Open Scope nat_scope.
Local Open Scope bool_scope.
Local Open Scope list_scope.

Section Display.
  Variable w : str -> nat.
  Variable graphemes : str -> list str.
  Context (Hw : widths w) (Hg : splits graphemes).

  Definition sumw (l : list str) : nat := fold_right (fun g n => w g + n) 0 l.
  Lemma sumw_app a b : sumw (a ++ b) = sumw a + sumw b.
  Proof. induction a; simpl; lia. Qed.
  Lemma sumw_rev a : sumw (rev a) = sumw a.
  Proof. induction a; simpl; [easy|]. rewrite sumw_app, IHa. simpl. lia. Qed.
  Lemma w_concat l : w (concat l) <= sumw l.
  Proof.
    induction l as [|g l IH]; simpl; [rewrite (w_nil w Hw); lia|].
    pose proof (w_app w Hw g (concat l)). lia.
  Qed.

  Lemma front_graphemes_spec gs : forall rem s rest rem',
    front_graphemes w gs rem = (s, rest, rem') ->
    rem' <= rem /\ w s <= rem - rem' /\ exists mid, concat gs = s ++ mid ++ concat rest.
  Proof.
    induction gs as [|g gs IH]; intros rem s rest rem'; simpl.
    - intros E. injection E as <- <- <-. rewrite (w_nil w Hw). split; [lia|]. split; [lia|].
      exists []. easy.
    - destruct (Nat.leb_spec (w g) rem) as [Hle|Hgt].
      + destruct (front_graphemes w gs (rem - w g)) as [[s' rest'] rem0] eqn:E.
        intros E'. injection E' as <- <- <-.
        destruct (IH _ _ _ _ E) as (H1 & H2 & mid & H3).
        pose proof (w_app w Hw g s'). split; [lia|]. split; [lia|].
        exists mid. rewrite H3, app_assoc. easy.
      + intros E. injection E as <- <- <-. rewrite (w_nil w Hw). split; [lia|]. split; [lia|].
        exists g. easy.
  Qed.
  Lemma back_graphemes_spec gs : forall cols,
    w (fst (back_graphemes w gs cols)) <= cols /\
    exists pre, concat (rev gs) = pre ++ fst (back_graphemes w gs cols).
  Proof.
    induction gs as [|g gs IH]; intros cols; simpl.
    - rewrite (w_nil w Hw). split; [lia|]. exists []. easy.
    - destruct (Nat.leb_spec (w g) cols) as [Hle|Hgt].
      + specialize (IH (cols - w g)). destruct (back_graphemes w gs (cols - w g)) as [s u].
        simpl in *. destruct IH as (H1 & pre & H2). pose proof (w_app w Hw s g). split; [lia|].
        exists pre. rewrite concat_app, H2. simpl. rewrite app_nil_r, <- app_assoc. easy.
      + simpl. rewrite (w_nil w Hw). split; [lia|]. eexists. rewrite app_nil_r. reflexivity.
  Qed.

  Lemma display_filename_spec name cols : 3 <= cols -> cols < w name + 2 ->
    exists pre mid suf, name = pre ++ mid ++ suf /\
      display_filename w graphemes name cols = Ret ([ellipsis; slash] ++ pre ++ [ellipsis] ++ suf) /\
      w ([ellipsis; slash] ++ pre ++ [ellipsis] ++ suf) <= cols.
  Proof.
    intros H3 Hlt. unfold display_filename.
    replace (3 <=? cols) with true by (symmetry; apply Nat.leb_le; lia).
    replace (cols <? w name + 2) with true by (symmetry; apply Nat.ltb_lt; lia). cbn [andb].
    assert (H2 : w [ellipsis; slash] <= 2).
    { pose proof (w_app w Hw [ellipsis] [slash]) as H. rewrite w_ell, w_slash in H by easy.
      exact H. }
    unfold usub. replace (w [ellipsis; slash] + 1 <=? cols) with true
      by (symmetry; apply Nat.leb_le; lia). cbn [obind].
    set (c1 := cols - (w [ellipsis; slash] + 1)).
    destruct (front_graphemes w (graphemes name) (c1 / 2)) as [[front rest] rem_front] eqn:E.
    destruct (front_graphemes_spec _ _ _ _ _ E) as (Hrem & Hfw & mid & Hsplit).
    assert (Hhalf : c1 / 2 <= c1) by (apply Nat.div_le_upper_bound; lia).
    replace (c1 / 2 - rem_front <=? c1) with true by (symmetry; apply Nat.leb_le; lia).
    cbn [obind].
    destruct (back_graphemes_spec (rev rest) (c1 - (c1 / 2 - rem_front))) as (Hbw & pre & Hb).
    set (suf := fst (back_graphemes w (rev rest) (c1 - (c1 / 2 - rem_front)))) in *.
    rewrite rev_involutive in Hb.
    exists front, (mid ++ pre), suf. split.
    { rewrite <- (Hg name) at 1. rewrite Hsplit, Hb, <- !app_assoc. easy. }
    split; [easy|].
    pose proof (w_app w Hw [ellipsis; slash] (front ++ [ellipsis] ++ suf)) as W1.
    pose proof (w_app w Hw front ([ellipsis] ++ suf)) as W2.
    pose proof (w_app w Hw [ellipsis] suf) as W3. rewrite w_ell in W3 by easy.
    set (W := w ([ellipsis; slash] ++ front ++ [ellipsis] ++ suf)) in *. clearbody W.
    set (W' := w (front ++ [ellipsis] ++ suf)) in *. clearbody W'.
    set (W'' := w ([ellipsis] ++ suf)) in *. clearbody W''.
    unfold c1 in *. lia.
  Qed.

  (** When all components are selected from a path of several, at least one was selected
      on each side. *)
  Lemma select_sides comps cols F B : 2 <= length comps -> 1 <= cols -> comps = F ++ B ->
    select_components w comps cols = Ret (length F, length B) -> 0 < length B -> F <> [].
  Proof.
    intros Hl Hc E Hsel HB HF. subst F. cbn [app] in E. subst B. cbn [length] in Hsel.
    destruct (@exists_last str comps) as (init & name & Ei); [destruct comps; easy|].
    assert (Hi : init <> []).
    { intros ->. subst comps. simpl in Hl. lia. }
    revert Hsel. unfold select_components. cbn [select_loop]. rewrite Ei, pop_back_app.
    rewrite app_length. simpl (length [name]).
    assert (Hl' : length init <> 0) by (destruct init; easy).
    replace (0 + 0 =? length init + 1 - 1) with false
      by (symmetry; apply Nat.eqb_neq; lia).
    cbn [orb negb b2n]. unfold usub.
    replace (1 <=? cols) with true by (symmetry; apply Nat.leb_le; lia). cbn [obind].
    set (ww := w name + _).
    destruct (Nat.leb_spec ww (cols - 1)) as [Hfit|Hno]; cbn [andb negb].
    - (* accepted; next step takes from the front *)
      intros Hsel. destruct init as [|c init]; [easy|].
      assert (Hww : ww = cost1 w name).
      { unfold ww, cost1, sep, root_component. destruct (str_eqb name [slash]); easy. }
      revert Hsel. cbn [length Nat.add]. cbn [select_loop]. cbn [xorb pop_front].
      intros Hsel.
      set (c2 := cols - ww) in *.
      set (lastc := 0 + 1 =? _) in Hsel.
      destruct (usub c2 (b2n (negb lastc))) as [av|]; cbn [obind] in Hsel; [|easy].
      set (ww2 := w c + _) in Hsel.
      destruct (Nat.leb_spec ww2 av) as [Hfit2|Hno2]; cbn [andb negb] in Hsel.
      + (* front accepted: af >= 1 *)
        enough (Hge : forall fuel num rem cols af ab front full r,
          select_loop w fuel num rem cols af ab front full = Ret r -> af <= fst r).
        { apply Hge in Hsel. simpl in Hsel. lia. }
        clear. induction fuel as [|fuel IH]; intros num rem cols af ab front full r; simpl; [easy|].
        destruct (if front then pop_front rem else pop_back rem) as [[c rem']|].
        2: { intros E. injection E as <-. easy. }
        destruct (usub _ _); simpl; [|easy].
        destruct (_ <=? _); simpl.
        * intros E. apply IH in E. destruct front; simpl in E; lia.
        * destruct full; [intros E; injection E as <-; easy|]. apply IH.
      + (* front rejected: not all can be accepted *)
        enough (Hle : forall fuel num rem cols af ab front full r,
          select_loop w fuel num rem cols af ab front full = Ret r ->
          fst r + snd r <= af + ab + length rem).
        { apply Hle in Hsel. cbn [fst snd] in Hsel. rewrite ?app_length in Hsel. simpl in Hsel. lia. }
        clear. induction fuel as [|fuel IH]; intros num rem cols af ab front full r; simpl; [easy|].
        assert (Hpop : match (if front then pop_front rem else pop_back rem) with
          | None => rem = [] | Some (c, rem') => length rem = S (length rem') end).
        { destruct front; [destruct rem; easy|]. pose proof (pop_back_spec rem) as H.
          destruct (pop_back rem) as [[x r']|]; subst; [rewrite app_length; simpl; lia|easy]. }
        destruct (if front then pop_front rem else pop_back rem) as [[c rem']|].
        2: { intros E. injection E as <-. simpl. lia. }
        destruct (usub _ _); simpl; [|easy].
        destruct (_ <=? _); simpl.
        * intros E. apply IH in E. destruct front; simpl in E; lia.
        * destruct full; [intros E; injection E as <-; simpl; lia|].
          intros E. apply IH in E. lia.
    - (* the file name was rejected: the back is never tried again *)
      intros Hsel.
      destruct (select_inv w (init ++ [name]) cols (length init + 1) init cols
                  [] [] [name] [] true true) as (af' & ab' & E' & _ & _ & _ & HB');
        cbn [app cost]; rewrite ?app_nil_r; try easy; try lia.
      + destruct init; easy.
      + intros _ _. split; [easy|]. exists name. split; [easy|].
        unfold ww, root_component in Hno. unfold cost1, sep.
        destruct (str_eqb name [slash]); simpl in Hno; lia.
      + rewrite app_length in E'. simpl (length [name]) in E'. simpl in E', Hsel.
        rewrite E' in Hsel. injection Hsel as -> ->. rewrite HB' in * by easy. simpl in *. lia.
  Qed.

  Theorem truncate_path_ok comps cols :
    path_ok comps -> 2 <= length comps -> 1 <= cols ->
    exists r, truncate_path w graphemes comps cols = Ret r /\ w r <= cols /\ path_display comps r.
  Proof.
    intros Hok Hl Hc. unfold truncate_path.
    replace (0 <? cols) with true by (symmetry; apply Nat.ltb_lt; lia).
    destruct (select_ok w comps cols (proj1 Hok) Hc) as (af & ab & Hsel & Hpost).
    rewrite Hsel. cbn [obind].
    destruct (Nat.ltb_spec 0 ab) as [Hab|Hab].
    - destruct Hpost as (F & M & B & E & -> & -> & Hcase).
      assert (HB : B <> []) by (destruct B; [simpl in Hab; lia|easy]).
      destruct Hcase as [(HM & Hcost & _)|(-> & c & Hin & Hcost)].
      + rewrite E, display_elided by easy. cbn [obind].
        assert (HBr : forall c, In c B -> ~ is_root c).
        { intros c Hin. apply (proj2 Hok). subst comps. destruct F as [|f F].
          - destruct M as [|m M]; [easy|]. simpl. apply in_or_app; right; easy.
          - simpl. rewrite !in_app_iff. tauto. }
        assert (Hwid : w (leading F ++ [ellipsis] ++ trailing B) <= cols).
        { pose proof (w_app w Hw (leading F) ([ellipsis] ++ trailing B)) as W1.
          pose proof (w_app w Hw [ellipsis] (trailing B)) as W2. rewrite w_ell in W2 by easy.
          pose proof (leading_width w Hw F) as W3.
          pose proof (trailing_width w Hw B HBr) as W4. lia. }
        replace (w (leading F ++ [ellipsis] ++ trailing B) <=? cols) with true
          by (symmetry; apply Nat.leb_le; exact Hwid).
        eexists. split; [reflexivity|]. split; [exact Hwid|].
        apply (pd_elided _ F M B); easy.
      + simpl in E. subst comps.
        assert (HF : F <> []) by (exact (select_sides (F ++ B) cols F B Hl Hc eq_refl Hsel Hab)).
        rewrite display_full by easy. cbn [obind].
        assert (Hwid : w (full_path (F ++ B)) <= cols).
        { pose proof (full_width w Hw (F ++ B) Hok Hl). pose proof (sep_le c). lia. }
        replace (w (full_path (F ++ B)) <=? cols) with true
          by (symmetry; apply Nat.leb_le; exact Hwid).
        eexists. split; [reflexivity|]. split; [exact Hwid|]. apply pd_full.
    - assert (ab = 0) by lia. subst ab.
      destruct (Nat.leb_spec (min_filename_width + 2) cols) as [Hmin|Hmin].
      + destruct (@exists_last str comps (proj1 Hok)) as (init & name & E).
        assert (Hpb : pop_back comps = Some (name, init)) by (rewrite E; apply pop_back_app).
        rewrite Hpb. cbn [expect obind].
        assert (Hi : init <> []).
        { intros ->. subst comps. simpl in Hl. lia. }
        assert (Hn : name <> [slash]).
        { apply (proj2 Hok). subst comps. destruct init as [|i init]; [easy|].
          apply in_or_app. right. left. easy. }
        assert (Hlt : cols < w name + 2).
        { rewrite E in Hsel. pose proof (select_name w init name cols af 0 Hi Hn Hc Hsel). lia. }
        unfold min_filename_width in Hmin.
        destruct (display_filename_spec name cols ltac:(lia) Hlt) as (pre & mid & suf & En & Ed & Hwid).
        rewrite Ed. cbn [obind].
        replace (w ([ellipsis; slash] ++ pre ++ [ellipsis] ++ suf) <=? cols) with true
          by (symmetry; apply Nat.leb_le; exact Hwid).
        eexists. split; [reflexivity|]. split; [exact Hwid|].
        apply (pd_name comps init pre mid suf). rewrite <- En. exact E.
      + cbn [obind]. rewrite w_ell by easy.
        replace (1 <=? cols) with true by (symmetry; apply Nat.leb_le; lia).
        eexists. split; [reflexivity|]. split; [rewrite w_ell by easy; lia|]. apply pd_ellipsis.
  Qed.
End Display.

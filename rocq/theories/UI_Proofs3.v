(** Proofs about path, string and description displays, continued. *)
From Coq Require Import String.
From Verif Require Import Base UI_Model UI_Spec UI_Proofs UI_Proofs2.
Local Open Scope nat_scope.
Local Open Scope bool_scope.
Local Open Scope list_scope.

Section Display.
  Variable w : str -> nat.
  Variable graphemes : str -> list str.
  Context (Hw : widths w) (Hg : splits graphemes).

  Section Exact.
    Context (Hsep : separator_width w).
    Lemma trailing_exact r : forall c,
      cost w r <= w (c ++ trailing r) - w c /\ w c <= w (c ++ trailing r) /\
      ((forall x, In x r -> ~ is_root x) -> w (c ++ trailing r) = w c + cost w r).
    Proof.
      induction r as [|d r IH]; intros c; cbn [trailing cost].
      - rewrite app_nil_r. split; [lia|]. split; [lia|]. lia.
      - cbn [app]. rewrite Hsep. destruct (IH d) as (H1 & H2 & H3).
        unfold cost1, sep. split; [|split].
        + destruct (str_eqb d [slash]); lia.
        + lia.
        + intros Hr. rewrite H3 by (intros x Hx; apply Hr; right; easy).
          destruct (str_eqb_spec d [slash]); [|lia]. exfalso. apply (Hr d); [left|]; easy.
    Qed.
    Lemma leading_exact F : forall s, w (leading F ++ s) = cost w F + w s.
    Proof.
      induction F as [|c F IH]; intros s; cbn [leading cost]; [easy|].
      rewrite <- app_assoc. unfold cost1, sep. destruct (str_eqb_spec c [slash]) as [->|_].
      - change ([slash] ++ leading F ++ s) with ([] ++ slash :: leading F ++ s).
        rewrite Hsep, IH, (w_nil w Hw), (w_slash w Hw). lia.
      - rewrite <- app_assoc. cbn [app]. rewrite Hsep, IH. lia.
    Qed.
    Lemma full_exact comps : path_ok comps -> 2 <= length comps ->
      w (full_path comps) + 1 = cost w comps.
    Proof.
      destruct comps as [|c [|d r]]; simpl length; intros [_ Hok] Hl; try lia.
      cbn [tl] in Hok. unfold full_path. cbn [cost]. unfold root_component.
      destruct (trailing_exact r d) as (_ & _ & H).
      assert (Hd : ~ is_root d) by (apply Hok; left; easy).
      specialize (H ltac:(intros x Hx; apply Hok; right; exact Hx)).
      unfold cost1 at 1, sep. destruct (str_eqb_spec c [slash]) as [->|Hc].
      - rewrite intersperse_cons. change ([slash] ++ d ++ trailing r) with ([] ++ slash :: (d ++ trailing r)).
        rewrite Hsep, H, (w_nil w Hw), (w_slash w Hw). unfold cost1, sep.
        destruct (str_eqb_spec d [slash]); [easy|]. lia.
      - rewrite intersperse_cons. cbn [trailing]. cbn [app]. rewrite Hsep, H. unfold cost1, sep.
        destruct (str_eqb_spec d [slash]); [easy|]. lia.
    Qed.

    Theorem full_when_fits comps cols :
      path_ok comps -> 2 <= length comps -> (forall c, In c comps -> 1 <= w c) ->
      w (full_path comps) <= cols -> (length comps = 2 -> absolute comps -> w (full_path comps) < cols) ->
      truncate_path w graphemes comps cols = Ret (full_path comps).
    Proof.
      intros Hok Hl H1 Hfit H2. pose proof (full_exact comps Hok Hl) as Hx.
      assert (Hc : 1 <= cols).
      { destruct comps as [|a [|b r]]; simpl in Hl; try lia. cbn [cost] in Hx.
        assert (1 <= w a) by (apply H1; left; easy).
        assert (1 <= w b) by (apply H1; right; left; easy).
        unfold cost1 in Hx. lia. }
      destruct (select_full w comps (S (length comps)) comps cols [] [] false)
        as (af & ab & Hsel & Hall); cbn [app]; rewrite ?app_nil_r; try easy; try lia.
      { exact (proj1 Hok). }
      { exact (proj2 Hok). }
      { destruct comps as [|a [|b r]]; simpl in Hl; try lia.
        destruct r as [|c r].
        - destruct (str_eqb_spec a [slash]) as [->|Ha].
          + left. specialize (H2 eq_refl ltac:(eexists; reflexivity)). lia.
          + right. left. intros x [<-|Hin]; [easy|]. apply (proj2 Hok), Hin.
        - right. right. right. simpl. lia. }
      fold (select_components w comps cols) in Hsel. cbn [length] in Hsel.
      change (select_loop w (S (length comps)) (length comps) comps cols 0 0 false false)
        with (select_components w comps cols) in Hsel.
      unfold truncate_path. replace (0 <? cols) with true by (symmetry; apply Nat.ltb_lt; lia).
      rewrite Hsel. cbn [obind].
      destruct (select_ok w comps cols (proj1 Hok) Hc) as (af' & ab' & Hsel' & Hpost).
      rewrite Hsel in Hsel'. injection Hsel' as <- <-.
      destruct Hpost as (F & M & B & E & -> & -> & Hcase).
      assert (M = []) as ->.
      { subst comps. rewrite !app_length in Hall. destruct M; [easy|simpl in Hall; lia]. }
      simpl in E.
      (* the file name fits *)
      destruct (@exists_last str comps (proj1 Hok)) as (init & name & Ei).
      assert (Hi : init <> []) by (intros ->; subst comps; rewrite Ei in Hl; simpl in Hl; lia).
      assert (Hn : name <> [slash]).
      { apply (proj2 Hok). rewrite Ei. destruct init as [|i init]; [easy|].
        apply in_or_app. right. left. easy. }
      assert (HB : 0 < length B).
      { destruct B as [|b B]; [exfalso|simpl; lia].
        rewrite Ei in Hsel. pose proof (select_name w init name cols _ _ Hi Hn Hc Hsel) as [_ Hs].
        simpl in Hs. enough (w name + 2 <= cols) by lia.
        (* otherwise fewer components would have been accepted *)
        destruct (Nat.le_gt_cases (w name + 2) cols) as [|Hgt]; [easy|exfalso].
        assert (Hcost : cost w comps = cost w init + (w name + 1)).
        { rewrite Ei, cost_app. cbn [cost]. unfold cost1, sep.
          destruct (str_eqb_spec name [slash]); [easy|]. lia. }
        destruct init as [|i [|j init]]; [easy| |].
        - cbn [cost] in Hcost. assert (1 <= w i) by (apply H1; rewrite Ei; left; easy).
          unfold cost1, sep in Hcost. destruct (str_eqb_spec i [slash]) as [->|].
          + assert (Hlt : w (full_path comps) < cols).
            { apply H2; [rewrite Ei; easy|]. rewrite Ei. eexists; reflexivity. }
            lia.
          + lia.
        - cbn [cost] in Hcost. assert (1 <= w i) by (apply H1; rewrite Ei; left; easy).
          assert (1 <= w j) by (apply H1; rewrite Ei; right; left; easy).
          unfold cost1, sep in Hcost.
          destruct (str_eqb_spec j [slash]) as [->|].
          { apply (proj2 Hok [slash]); [rewrite Ei; left; easy|easy]. }
          lia. }
      replace (0 <? length B) with true by (symmetry; apply Nat.ltb_lt; lia).
      subst comps.
      assert (HF : F <> []) by (exact (select_sides w (F ++ B) cols F B Hl Hc eq_refl Hsel HB)).
      rewrite display_full; [|easy|easy|destruct B; [simpl in HB; lia|easy]].
      cbn [obind].
      replace (w (full_path (F ++ B)) <=? cols) with true by (symmetry; apply Nat.leb_le; exact Hfit).
      easy.
    Qed.

    (** The file name is shown whenever it fits, and as many components as possible. *)
    Theorem path_best init name cols :
      path_ok (init ++ [name]) -> init <> [] -> w name + 2 <= cols ->
      truncate_path w graphemes (init ++ [name]) cols = Ret (full_path (init ++ [name])) \/
      exists F M B, init ++ [name] = F ++ M ++ B /\ M <> [] /\ B <> [] /\
        truncate_path w graphemes (init ++ [name]) cols
          = Ret (leading F ++ [ellipsis] ++ trailing B) /\
        (forall m M', M = m :: M' -> cols < w (leading (F ++ [m]) ++ [ellipsis] ++ trailing B)) /\
        (forall m M', M = M' ++ [m] -> cols < w (leading F ++ [ellipsis] ++ trailing (m :: B))).
    Proof.
      set (comps := init ++ [name]). intros Hok Hi Hn2.
      assert (Hl : 2 <= length comps).
      { unfold comps. rewrite app_length. destruct init; [easy|]. simpl. lia. }
      assert (Hn : name <> [slash]).
      { apply (proj2 Hok). unfold comps. destruct init as [|i init']; [easy|].
        apply in_or_app. right. left. easy. }
      assert (Hc : 1 <= cols) by lia.
      destruct (select_ok w comps cols (proj1 Hok) Hc) as (af & ab & Hsel & Hpost).
      pose proof (proj2 (select_name w init name cols af ab Hi Hn Hc Hsel) Hn2) as Hab.
      destruct (truncate_path_ok w graphemes Hw Hg comps cols Hok Hl Hc) as (r & Hr & Hwr & _).
      rewrite Hr. revert Hr. unfold truncate_path.
      replace (0 <? cols) with true by (symmetry; apply Nat.ltb_lt; lia).
      rewrite Hsel. cbn [obind].
      replace (0 <? ab) with true by (symmetry; apply Nat.ltb_lt; lia).
      destruct Hpost as (F & M & B & E & -> & -> & Hcase).
      assert (HB : B <> []) by (destruct B; [simpl in Hab; lia|easy]).
      destruct Hcase as [(HM & Hcost & Hmax)|(-> & c & Hin & Hcost)].
      - rewrite E, display_elided by easy. cbn [obind].
        destruct (_ <=? cols); [|easy]. intros Hr. injection Hr as <-. right.
        exists F, M, B. split; [easy|]. split; [easy|]. split; [easy|]. split; [easy|].
        assert (Hx : forall F' B', cost w F' + 1 + cost w B' <= w (leading F' ++ [ellipsis] ++ trailing B')).
        { intros F' B'. rewrite leading_exact. destruct (trailing_exact B' [ellipsis]) as (H1 & H2 & _).
          rewrite (w_ell w Hw) in *. lia. }
        split; intros m M' EM.
        + specialize (Hmax m (or_introl (ex_intro _ M' EM))).
          specialize (Hx (F ++ [m]) B). rewrite cost_app in Hx. cbn [cost] in Hx. lia.
        + specialize (Hmax m (or_intror (ex_intro _ M' EM))).
          specialize (Hx F (m :: B)). cbn [cost] in Hx. lia.
      - simpl in E.
        assert (HF : F <> []) by (exact (select_sides w comps cols F B Hl Hc E Hsel Hab)).
        rewrite E, display_full; [|rewrite <- E; easy|easy|easy]. cbn [obind].
        destruct (_ <=? cols); [|easy]. intros Hr. injection Hr as <-. left. easy.
    Qed.
  End Exact.

  (** *** Strings *)
  Lemma w_three (a b : str) p q n : w a <= p -> w b <= q -> p + 1 + q <= n ->
    w (a ++ [ellipsis] ++ b) <= n.
  Proof.
    intros Ha Hb Hn. etransitivity; [apply (w_app w Hw)|].
    assert (H : w ([ellipsis] ++ b) <= 1 + q).
    { etransitivity; [apply (w_app w Hw)|]. rewrite (w_ell w Hw). lia. }
    etransitivity; [apply Nat.add_le_mono; [exact Ha|exact H]|]. lia.
  Qed.
  Lemma header_spec gs : forall max acc s cols, acc <= max ->
    header_graphemes w gs max acc = (s, cols) ->
    exists g1 g2, gs = g1 ++ g2 /\ s = concat g1 /\ cols = acc + sumw w g1 /\ cols <= max /\
      match g2 with [] => True | g :: _ => max < cols + w g end.
  Proof.
    induction gs as [|g gs IH]; intros max acc s cols Hacc; simpl.
    - intros E. injection E as <- <-. exists [], []. simpl. split; [easy|]. split; [easy|].
      split; [lia|]. split; [lia|easy].
    - destruct (Nat.leb_spec (acc + w g) max) as [Hle|Hgt].
      + destruct (header_graphemes w gs max (acc + w g)) as [s' c'] eqn:E.
        intros E'. injection E' as <- <-.
        destruct (IH _ _ _ _ Hle E) as (g1 & g2 & -> & -> & -> & H1 & H2).
        exists (g :: g1), g2. simpl. split; [easy|]. split; [easy|]. split; [lia|].
        split; [easy|]. easy.
      + intros E. injection E as <- <-. exists [], (g :: gs). simpl. split; [easy|].
        split; [easy|]. split; [lia|]. split; [lia|easy].
  Qed.
  Lemma trailer_spec gs : forall max acc, acc <= max ->
    exists g1 g2, gs = g1 ++ g2 /\ trailer_graphemes w gs max acc = concat (rev g1) /\
      acc + sumw w g1 <= max /\
      match g2 with [] => True | g :: _ => max < acc + sumw w g1 + w g end.
  Proof.
    induction gs as [|g gs IH]; intros max acc Hacc; simpl.
    - exists [], []. simpl. split; [easy|]. split; [easy|]. split; [lia|easy].
    - destruct (Nat.leb_spec (acc + w g) max) as [Hle|Hgt].
      + destruct (IH _ _ Hle) as (g1 & g2 & -> & -> & H1 & H2).
        exists (g :: g1), g2. simpl. split; [easy|].
        rewrite concat_app. simpl. rewrite app_nil_r. split; [easy|]. split; [lia|].
        destruct g2; [easy|]. lia.
      + exists [], (g :: gs). simpl. split; [easy|]. split; [easy|]. split; [lia|lia].
  Qed.

  Theorem display_string_short s max : w s <= max ->
    display_string w graphemes s (SingleLine max) = Ret s.
  Proof.
    intros H. simpl. replace (w s <=? max) with true by (symmetry; apply Nat.leb_le; lia). easy.
  Qed.
  Theorem display_string_long s max : max < w s -> 1 <= max ->
    ~ In newline s -> ~ In 13%N s ->
    exists hs ms ts, graphemes s = hs ++ ms ++ ts /\ ms <> [] /\
      display_string w graphemes s (SingleLine max) = Ret (concat hs ++ [ellipsis] ++ concat ts) /\
      w (concat hs ++ [ellipsis] ++ concat ts) <= max /\
      sumw w hs <= (max - 1) / 2 /\ sumw w hs + 1 + sumw w ts <= max /\
      (forall g r, ms = g :: r -> (max - 1) / 2 < sumw w hs + w g) /\
      (forall g r, ms = r ++ [g] -> max < sumw w hs + 1 + sumw w ts + w g).
  Proof.
    intros Hlong Hmax Hnl Hcr. unfold display_string.
    replace (w s <=? max) with false by (symmetry; apply Nat.leb_gt; lia).
    replace (existsb (fun c => N.eqb c 10 || N.eqb c 13) s) with false.
    2: { symmetry. apply not_true_iff_false. intros H. apply existsb_exists in H.
         destruct H as (c & Hin & Hc). apply orb_true_iff in Hc. rewrite !N.eqb_eq in Hc.
         destruct Hc as [->| ->]; [apply Hnl|apply Hcr]; exact Hin. }
    replace (1 <=? max) with true by (symmetry; apply Nat.leb_le; lia). cbn [negb andb].
    destruct (header_graphemes w (graphemes s) ((max - 1) / 2) 0) as [header hc] eqn:E.
    destruct (header_spec _ _ _ _ _ (Nat.le_0_l _) E) as (g1 & g2 & E1 & -> & Hhc & Hle & Hmaxh).
    simpl in Hhc. subst hc.
    assert (Hhalf : (max - 1) / 2 <= max - 1) by (apply Nat.div_le_upper_bound; lia).
    unfold usub. replace (sumw w g1 <=? max - 1) with true by (symmetry; apply Nat.leb_le; lia).
    cbn [obind].
    destruct (trailer_spec (rev (graphemes s)) (max - 1 - sumw w g1) 0 (Nat.le_0_l _))
      as (t1 & t2 & E2 & Etr & Ht & Hmaxt). rewrite Etr. cbn [Nat.add] in Ht, Hmaxt.
    assert (E3 : graphemes s = rev t2 ++ rev t1).
    { rewrite <- rev_app_distr, <- E2, rev_involutive. easy. }
    assert (Htot : max < sumw w (graphemes s)).
    { pose proof (w_concat w Hw (graphemes s)). rewrite (Hg s) in H. lia. }
    assert (Hlt : length g1 + length t1 < length (graphemes s)).
    { destruct (Nat.lt_ge_cases (length g1 + length t1) (length (graphemes s))) as [|Hge]; [easy|exfalso].
      (* header and trailer would cover everything *)
      assert (Hcov : sumw w (graphemes s) <= sumw w g1 + sumw w t1).
      { pose proof E1 as E1'. rewrite E3 in E1'.
        assert (Hlen : length (rev t2) <= length g1).
        { apply (f_equal (@length str)) in E3. rewrite app_length, !rev_length in E3.
          rewrite rev_length. lia. }
        assert (Hpre : rev t2 = firstn (length (rev t2)) g1).
        { apply (f_equal (firstn (length (rev t2)))) in E1'.
          rewrite firstn_app, Nat.sub_diag, firstn_all, firstn_O, app_nil_r in E1'.
          rewrite firstn_app in E1'. replace (length (rev t2) - length g1) with 0 in E1' by lia.
          rewrite firstn_O, app_nil_r in E1'. exact E1'. }
        rewrite E3, sumw_app, !sumw_rev.
        enough (sumw w (rev t2) <= sumw w g1) as H by (rewrite sumw_rev in H; lia).
        rewrite Hpre. rewrite <- (firstn_skipn (length (rev t2)) g1) at 2.
        rewrite sumw_app. lia. }
      lia. }
    assert (Hmid : exists ms, graphemes s = g1 ++ ms ++ rev t1).
    { exists (firstn (length g2 - length t1) g2).
      rewrite E1. f_equal.
      assert (Hlen2 : length t1 <= length g2).
      { rewrite E1, app_length in Hlt. lia. }
      rewrite <- (firstn_skipn (length g2 - length t1) g2) at 1. f_equal.
      pose proof E1 as E1'. rewrite E3 in E1'.
      apply (f_equal (skipn (length (rev t2)))) in E1'.
      rewrite skipn_app, Nat.sub_diag, skipn_all, skipn_O in E1'. simpl in E1'.
      rewrite E1'. rewrite skipn_app.
      assert (Hl3 : length (rev t2) = length g1 + (length g2 - length t1)).
      { pose proof (f_equal (@length str) E3) as L3. pose proof (f_equal (@length str) E1) as L1.
        rewrite app_length in L3, L1. rewrite !rev_length in *. lia. }
      rewrite Hl3. replace (skipn (length g1 + (length g2 - length t1)) g1) with (@nil str).
      - simpl. f_equal. lia.
      - symmetry. apply skipn_all2. lia. }
    destruct Hmid as [ms Hms].
    assert (Hmsne : ms <> []).
    { intros ->. rewrite Hms, app_length in Hlt. simpl in Hlt. rewrite rev_length in Hlt. lia. }
    exists g1, ms, (rev t1). split; [exact Hms|]. split; [exact Hmsne|]. split; [easy|].
    rewrite sumw_rev. split; [|split; [easy|split; [lia|split]]].
    - apply (w_three _ _ (sumw w g1) (sumw w t1)); [apply w_concat, Hw| |lia].
      rewrite <- sumw_rev. apply w_concat, Hw.
    - intros g r ->. rewrite E1 in Hms. apply app_inv_head in Hms. rewrite Hms in Hmaxh.
      exact Hmaxh.
    - intros g r ->. rewrite E3 in Hms. rewrite !app_assoc in Hms. apply app_inv_tail in Hms.
      apply (f_equal (@rev str)) in Hms. rewrite rev_involutive, rev_app_distr in Hms.
      cbn [rev app] in Hms. rewrite Hms in Hmaxt. lia.
  Qed.

  Lemma display_string_fits s max : 1 <= max -> ~ In newline s -> ~ In 13%N s ->
    exists r, display_string w graphemes s (SingleLine max) = Ret r /\ w r <= max.
  Proof.
    intros Hm H1 H2. destruct (Nat.le_gt_cases (w s) max) as [Hle|Hgt].
    - exists s. split; [apply display_string_short|]; easy.
    - destruct (display_string_long s max Hgt Hm H1 H2) as (hs & ms & ts & _ & _ & E & H & _).
      eexists. split; [exact E|exact H].
  Qed.

  (** *** Activity descriptions *)
  Lemma w_ascii (c : chr) : (32 <= c < 127)%N -> w [c] = 1.
  Proof. intros H. apply (w_one w Hw). left. exact H. Qed.

  Theorem display_activity_desc_ok name arg max :
    arg_ok arg -> cpp_fits w arg ->
    (max < w name + 3 * b2n (has_argument arg) /\
     display_activity_desc w graphemes name arg (SingleLine max) = Ret (DNotEnoughCols max)) \/
    (w name + 3 * b2n (has_argument arg) <= max /\
     exists rest, display_activity_desc w graphemes name arg (SingleLine max)
         = Ret (DOk false (name ++ rest)) /\ w (name ++ rest) <= max /\
       (has_argument arg = false -> rest = []) /\
       (has_argument arg = true -> exists s, rest = of_string "(" ++ s ++ of_string ")" /\
           w s <= max - (w name + 2))).
  Proof.
    intros Hok Hfit. unfold display_activity_desc.
    destruct (Nat.ltb_spec max (w name + 3 * b2n (has_argument arg))) as [Hlt|Hge].
    - left. easy.
    - right. split; [easy|].
      destruct (has_argument arg) eqn:Ha; cbn [b2n] in *.
      + assert (Hd : exists s, display_arg w graphemes arg (SingleLine (max - (w name + 2))) = Ret s
                     /\ w s <= max - (w name + 2)).
        { destruct arg as [| | |s|comps|bounded full]; cbn [display_arg]; try easy.
          - apply display_string_fits; [lia| |]; simpl; intuition discriminate.
          - apply display_string_fits; [lia| |]; simpl; intuition discriminate.
          - apply display_string_fits; [lia| |]; apply Hok.
          - destruct Hok as [Hok Hl].
            destruct (truncate_path_ok w graphemes Hw Hg comps (max - (w name + 2)) Hok Hl ltac:(lia))
              as (r & Hr & Hwr & _).
            exists r. easy.
          - eexists. split; [reflexivity|]. apply Hfit. lia. }
        destruct Hd as (s & -> & Hs). cbn [obind].
        exists (of_string "(" ++ s ++ of_string ")"). split; [easy|]. split; [|split; [easy|]].
        * pose proof (w_app w Hw name (of_string "(" ++ s ++ of_string ")")) as W1.
          pose proof (w_app w Hw (of_string "(") (s ++ of_string ")")) as W2.
          pose proof (w_app w Hw s (of_string ")")) as W3.
          change (of_string "(") with [40%N] in *. change (of_string ")") with [41%N] in *.
          rewrite w_ascii in W2, W3 by lia. lia.
        * intros _. exists s. easy.
      + exists []. rewrite app_nil_r. split; [easy|]. split; [lia|]. split; easy.
  Qed.

  Theorem display_activity_ok name arg trailer max :
    arg_ok arg -> cpp_fits w arg -> 1 <= w name -> 1 <= max ->
    exists r, display_activity w graphemes name arg max trailer = Ret r /\ w r <= max.
  Proof.
    intros Hok Hfit Hname Hmax. unfold display_activity.
    replace (1 <=? max) with true by (symmetry; apply Nat.leb_le; lia).
    destruct (display_activity_desc_ok name arg (max - w trailer) Hok Hfit)
      as [[_ ->]|(Hle & rest & -> & Hr & _)]; cbn [obind].
    - destruct (display_activity_desc_ok name arg max Hok Hfit)
        as [[_ ->]|(Hle & rest & -> & Hr & _)]; cbn [obind].
      + eexists. split; [reflexivity|]. rewrite (w_ell w Hw). lia.
      + eexists. split; [reflexivity|]. exact Hr.
    - eexists. split; [reflexivity|]. pose proof (w_app w Hw (name ++ rest) trailer). lia.
  Qed.
End Display.

(** Proofs about path, string and description displays. *)
From Coq Require Import String.
From Verif Require Import Base UI_Model UI_Spec.
Local Open Scope nat_scope.
Local Open Scope bool_scope.
Local Open Scope list_scope.

Lemma pop_back_app {A} (l : list A) x : pop_back (l ++ [x]) = Some (x, l).
Proof. induction l; simpl; [easy|]. rewrite IHl. easy. Qed.
Lemma pop_back_spec {A} (l : list A) :
  match pop_back l with None => l = [] | Some (x, r) => l = r ++ [x] end.
Proof.
  induction l as [|a l IH]; simpl; [easy|].
  destruct (pop_back l) as [[x r]|]; subst; easy.
Qed.

Section Path.
  Variable w : str -> nat.

  Definition sep (c : str) : nat := if str_eqb c [slash] then 0 else 1.
  Definition cost1 (c : str) : nat := w c + sep c.
  Fixpoint cost (l : list str) : nat := match l with [] => 0 | c :: r => cost1 c + cost r end.
  Lemma cost_app a b : cost (a ++ b) = cost a + cost b.
  Proof. induction a; simpl; lia. Qed.
  Lemma sep_le c : sep c <= 1. Proof. unfold sep. destruct (str_eqb _ _); lia. Qed.

  (** One step of the selection *)
  Definition head_or_last (m : str) (M : list str) : Prop :=
    (exists r, M = m :: r) \/ (exists r, M = r ++ [m]).

  Definition sel_post (comps : list str) (C0 af ab : nat) : Prop :=
    exists F M B, comps = F ++ M ++ B /\ af = length F /\ ab = length B /\
      ((M <> [] /\ cost F + cost B + 1 <= C0 /\
        forall m, head_or_last m M -> C0 < cost F + cost B + cost1 m + 1)
       \/ (M = [] /\ exists c, In c comps /\ cost comps <= C0 + sep c)).

  Lemma select_inv comps C0 fuel : forall rem cols F X Y B front full,
    length rem < fuel ->
    comps = F ++ X ++ rem ++ Y ++ B ->
    cost F + cost B + cols = C0 ->
    1 <= cols -> rem ++ X ++ Y <> [] ->
    (full = false -> X = [] /\ Y = []) ->
    (full = true -> front = true -> X = [] /\ exists y, Y = [y] /\ cols < cost1 y + 1) ->
    (full = true -> front = false -> Y = [] /\ exists x, X = [x] /\ cols < cost1 x + 1) ->
    exists af ab, select_loop w fuel (length comps) rem cols (length F) (length B) front full
      = Ret (af, ab) /\ sel_post comps C0 af ab /\ length F <= af /\ length B <= ab /\
      (full = true -> front = true -> ab = length B).
  Proof.
    induction fuel as [|fuel IH]; intros rem cols F X Y B front full Hf Hc Hcost Hcols Hne H0 H1 H2;
      [lia|].
    cbn [select_loop].
    set (pop := if front then pop_front rem else pop_back rem).
    assert (Hpop : match pop with
      | None => rem = []
      | Some (c, rem') => if front then rem = c :: rem' else rem = rem' ++ [c] end).
    { unfold pop. destruct front.
      - destruct rem; easy.
      - exact (pop_back_spec rem). }
    destruct pop as [[c rem']|].
    2: { subst rem. simpl in *.
      exists (length F), (length B). split; [easy|]. split; [|split; [easy|split; easy]].
      exists F, (X ++ Y), B. rewrite <- app_assoc. split; [easy|]. split; [easy|]. split; [easy|].
      left. split; [easy|]. split; [lia|].
      intros m Hm. destruct full.
      - destruct front.
        + destruct (H1 eq_refl eq_refl) as (-> & y & -> & Hy). simpl in Hm.
          assert (m = y) as ->.
          { destruct Hm as [[r Hr]|[r Hr]]; [congruence|].
            destruct r as [|? [|]]; simpl in Hr; congruence. }
          lia.
        + destruct (H2 eq_refl eq_refl) as (-> & y & -> & Hy). simpl in Hm.
          assert (m = y) as ->.
          { destruct Hm as [[r Hr]|[r Hr]]; [congruence|].
            destruct r as [|? [|]]; simpl in Hr; congruence. }
          lia.
      - destruct (H0 eq_refl) as [-> ->]. easy. }
    assert (Hlenrem : length rem = S (length rem')).
    { destruct front; subst rem; [easy|]. rewrite app_length; simpl; lia. }
    assert (Hlen : length comps = length F + length X + S (length rem') + length Y + length B).
    { subst comps. rewrite !app_length. lia. }
    assert (HXY : length X + length Y = if full then 1 else 0).
    { destruct full.
      - destruct front.
        + destruct (H1 eq_refl eq_refl) as (-> & y & -> & _). easy.
        + destruct (H2 eq_refl eq_refl) as (-> & y & -> & _). easy.
      - destruct (H0 eq_refl) as [-> ->]. easy. }
    remember (Nat.eqb (length F + length B) (length comps - 1)) as is_last eqn:Hil.
    assert (His : is_last = true <-> (rem' = [] /\ full = false)).
    { subst is_last. rewrite Nat.eqb_eq. rewrite Hlen. destruct full.
      - split; [lia|easy].
      - destruct rem'; simpl in *; split; try lia; try easy. }
    set (ww := w c + b2n (negb (is_last || str_eqb c root_component))).
    assert (Hww : is_last = false -> ww = cost1 c).
    { intros ->. unfold ww, cost1, sep, root_component. simpl.
      destruct (str_eqb c [slash]); easy. }
    assert (Hww' : is_last = true -> ww = w c).
    { intros ->. unfold ww. simpl. lia. }
    unfold usub.
    replace (b2n (negb is_last) <=? cols) with true
      by (symmetry; apply Nat.leb_le; destruct is_last; simpl; lia).
    cbn [obind].
    destruct (Nat.leb_spec ww (cols - b2n (negb is_last))) as [Hfit|Hnofit]; cbn [andb].
    - destruct is_last.
      + (* last component accepted: all are *)
        destruct (proj1 His eq_refl) as [-> ->].
        destruct (H0 eq_refl) as [-> ->].
        assert (Hrem : rem = [c]) by (destruct front; subst rem; easy). clear Hpop.
        assert (Hsel : forall fr, select_loop w fuel (length comps) [] (cols - ww)
                  (if front then S (length F) else length F)
                  (if negb front then S (length B) else length B) fr false
                  = Ret (if front then S (length F) else length F,
                         if negb front then S (length B) else length B)).
        { intros fr. destruct fuel; [simpl in *; lia|]. simpl. destruct fr; easy. }
        rewrite Hsel.
        eexists _, _. split; [reflexivity|].
        split; [|split; [destruct front; lia|split; [destruct front; simpl; lia|easy]]].
        exists (if front then F ++ [c] else F), [], (if front then B else c :: B).
        subst rem. simpl in Hc. split; [destruct front; subst comps; [rewrite <- app_assoc|]; easy|].
        split; [destruct front; [rewrite app_length; simpl; lia|easy]|].
        split; [destruct front; easy|].
        right. split; [easy|]. exists c. split; [subst comps; apply in_or_app; right; left; easy|].
        rewrite Hc, cost_app. simpl. specialize (Hww' eq_refl). simpl in Hfit.
        unfold cost1. lia.
      + (* accepted, not the last one *)
        specialize (Hww eq_refl). simpl in Hfit.
        assert (Hne' : rem' ++ X ++ Y <> []).
        { intros E. apply app_eq_nil in E. destruct E as [-> E].
          destruct full.
          - apply (f_equal (@length str)) in E. rewrite app_length in E. simpl in E. lia.
          - enough (false = true) by easy. apply His. easy. }
        destruct front.
        * specialize (IH rem' (cols - ww) (F ++ [c]) X Y B (xorb true (negb full)) full).
          rewrite app_length, Nat.add_1_r in IH. cbn [andb negb].
          destruct IH as (af & ab & E & Hpost & HF & HB & Hab).
          { lia. }
          { subst comps rem. destruct full.
            - destruct (H1 eq_refl eq_refl) as (-> & _). rewrite <- !app_assoc. easy.
            - destruct (H0 eq_refl) as [-> ->]. rewrite <- !app_assoc. easy. }
          { rewrite cost_app. simpl. lia. }
          { lia. }
          { easy. }
          { easy. }
          { intros -> _. destruct (H1 eq_refl eq_refl) as (-> & y & -> & Hy).
            split; [easy|]. exists y. split; [easy|lia]. }
          { intros -> E. discriminate E. }
          exists af, ab. split; [exact E|]. split; [easy|]. split; [lia|]. split; [easy|].
          intros Hfull _. apply Hab; [easy|]. subst full. easy.
        * specialize (IH rem' (cols - ww) F X Y (c :: B) (xorb false (negb full)) full).
          cbn [length] in IH. cbn [andb negb].
          destruct IH as (af & ab & E & Hpost & HF & HB & Hab).
          { lia. }
          { subst comps rem. destruct full.
            - destruct (H2 eq_refl eq_refl) as (-> & _). rewrite <- !app_assoc. easy.
            - destruct (H0 eq_refl) as [-> ->]. rewrite <- !app_assoc. easy. }
          { simpl. lia. }
          { lia. }
          { easy. }
          { easy. }
          { intros -> E. discriminate E. }
          { intros -> _. destruct (H2 eq_refl eq_refl) as (-> & y & -> & Hy).
            split; [easy|]. exists y. split; [easy|lia]. }
          exists af, ab. split; [exact E|]. split; [easy|]. split; [lia|]. split; [lia|].
          intros _ Hf'. easy.
    - (* rejected *)
      assert (Hrej : cols < cost1 c + 1).
      { destruct is_last; simpl in Hnofit.
        - rewrite Hww' in Hnofit by easy. unfold cost1. lia.
        - rewrite Hww in Hnofit by easy. lia. }
      destruct full.
      + exists (length F), (length B). split; [easy|].
        split; [|split; [easy|split; easy]].
        exists F, (X ++ rem ++ Y), B. rewrite <- !app_assoc. split; [easy|].
        split; [easy|]. split; [easy|]. left.
        split; [destruct X, rem, Y; easy|]. split; [lia|].
        intros m Hm. destruct front.
        * destruct (H1 eq_refl eq_refl) as (-> & y & -> & Hy). subst rem. simpl in Hm.
          destruct Hm as [[r Hr]|[r Hr]].
          -- injection Hr as -> _. lia.
          -- rewrite app_comm_cons in Hr. apply app_inj_tail in Hr. destruct Hr as [_ ->]. lia.
        * destruct (H2 eq_refl eq_refl) as (-> & x & -> & Hy). subst rem. simpl in Hm.
          destruct Hm as [[r Hr]|[r Hr]].
          -- injection Hr as -> _. lia.
          -- rewrite ?app_nil_r, app_comm_cons in Hr. apply app_inj_tail in Hr.
             destruct Hr as [_ ->]. lia.
      + destruct (H0 eq_refl) as [-> ->].
        destruct front.
        * specialize (IH rem' cols F [c] [] B false true).
          destruct IH as (af & ab & E & Hpost & HF & HB & Hab).
          { lia. } { subst comps rem. easy. } { lia. } { lia. }
          { destruct rem'; easy. } { easy. } { easy. }
          { intros _ _. split; [easy|]. exists c. split; [easy|lia]. }
          exists af, ab. split; [exact E|]. split; [easy|]. split; [easy|]. split; [easy|]. easy.
        * specialize (IH rem' cols F [] [c] B true true).
          destruct IH as (af & ab & E & Hpost & HF & HB & Hab).
          { lia. } { subst comps rem. rewrite <- !app_assoc. easy. } { lia. } { lia. }
          { destruct rem'; easy. } { easy. }
          { intros _ _. split; [easy|]. exists c. split; [easy|lia]. } { easy. }
          exists af, ab. split; [exact E|]. split; [easy|]. split; [easy|]. split; [easy|]. easy.
  Qed.

  Lemma select_ok comps cols : comps <> [] -> 1 <= cols ->
    exists af ab, select_components w comps cols = Ret (af, ab) /\ sel_post comps cols af ab.
  Proof.
    intros Hne Hcols.
    destruct (select_inv comps cols (S (length comps)) comps cols [] [] [] [] false false)
      as (af & ab & E & H & _); cbn [app cost]; rewrite ?app_nil_r; try easy; try lia.
    exists af, ab. easy.
  Qed.

  (** The file name is shown in full exactly when it fits with ".../" in front. *)
  Lemma select_name (init : list str) (name : str) cols af ab : init <> [] -> name <> [slash] -> 1 <= cols ->
    select_components w (init ++ [name]) cols = Ret (af, ab) ->
    (0 < ab <-> w name + 2 <= cols).
  Proof.
    intros Hi Hn Hcols. unfold select_components. cbn [select_loop].
    rewrite pop_back_app. rewrite app_length. simpl (length [name]).
    assert (Hl : length init <> 0) by (destruct init; easy).
    replace (0 + 0 =? length init + 1 - 1) with false
      by (symmetry; apply Nat.eqb_neq; lia).
    unfold root_component.
    destruct (str_eqb_spec name [slash]) as [|_]; [easy|]. cbn [orb negb b2n].
    unfold usub. replace (1 <=? cols) with true by (symmetry; apply Nat.leb_le; lia). cbn [obind].
    destruct (Nat.leb_spec (w name + 1) (cols - 1)) as [Hfit|Hno]; cbn [andb negb].
    - intros E. split; [lia|]. intros _.
      destruct (select_inv (init ++ [name]) cols (length init + 1) init (cols - (w name + 1))
                  [] [] [] [name] true false) as (af' & ab' & E' & _ & _ & HB & _); cbn [app cost]; rewrite ?app_nil_r; try easy; try lia.
      + unfold cost1, sep. destruct (str_eqb_spec name [slash]); [easy|]. lia.
      + rewrite app_length in E'. simpl (length [name]) in E'. simpl in E', HB.
        simpl in E. rewrite E' in E. injection E as -> ->. lia.
    - intros E. split; [|lia]. intros Hab.
      destruct (select_inv (init ++ [name]) cols (length init + 1) init cols
                  [] [] [name] [] true true) as (af' & ab' & E' & _ & _ & _ & HB); cbn [app cost]; rewrite ?app_nil_r; try easy; try lia.
      + destruct init; easy.
      + intros _ _. split; [easy|]. exists name. split; [easy|].
        unfold cost1, sep. destruct (str_eqb_spec name [slash]); [easy|]. lia.
      + rewrite app_length in E'. simpl (length [name]) in E'. simpl in E', HB.
        simpl in E. rewrite E' in E. injection E as -> ->. rewrite HB in Hab by easy. lia.
  Qed.

  (** The whole path is selected when it fits. *)
  Lemma select_full comps fuel : forall rem cols F B front,
    length rem < fuel -> comps = F ++ rem ++ B -> rem <> [] ->
    (forall c, In c comps -> 1 <= w c) ->
    cost rem <= cols + 1 ->
    (forall c, In c (tl rem) -> ~ is_root c) ->
    cost rem <= cols \/ (forall c, In c rem -> ~ is_root c) \/
      (front = true /\ 2 <= length rem) \/ 3 <= length rem ->
    exists af ab, select_loop w fuel (length comps) rem cols (length F) (length B) front false
      = Ret (af, ab) /\ af + ab = length comps.
  Proof.
    induction fuel as [|fuel IH]; intros rem cols F B front Hf Hc Hne Hw Hcols Hroot Hcase; [lia|].
    cbn [select_loop].
    set (pop := if front then pop_front rem else pop_back rem).
    assert (Hpop : match pop with
      | None => rem = []
      | Some (c, rem') => if front then rem = c :: rem' else rem = rem' ++ [c] end).
    { unfold pop. destruct front.
      - destruct rem; easy.
      - exact (pop_back_spec rem). }
    destruct pop as [[c rem']|]; [|easy].
    assert (Hlenrem : length rem = S (length rem')).
    { destruct front; subst rem; [easy|]. rewrite app_length; simpl; lia. }
    assert (Hlen : length comps = length F + S (length rem') + length B).
    { subst comps. rewrite !app_length. lia. }
    assert (Hcr : cost rem = cost1 c + cost rem').
    { destruct front; subst rem; [easy|]. rewrite cost_app. simpl. lia. }
    assert (Hin : forall x, In x rem -> 1 <= w x).
    { intros x Hx. apply Hw. subst comps. rewrite !in_app_iff. tauto. }
    assert (Hc1 : 1 <= w c).
    { apply Hin. destruct front; subst rem; [left; easy|apply in_or_app; right; left; easy]. }
    assert (Hin' : forall x, In x rem' -> In x rem).
    { intros x Hx. destruct front; subst rem; [right; easy|apply in_or_app; left; easy]. }
    assert (Hnonroot : forall x, In x rem' -> ~ is_root x -> 2 <= cost rem').
    { intros x Hx Hr. apply in_split in Hx. destruct Hx as (l1 & l2 & ->).
      rewrite cost_app. simpl. unfold cost1, sep, is_root in *.
      destruct (str_eqb_spec x [slash]); [easy|].
      assert (1 <= w x) by (apply Hin, Hin', in_or_app; right; left; easy). lia. }
    unfold usub.
    assert (Hfit : rem' = [] /\ w c <= cols \/ rem' <> [] /\ cost1 c + 1 <= cols).
    { destruct rem' as [|y rem''] eqn:Er; [left|right]; (split; [easy|]).
      - assert (rem = [c]) by (destruct front; easy). subst rem. simpl in Hcols, Hcase.
        unfold cost1, sep in *. destruct (str_eqb_spec c [slash]) as [->|_]; [|lia].
        destruct Hcase as [H|[H|[[_ H]|H]]]; try lia.
        exfalso. apply (H [slash]); [left; easy|easy].
      - rewrite <- Er in *.
        destruct Hcase as [H|[H|[[-> H]|H]]].
        + assert (1 <= cost rem'); [|lia]. rewrite Er. simpl. unfold cost1.
          assert (1 <= w y) by (apply Hin, Hin'; rewrite Er; left; easy). lia.
        + enough (2 <= cost rem') by lia. apply (Hnonroot y); [rewrite Er; left; easy|].
          apply H, Hin'. rewrite Er; left; easy.
        + enough (2 <= cost rem') by lia. apply (Hnonroot y); [rewrite Er; left; easy|].
          apply Hroot. subst rem. rewrite Er. left; easy.
        + enough (2 <= cost rem') by lia. destruct front.
          * apply (Hnonroot y); [rewrite Er; left; easy|]. apply Hroot. subst rem. rewrite Er. left; easy.
          * destruct rem'' as [|z r3]; [rewrite Er in Hlenrem; simpl in *; lia|].
            apply (Hnonroot z); [rewrite Er; right; left; easy|].
            apply Hroot. subst rem. rewrite Er. simpl. left; easy. }
    destruct Hfit as [[-> Hfit]|[Hrem' Hfit]].
    - replace (length F + length B =? length comps - 1) with true
        by (symmetry; apply Nat.eqb_eq; simpl in Hlen; lia).
      cbn [orb negb b2n]. cbn [Nat.leb obind]. rewrite Nat.add_0_r, Nat.sub_0_r.
      replace (w c <=? cols) with true by (symmetry; apply Nat.leb_le; lia). cbn [andb].
      destruct fuel; [lia|].
      exists (if front then S (length F) else length F), (if negb front then S (length B) else length B).
      split; [|destruct front; simpl in *; lia].
      simpl. destruct front; easy.
    - replace (length F + length B =? length comps - 1) with false
        by (symmetry; apply Nat.eqb_neq; destruct rem'; [easy|simpl in Hlen; lia]).
      cbn [orb negb b2n].
      replace (1 <=? cols) with true by (symmetry; apply Nat.leb_le; unfold cost1 in Hfit; lia).
      cbn [obind].
      assert (Hs : w c + b2n (negb (str_eqb c root_component)) = cost1 c).
      { unfold cost1, sep, root_component. destruct (str_eqb c [slash]); easy. }
      cbn [b2n] in *. rewrite Hs.
      replace (cost1 c <=? cols - 1) with true by (symmetry; apply Nat.leb_le; lia). cbn [andb].
      destruct front; cbn [negb xorb].
      + specialize (IH rem' (cols - cost1 c) (F ++ [c]) B false).
        rewrite app_length in IH. simpl (length [c]) in IH. rewrite (Nat.add_1_r (length F)) in IH.
        apply IH; try easy.
        * lia.
        * subst comps rem. rewrite <- !app_assoc. easy.
        * lia.
        * subst rem. intros x Hx. apply Hroot. simpl. destruct rem'; [easy|]. right; easy.
        * right. left. subst rem. exact Hroot.
      + specialize (IH rem' (cols - cost1 c) F (c :: B) true). apply IH; try easy.
        * lia.
        * subst comps rem. rewrite <- !app_assoc. easy.
        * lia.
        * subst rem. intros x Hx. apply Hroot. destruct rem' as [|z r]; [easy|].
          simpl in *. apply in_or_app. left; easy.
        * destruct Hcase as [H|[H|[[E H]|H]]]; try easy.
          -- left. lia.
          -- right. left. intros x Hx. apply H, Hin', Hx.
          -- right. right. left. split; [easy|lia].
  Qed.

  (** *** Rendering *)
  Lemma display_front_spec F : forall R buffer,
    display_front (length F) (F ++ R) buffer = Ret (buffer ++ leading F, R).
  Proof.
    induction F as [|c F IH]; intros R buffer; simpl.
    - rewrite app_nil_r. easy.
    - rewrite IH. rewrite <- !app_assoc. unfold root_component.
      destruct (str_eqb_spec c [slash]) as [->|]; [easy|]. rewrite <- !app_assoc. easy.
  Qed.
  Lemma display_back_spec B : forall buffer,
    display_back (length B) B buffer = Ret (buffer ++ trailing B).
  Proof.
    induction B as [|c B IH]; intros buffer; simpl.
    - rewrite app_nil_r. easy.
    - rewrite IH. f_equal. rewrite <- !app_assoc. easy.
  Qed.
  Lemma leading_last F : F <> [] -> exists s, leading F = s ++ [slash].
  Proof.
    induction F as [|c F IH]; [easy|]. intros _. simpl.
    destruct F as [|c' F'].
    - simpl. rewrite app_nil_r. destruct (str_eqb_spec c [slash]); [exists []; easy|].
      exists c. easy.
    - destruct IH as [s ->]; [easy|].
      destruct (str_eqb c [slash]).
      + exists ([slash] ++ s). rewrite app_assoc. easy.
      + exists (c ++ [slash] ++ s). rewrite <- !app_assoc. easy.
  Qed.
  Lemma trailing_app a b : trailing (a ++ b) = trailing a ++ trailing b.
  Proof. induction a; simpl; [easy|]. rewrite IHa, <- app_assoc. easy. Qed.

  Lemma display_elided F M B : M <> [] -> B <> [] ->
    display_components (F ++ M ++ B) (length F, length B)
      = Ret (leading F ++ [ellipsis] ++ trailing B).
  Proof.
    intros HM HB. unfold display_components. rewrite display_front_spec. cbn [obind].
    unfold usub. rewrite !app_length.
    replace (length F + length B <=? length F + (length M + length B)) with true
      by (symmetry; apply Nat.leb_le; lia).
    cbn [obind]. replace (length F + (length M + length B) - (length F + length B))
      with (length M) by lia.
    destruct M as [|m M]; [easy|]. replace (0 <? length (m :: M)) with true by easy.
    rewrite skipn_app, skipn_all, Nat.sub_diag. cbn [app]. rewrite display_back_spec.
    rewrite <- app_assoc. easy.
  Qed.

  Lemma intersperse_cons c r : intersperse (c :: r) = c ++ trailing r.
  Proof.
    revert c. induction r as [|d r IH]; intros c; [simpl; rewrite app_nil_r; easy|].
    change (intersperse (c :: d :: r)) with (c ++ [slash] ++ intersperse (d :: r)).
    rewrite IH. easy.
  Qed.
  Lemma leading_nonroot F : (forall c, In c F -> ~ is_root c) -> F <> [] ->
    leading F = intersperse F ++ [slash].
  Proof.
    induction F as [|c F IH]; [easy|]. intros H _. simpl leading.
    destruct (str_eqb_spec c [slash]) as [E|_]; [exfalso; apply (H c); [left|]; easy|].
    destruct F as [|d F].
    - simpl. rewrite app_nil_r. easy.
    - rewrite IH; [|intros x Hx; apply H; right; easy|easy].
      change (intersperse (c :: d :: F)) with (c ++ [slash] ++ intersperse (d :: F)).
      rewrite <- !app_assoc. easy.
  Qed.
  Lemma intersperse_app a b : a <> [] -> intersperse (a ++ b) = intersperse a ++ trailing b.
  Proof.
    destruct a as [|x a]; [easy|]. intros _. cbn [app].
    rewrite !intersperse_cons, trailing_app, app_assoc. easy.
  Qed.
  Lemma display_full F B : path_ok (F ++ B) -> F <> [] -> B <> [] ->
    display_components (F ++ B) (length F, length B) = Ret (full_path (F ++ B)).
  Proof.
    intros [_ Hok] HF HB. unfold display_components. rewrite display_front_spec. cbn [obind].
    unfold usub. rewrite app_length, Nat.leb_refl. cbn [obind]. rewrite Nat.sub_diag.
    cbn [Nat.ltb Nat.leb]. rewrite display_back_spec. cbn [app]. f_equal.
    destruct F as [|c F]; [easy|]. cbn [app tl] in *. cbn [leading full_path].
    unfold root_component. destruct (str_eqb_spec c [slash]) as [->|Hc].
    - destruct F as [|d F].
      + simpl. destruct B as [|b B]; [easy|]. rewrite intersperse_cons. easy.
      + rewrite leading_nonroot; [|intros x Hx; apply Hok, in_or_app; left; easy|easy].
        rewrite app_assoc, removelast_app by easy. cbn [removelast]. rewrite app_nil_r.
        rewrite intersperse_app by easy. rewrite app_assoc. easy.
    - change (intersperse (c :: F ++ B)) with (intersperse ((c :: F) ++ B)).
      rewrite intersperse_app by easy. f_equal.
      assert (H : leading (c :: F) = intersperse (c :: F) ++ [slash]).
      { apply leading_nonroot; [|easy].
        intros x [<-|Hx]; [easy|]. apply Hok, in_or_app. left; easy. }
      cbn [leading] in H. destruct (str_eqb_spec c [slash]) as [|_]; [easy|]. rewrite H.
      rewrite removelast_app by easy. cbn [removelast]. rewrite app_nil_r. easy.
  Qed.

  Context (Hw : widths w).
  Lemma w_slash : w [slash] = 1.
  Proof. apply (w_one w Hw). left. unfold slash. lia. Qed.
  Lemma w_ell : w [ellipsis] = 1.
  Proof. apply (w_one w Hw). right; left; easy. Qed.
  Lemma leading_width (F : list str) : w (leading F) <= cost F.
  Proof.
    induction F as [|c F IH]; simpl; [rewrite (w_nil w Hw); lia|].
    pose proof (w_app w Hw (if str_eqb c [slash] then [slash] else c ++ [slash]) (leading F)) as H.
    unfold cost1, sep. destruct (str_eqb_spec c [slash]) as [->|].
    - rewrite w_slash in *. lia.
    - pose proof (w_app w Hw c [slash]). rewrite w_slash in *. lia.
  Qed.
  Lemma trailing_width B : (forall c, In c B -> ~ is_root c) -> w (trailing B) <= cost B.
  Proof.
    induction B as [|c B IH]; intros H; cbn [trailing cost]; [rewrite (w_nil w Hw); lia|].
    pose proof (w_app w Hw [slash] (c ++ trailing B)).
    pose proof (w_app w Hw c (trailing B)). rewrite w_slash in *.
    specialize (IH (fun x Hx => H x (or_intror Hx))).
    unfold cost1, sep. destruct (str_eqb_spec c [slash]) as [E|]; [|lia].
    exfalso. apply (H c); [left|]; easy.
  Qed.
  Lemma full_width comps : path_ok comps -> 2 <= length comps -> w (full_path comps) + 1 <= cost comps.
  Proof.
    destruct comps as [|c [|d r]]; simpl length; intros [_ Hok] Hl; try lia.
    assert (Ht : w (trailing (d :: r)) <= cost (d :: r)) by (apply trailing_width; exact Hok).
    unfold full_path. change (cost (c :: d :: r)) with (cost1 c + cost (d :: r)).
    unfold root_component, cost1, sep.
    destruct (str_eqb_spec c [slash]) as [->|Hc].
    - rewrite w_slash. rewrite intersperse_cons.
      change ([slash] ++ d ++ trailing r) with (trailing (d :: r)). lia.
    - rewrite (intersperse_cons c). pose proof (w_app w Hw c (trailing (d :: r))). lia.
  Qed.
End Path.

(** Proofs about metadata, hierarchical profiles, statistics and durations. *)
From Coq Require Import String Permutation DecimalN DecimalFacts.
From Verif Require Import Base Tree_Model Tree_Spec Tree_Proofs2 UI_Model UI_Spec UI_Proofs UI_Proofs2 UI_Proofs3.
Local Open Scope nat_scope.
Local Open Scope bool_scope.
Local Open Scope list_scope.

(** *** Lines *)
Lemma lines_plain (s : str) : ~ In newline s -> lines s = [s].
Proof.
  induction s as [|c s IH]; intros H; [easy|]. simpl.
  destruct (N.eqb_spec c newline) as [->|Hc]; [exfalso; apply H; left; easy|].
  rewrite IH by (intros Hin; apply H; right; easy). easy.
Qed.
Lemma lines_nonempty (s : str) : lines s <> [].
Proof. destruct s; simpl; [easy|]. destruct (_ =? _)%N; [easy|]. destruct (lines s); easy. Qed.
Lemma lines_app (a b : str) ls last : lines a = ls ++ [last] -> ~ In newline b ->
  lines (a ++ b) = ls ++ [last ++ b].
Proof.
  revert ls last. induction a as [|c a IH]; intros ls last E Hb.
  - simpl in E. destruct ls as [|l ls]; simpl in E.
    + injection E as <-. rewrite lines_plain; easy.
    + destruct ls; easy.
  - cbn [lines app] in *. destruct (N.eqb_spec c newline) as [->|Hc].
    + destruct ls as [|l ls]; cbn [app] in E.
      * injection E as <- E. exfalso. apply (lines_nonempty a). easy.
      * injection E as <- E. rewrite (IH ls last); easy.
    + destruct (lines a) as [|l ls'] eqn:Ea; [exfalso; apply (lines_nonempty a); easy|].
      destruct ls as [|l0 ls0]; cbn [app] in E.
      * injection E as <- ->. rewrite (IH [] l); easy.
      * injection E as <- ->. rewrite (IH (l :: ls0) last); easy.
Qed.
Lemma lines_newline (a b : str) : lines (a ++ newline :: b) = lines a ++ lines b.
Proof.
  induction a as [|c a IH]; [easy|]. cbn [lines app]. rewrite IH.
  destruct (N.eqb_spec c newline); [easy|].
  destruct (lines a) as [|l ls] eqn:Ea; [exfalso; apply (lines_nonempty a); easy|]. easy.
Qed.

(** *** Numerals *)
Fixpoint uint_places (u : Decimal.uint) : list Z :=
  match u with
  | Decimal.Nil => []
  | Decimal.D0 u => 0%Z :: uint_places u
  | Decimal.D1 u => 1%Z :: uint_places u
  | Decimal.D2 u => 2%Z :: uint_places u
  | Decimal.D3 u => 3%Z :: uint_places u
  | Decimal.D4 u => 4%Z :: uint_places u
  | Decimal.D5 u => 5%Z :: uint_places u
  | Decimal.D6 u => 6%Z :: uint_places u
  | Decimal.D7 u => 7%Z :: uint_places u
  | Decimal.D8 u => 8%Z :: uint_places u
  | Decimal.D9 u => 9%Z :: uint_places u
  end.
Lemma places_text u : of_string (DecimalString.NilEmpty.string_of_uint u) = map (fun d => Z.to_N (48 + d)) (uint_places u).
Proof.
  induction u; cbn [DecimalString.NilEmpty.string_of_uint uint_places map of_string]; [reflexivity|..];
    rewrite IHu; reflexivity.
Qed.
Lemma places_small u : Forall (fun d => (0 <= d < 10)%Z) (uint_places u).
Proof. induction u; cbn [uint_places]; constructor; (lia || assumption). Qed.
Lemma places_acc u : forall acc,
  Z.pos (Pos.of_uint_acc u acc) = fold_left (fun v d => (10 * v + d)%Z) (uint_places u) (Z.pos acc).
Proof.
  induction u as [|u IH|u IH|u IH|u IH|u IH|u IH|u IH|u IH|u IH|u IH]; intros acc;
    cbn [Pos.of_uint_acc uint_places]; [reflexivity|..];
    rewrite IH; cbn [fold_left]; f_equal; lia.
Qed.
Lemma places_value u : fold_left (fun v d => (10 * v + d)%Z) (uint_places u) 0%Z = Z.of_N (N.of_uint u).
Proof.
  unfold N.of_uint. symmetry.
  induction u as [|u IH|u IH|u IH|u IH|u IH|u IH|u IH|u IH|u IH|u IH];
    cbn [Pos.of_uint uint_places]; [reflexivity|exact IH|..];
    cbn [Z.of_N]; rewrite places_acc; reflexivity.
Qed.
Lemma to_uint_head n u : N.to_uint n = Decimal.D0 u -> u = Decimal.Nil.
Proof.
  intros E. pose proof (DecimalN.Unsigned.to_of (N.to_uint n)) as H.
  rewrite DecimalN.Unsigned.of_to, E in H. unfold Decimal.unorm in H.
  destruct (Decimal.nzhead (Decimal.D0 u)) eqn:En; try discriminate.
  - now injection H.
  - apply nzhead_nonzero in En. contradiction.
Qed.
Lemma digits_numeral n : (0 <= n)%Z -> numeral n (digits n).
Proof.
  intros Hn. unfold digits. replace (n <? 0)%Z with false by lia. cbn [app]. rewrite places_text.
  exists (uint_places (N.to_uint (Z.abs_N n))). split; [reflexivity|]. split; [|split; [|split]].
  - intros E. assert (En : N.to_uint (Z.abs_N n) = Decimal.Nil) by (destruct (N.to_uint (Z.abs_N n)); [reflexivity|discriminate..]).
    pose proof (DecimalN.Unsigned.of_to (Z.abs_N n)) as H. rewrite En in H. cbn in H. rewrite <- H in En. discriminate.
  - apply places_small.
  - intros r E. destruct (N.to_uint (Z.abs_N n)) eqn:En; try discriminate. apply to_uint_head in En. subst u. now injection E.
  - rewrite places_value, DecimalN.Unsigned.of_to. lia.
Qed.

Section Meta.
  Variable w : str -> nat.
  Variable rfc3339 : Z -> str.
  Variable debug_str : str -> str.
  Context (Hw : widths w) (Hdate : forall us, ~ In newline (rfc3339 us))
    (Hdebug : forall s, ~ In newline (debug_str s)).

  Lemma digits_plain n : ~ In newline (digits n).
  Proof.
    unfold digits. rewrite in_app_iff. intros [H|H].
    - destruct (_ <? _)%Z; simpl in H; [|easy]. intuition discriminate.
    - revert H. generalize (N.to_uint (Z.abs_N n)). intros d.
      induction d; simpl; try easy; intros [H|H]; try (apply IHd; exact H); discriminate.
  Qed.
  Lemma extras_plain pid thread bot extras :
    metadata_extras rfc3339 debug_str pid thread bot = Ret extras ->
    forall e, In e extras -> ~ In newline e.
  Proof.
    unfold metadata_extras. intros E.
    assert (Ho : exists rec, extras =
           match pid with None => [] | Some p => [of_string "pid " ++ digits p] end ++
           match thread with None => [] | Some t => [of_string "thread " ++ debug_str t] end ++ rec /\
           forall e, In e rec -> ~ In newline e).
    { destruct bot as [us|]; [destruct (date_in_range us)|]; cbn [obind] in E; try easy;
        injection E as <-; eexists; (split; [reflexivity|]).
      - intros e [<-|[]] H. simpl in H. repeat (destruct H as [H|H]; [discriminate|]). exact (Hdate us H).
      - easy. }
    destruct Ho as (rec & -> & Hrec). intros e. rewrite !in_app_iff.
    intros [H|[H|H]]; [destruct pid; [|easy]|destruct thread; [|easy]|apply Hrec, H].
    - destruct H as [<-|[]]. intros H. cbn [of_string app] in H.
      repeat (destruct H as [H|H]; [discriminate|]). exact (digits_plain _ H).
    - destruct H as [<-|[]]. intros H. cbn [of_string app] in H.
      repeat (destruct H as [H|H]; [discriminate|]). exact (Hdebug _ H).
  Qed.
  Lemma date_range us : date_in_range us = true <-> years_0_to_9999 us.
  Proof.
    unfold date_in_range, years_0_to_9999. rewrite andb_true_iff, !Z.leb_le.
    pose proof (Z.div_mod us 1000000). pose proof (Z.mod_pos_bound us 1000000). lia.
  Qed.
  Lemma extras_ret pid thread bot : (forall us, bot = Some us -> date_in_range us = true) ->
    exists extras, metadata_extras rfc3339 debug_str pid thread bot = Ret extras.
  Proof.
    intros H. unfold metadata_extras. destruct bot as [us|].
    - rewrite (H us eq_refl). eexists. reflexivity.
    - eexists. reflexivity.
  Qed.

  Lemma display_more_ok eff extras : forall buf llw ls last,
    1 <= eff -> (forall e, In e extras -> ~ In newline e) ->
    lines buf = ls ++ [last] -> Forall (fun l => w l <= eff + 1) ls -> w last <= llw -> llw <= eff ->
    exists ls' last', lines (display_more w eff buf llw extras) = ls' ++ [last'] /\
      Forall (fun l => w l <= eff + 1) ls' /\ w last' <= eff.
  Proof.
    induction extras as [|e extras IH]; intros buf llw ls last Heff Hnl Hl Hls Hlast Hllw.
    - exists ls, last. split; [easy|]. split; [easy|]. lia.
    - cbn [display_more].
      set (x := if eff <? w e then [ellipsis] else e).
      assert (Hx : w x <= eff /\ ~ In newline x).
      { unfold x. destruct (Nat.ltb_spec eff (w e)).
        - rewrite (w_ell w Hw). split; [lia|]. simpl. intuition discriminate.
        - split; [lia|]. apply Hnl. left. easy. }
      clearbody x. destruct Hx as [Hxw Hxn].
      destruct (Nat.ltb_spec eff (S llw + 1 + w x)) as [Hlt|Hge].
      + apply (IH _ _ (ls ++ [last ++ [comma]]) x); try easy.
        * intros e' He'. apply Hnl. right. easy.
        * change (buf ++ [comma; newline] ++ x) with (buf ++ [comma] ++ newline :: x).
          rewrite app_assoc, lines_newline.
          rewrite (lines_app buf [comma] ls last Hl) by (simpl; intuition discriminate).
          rewrite (lines_plain x Hxn). easy.
        * apply Forall_app. split; [easy|]. constructor; [|easy].
          etransitivity; [apply (w_app w Hw)|].
          rewrite (w_one w Hw comma) by (left; unfold comma; lia). lia.
      + apply (IH _ _ ls (last ++ [comma; space] ++ x)); try easy.
        * intros e' He'. apply Hnl. right. easy.
        * apply lines_app; [easy|]. simpl. intuition discriminate.
        * etransitivity; [apply (w_app w Hw)|].
          assert (H : w ([comma; space] ++ x) <= 2 + w x).
          { change ([comma; space] ++ x) with ([comma] ++ [space] ++ x).
            etransitivity; [apply (w_app w Hw)|].
            rewrite (w_one w Hw comma) by (left; unfold comma; lia).
            assert (w ([space] ++ x) <= 1 + w x).
            { etransitivity; [apply (w_app w Hw)|].
              rewrite (w_one w Hw space) by (left; unfold space; lia). lia. }
            lia. }
          etransitivity; [apply Nat.add_le_mono; [exact Hlast|exact H]|]. lia.
  Qed.

  Theorem metadata_ok name pid thread bot max : 1 <= max -> ~ In newline name ->
    (forall us, bot = Some us -> years_0_to_9999 us) ->
    exists r, metadata w rfc3339 debug_str name pid thread bot max = Ret r /\
      Forall (fun l => w l <= max) (lines r).
  Proof.
    intros Hmax Hn Hbot. unfold metadata.
    destruct (extras_ret pid thread bot (fun us H => proj2 (date_range us) (Hbot us H))) as [extras Eex]. rewrite Eex.
    pose proof (extras_plain _ _ _ _ Eex) as He.
    replace (1 <=? max) with true by (symmetry; apply Nat.leb_le; lia).
    set (buf := of_string "Data from " ++ name).
    destruct (Nat.ltb_spec (max - 1) (w buf)) as [Hlt|Hge].
    - eexists. split; [reflexivity|]. rewrite lines_plain by (simpl; intuition discriminate).
      constructor; [|easy]. rewrite (w_ell w Hw). easy.
    - cbn [obind]. eexists. split; [reflexivity|].
      assert (Hb : ~ In newline buf).
      { unfold buf. rewrite in_app_iff. intros [H|H]; [|easy]. simpl in H. intuition discriminate. }
      assert (Hpos : 1 <= w buf).
      { unfold buf. cbn [of_string app]. apply (w_pos w Hw). simpl. lia. }
      destruct (display_more_ok (max - 1) extras buf (w buf) [] buf)
          as (ls & last & E & Hls & Hlast); try easy; try lia.
      + apply lines_plain, Hb.
      + rewrite (lines_app _ [dot] ls last E) by (simpl; unfold newline, dot; intuition discriminate).
        apply Forall_app. split.
        * eapply Forall_impl; [|exact Hls]. intros l Hl. simpl in Hl. lia.
        * constructor; [|easy]. etransitivity; [apply (w_app w Hw)|].
          rewrite (w_one w Hw dot) by (left; unfold dot; lia). lia.
  Qed.

  Theorem metadata_panics name pid thread bot max :
    metadata w rfc3339 debug_str name pid thread bot max = Panic <->
    max = 0 \/ (w (of_string "Data from " ++ name) < max /\ exists us, bot = Some us /\ ~ years_0_to_9999 us).
  Proof.
    unfold metadata, metadata_extras. destruct (Nat.leb_spec 1 max) as [Hm|Hm].
    2:{ split; [intros _; left; lia|reflexivity]. }
    set (n := w _).
    destruct (Nat.ltb_spec (max - 1) n) as [Hlt|Hge].
    { split; [discriminate|]. intros [H|[H _]]; lia. }
    destruct bot as [us|]; cbn [obind].
    - destruct (date_in_range us) eqn:E; cbn [obind].
      + split; [discriminate|]. intros [H|[_ (us' & [= <-] & H)]]; [lia|].
        exfalso. apply H. apply date_range, E.
      + split; [|reflexivity]. intros _. right. split; [lia|]. exists us. split; [reflexivity|].
        intros H. apply date_range in H. congruence.
    - split; [discriminate|]. intros [H|[_ (us' & [=] & _)]]. lia.
  Qed.
  Lemma unfold_plain (s : str) : ~ In newline s -> unfold_lines s = s.
  Proof.
    induction s as [|c s IH]; intros H; [easy|]. simpl.
    destruct (N.eqb_spec c newline) as [->|]; [exfalso; apply H; left; easy|].
    rewrite IH; [easy|]. intros Hin. apply H. right. easy.
  Qed.
  Lemma abbreviated_eq max (e : str) : 1 <= max ->
    (if max - 1 <? w e then [ellipsis] else e) = abbreviated w max e.
  Proof.
    intros H. unfold abbreviated. destruct (Nat.ltb_spec (max - 1) (w e)), (Nat.leb_spec max (w e)); try reflexivity; lia.
  Qed.
  Lemma abbreviated_plain max (e : str) : ~ In newline e -> ~ In newline (abbreviated w max e).
  Proof. unfold abbreviated. destruct (max <=? w e); [intros _ [H|[]]; discriminate|auto]. Qed.
  Lemma display_more_text max extras : 1 <= max -> forall buf llw,
    (forall e, In e extras -> ~ In newline e) ->
    unfold_lines (display_more w (max - 1) buf llw extras)
      = unfold_lines buf ++ concat (map (fun e => [comma; space] ++ abbreviated w max e) extras).
  Proof.
    intros Hmax. induction extras as [|e extras IH]; intros buf llw H.
    - simpl. rewrite app_nil_r. easy.
    - cbn [display_more map concat]. rewrite (abbreviated_eq max e Hmax).
      pose proof (abbreviated_plain max e (H e (or_introl eq_refl))) as Hn.
      assert (H' : forall e, In e extras -> ~ In newline e)
        by (intros x Hx; apply H; right; exact Hx).
      set (x := abbreviated w max e) in *. clearbody x.
      destruct (_ <? _); rewrite IH by exact H'; unfold unfold_lines; rewrite !map_app;
        change (map (fun c => if (c =? newline)%N then space else c) x) with (unfold_lines x);
        rewrite (unfold_plain x Hn); rewrite <- !app_assoc; easy.
  Qed.
  Lemma display_more_lines max extras : 1 <= max -> comma_width w -> forall buf ls line,
    (forall e, In e extras -> ~ In newline e) -> lines buf = ls ++ [line] ->
    exists ls', laid_out w max line (map (abbreviated w max) extras) ls' /\
      lines (display_more w (max - 1) buf (w line) extras ++ [dot]) = ls ++ ls'.
  Proof.
    intros Hmax Hc. induction extras as [|e extras IH]; intros buf ls line H Hl.
    - exists [line ++ of_string "."]. split; [constructor|]. cbn [display_more].
      apply lines_app; [exact Hl|]. simpl. intuition discriminate.
    - cbn [display_more map]. rewrite (abbreviated_eq max e Hmax).
      pose proof (abbreviated_plain max e (H e (or_introl eq_refl))) as Hn.
      assert (H' : forall e, In e extras -> ~ In newline e)
        by (intros x Hx; apply H; right; exact Hx).
      set (x := abbreviated w max e) in *. clearbody x.
      pose proof (Hc line x) as Hw2.
      destruct (Nat.ltb_spec (max - 1) (S (w line) + 1 + w x)) as [Hlt|Hge].
      + destruct (IH (buf ++ [comma; newline] ++ x) (ls ++ [line ++ [comma]]) x H') as (ls' & L & E).
        { change (buf ++ [comma; newline] ++ x) with (buf ++ [comma] ++ newline :: x).
          rewrite app_assoc, lines_newline.
          rewrite (lines_app buf [comma] ls line Hl) by (simpl; intuition discriminate).
          rewrite (lines_plain x Hn). easy. }
        exists ((line ++ of_string ",") :: ls'). split.
        * apply lo_next; [|exact L]. change (of_string ", ") with [comma; space]. lia.
        * rewrite E, <- app_assoc. reflexivity.
      + destruct (IH (buf ++ [comma; space] ++ x) ls (line ++ [comma; space] ++ x) H') as (ls' & L & E).
        { apply lines_app; [easy|]. simpl. intuition discriminate. }
        exists ls'. split.
        * apply lo_same; [change (of_string ", ") with [comma; space]; lia|exact L].
        * rewrite <- E. do 3 f_equal. lia.
  Qed.

  Lemma digits_signed n : signed_numeral n (digits n).
  Proof.
    destruct (Z.ltb_spec n 0) as [Hn|Hn]; [right|left; now apply digits_numeral].
    exists (digits (- n)). split; [|apply digits_numeral; lia].
    unfold digits. replace (n <? 0)%Z with true by lia. replace (- n <? 0)%Z with false by lia.
    replace (Z.abs_N (- n)) with (Z.abs_N n) by lia. reflexivity.
  Qed.
  Lemma extras_items pid thread bot extras :
    metadata_extras rfc3339 debug_str pid thread bot = Ret extras ->
    metadata_items rfc3339 debug_str pid thread bot extras.
  Proof.
    unfold metadata_extras. intros E.
    assert (Ho : exists rec, extras =
           match pid with None => [] | Some p => [of_string "pid " ++ digits p] end ++
           match thread with None => [] | Some t => [of_string "thread " ++ debug_str t] end ++ rec /\
           known (fun us s => s = of_string "recorded " ++ rfc3339 us) bot rec).
    { destruct bot as [us|]; [destruct (date_in_range us)|]; cbn [obind] in E; try easy;
        injection E as <-; eexists; (split; [reflexivity|]); now constructor. }
    destruct Ho as (rec & -> & Hrec). do 3 eexists. split; [reflexivity|]. split; [|split; [|exact Hrec]].
    - destruct pid; constructor. eexists. split; [reflexivity|]. apply digits_signed.
    - destruct thread; now constructor.
  Qed.
  Theorem metadata_text name pid thread bot max r :
    ~ In newline name -> w (of_string "Data from " ++ name) < max ->
    metadata w rfc3339 debug_str name pid thread bot max = Ret r ->
    exists items, metadata_items rfc3339 debug_str pid thread bot items /\
      unfold_lines r = of_string "Data from " ++ name
        ++ concat (map (fun e => of_string ", " ++ abbreviated w max e) items) ++ of_string "." /\
      (comma_width w ->
       laid_out w max (of_string "Data from " ++ name) (map (abbreviated w max) items) (lines r)).
  Proof.
    intros Hn Hb. unfold metadata. destruct (Nat.leb_spec 1 max) as [Hmax|]; [|easy].
    replace (max - 1 <? w (of_string "Data from " ++ name)) with false
      by (symmetry; apply Nat.ltb_ge; lia).
    destruct (metadata_extras rfc3339 debug_str pid thread bot) as [extras|] eqn:Eex; [|easy].
    pose proof (extras_plain _ _ _ _ Eex) as He.
    cbn [obind]. intros E. injection E as <-. exists extras. split; [now apply extras_items|].
    assert (Hp : ~ In newline (of_string "Data from " ++ name)).
    { intros H. apply in_app_iff in H. destruct H as [H|H]; [|exact (Hn H)].
      cbn [of_string In] in H. unfold newline in H.
      repeat (destruct H as [H|H]; [discriminate|]). exact H. }
    split.
    - unfold unfold_lines. rewrite map_app.
      fold (unfold_lines (display_more w (max - 1) (of_string "Data from " ++ name)
              (w (of_string "Data from " ++ name)) extras)).
      rewrite display_more_text by assumption.
      rewrite unfold_plain by exact Hp.
      rewrite <- !app_assoc. easy.
    - intros Hc.
      destruct (display_more_lines max extras Hmax Hc (of_string "Data from " ++ name) []
                  (of_string "Data from " ++ name) He) as (ls & L & E).
      { apply lines_plain, Hp. }
      cbn [app] in E. cbn [app]. rewrite <- E in L. exact L.
  Qed.
End Meta.

(** *** Hierarchical profile *)
Fixpoint text_tree_ind' (P : text_tree -> Prop)
  (H : forall l leaves, Forall P leaves -> P (TT l leaves)) (t : text_tree) : P t :=
  match t with
  | TT l leaves =>
      H l leaves ((fix go ls : Forall P ls :=
        match ls with [] => Forall_nil P | x :: r => Forall_cons x (text_tree_ind' P H x) (go r) end)
        leaves)
  end.
Section Hier.
  Variable w : str -> nat.
  Variable graphemes : str -> list str.
  Context (Hw : widths w) (Hg : splits graphemes).

  (** Each label fits in what its depth leaves. *)
  Inductive fits : nat -> text_tree -> Prop :=
  | fits_intro n l leaves : w l <= n -> (leaves <> [] -> 3 <= n) ->
      Forall (fits (n - 2)) leaves -> fits n (TT l leaves).

  Lemma tree_lines_ok : forall t n prefix k, fits n t -> w prefix <= k ->
    Forall (fun l => w l <= k + n) (tree_lines prefix t).
  Proof.
    induction t as [l leaves IH] using text_tree_ind'. intros n prefix k Hf Hp.
    inversion Hf as [n' l' leaves' Hl Hn Hleaves]; subst. simpl.
    assert (Hglyph : forall a b (s : str) m, one_column a -> one_column b -> w s <= m ->
              w (prefix ++ [a; b] ++ s) <= k + 2 + m).
    { intros a b s m Ha Hb Hs. etransitivity; [apply (w_app w Hw)|].
      assert (H : w ([a; b] ++ s) <= 2 + w s).
      { change ([a; b] ++ s) with ([a] ++ [b] ++ s). etransitivity; [apply (w_app w Hw)|].
        rewrite (w_one w Hw a Ha). assert (w ([b] ++ s) <= 1 + w s); [|lia].
        etransitivity; [apply (w_app w Hw)|]. rewrite (w_one w Hw b Hb). lia. }
      etransitivity; [apply Nat.add_le_mono; [exact Hp|exact H]|]. lia. }
    induction leaves as [|[l1 sub] leaves IHl]; [constructor|].
    specialize (Hn ltac:(easy)). inversion Hleaves as [|? ? Hf1 Hf2]; subst.
    inversion IH as [|? ? IH1 IH2]; subst.
    assert (H1 : w l1 <= n - 2) by (inversion Hf1; easy).
    set (is_last := match leaves with [] => true | _ => false end).
    constructor.
    - change (prefix ++ (if is_last then last_item else middle_item) :: item_indent :: l1)
        with (prefix ++ [if is_last then last_item else middle_item; item_indent] ++ l1).
      etransitivity; [apply (Hglyph _ _ l1 (n - 2)); [| |exact H1]|lia].
      + destruct is_last; right; right; unfold last_item, middle_item; lia.
      + right; right; unfold item_indent; lia.
    - apply Forall_app. split.
      + change (match leaves with [] => true | _ :: _ => false end) with is_last.
        replace (k + n) with (k + 2 + (n - 2)) by lia.
        apply IH1; [exact Hf1|].
        change (prefix ++ [if is_last then space else middle_skip; space])
          with (prefix ++ [if is_last then space else middle_skip; space] ++ []).
        rewrite <- (Nat.add_0_r (k + 2)). apply Hglyph.
        * destruct is_last; [left; unfold space; lia|right; right; unfold middle_skip; lia].
        * left; unfold space; lia.
        * rewrite (w_nil w Hw). lia.
      + apply IHl; [exact IH2| |intros _; lia|exact Hf2].
        constructor; [easy|intros _; lia|exact Hf2].
  Qed.

  Variable hottest : list act_tree -> list act_tree.
  Variable terminator : nat -> str.
  Context (Hhot : forall l, incl (hottest l) l /\ length (hottest l) <= length l).

  Lemma omap_ok {A B} (f : A -> outcome B) (P : B -> Prop) l :
    (forall x, In x l -> exists y, f x = Ret y /\ P y) ->
    exists ys, omap f l = Ret ys /\ Forall P ys /\ length ys = length l.
  Proof.
    induction l as [|x l IH]; intros H; simpl.
    - exists []. easy.
    - destruct (H x (or_introl eq_refl)) as (y & -> & Hy). cbn [obind].
      destruct IH as (ys & -> & Hys & Hlen); [intros z Hz; apply H; right; easy|]. cbn [obind].
      exists (y :: ys). split; [easy|]. split; [constructor; easy|]. simpl. lia.
  Qed.

  Lemma profile_tree_ok : forall fuel root max, max < fuel -> 1 <= max -> act_ok w root ->
    exists t, profile_tree w graphemes hottest terminator fuel root max = Ret t /\ fits max t.
  Proof.
    induction fuel as [|fuel IH]; intros root max Hf Hmax Hok; [lia|].
    destruct Hok as [name arg trailer rel children Hname Harg Hcpp Hch].
    cbn [profile_tree].
    destruct (display_activity_ok w graphemes Hw Hg name arg trailer max Harg Hcpp Hname Hmax)
      as (label & -> & Hlabel). cbn [obind].
    destruct (Nat.eqb_spec (max - 1 - 1) 0) as [E|Hne].
    - eexists. split; [reflexivity|]. constructor; easy.
    - destruct (Hhot children) as [Hincl Hlen].
      destruct (omap_ok (fun c => profile_tree w graphemes hottest terminator fuel c (max - 1 - 1))
                  (fits (max - 1 - 1)) (hottest children)) as (leaves & -> & Hleaves & _).
      { intros c Hc. apply IH; [lia|lia|]. rewrite Forall_forall in Hch. apply Hch, Hincl, Hc. }
      cbn [obind]. replace (max - 1 - 1) with (max - 2) in * by lia.
      destruct (Nat.eqb_spec (length (hottest children)) (length children)).
      + eexists. split; [reflexivity|]. constructor; [easy|lia|easy].
      + unfold usub. replace (length (hottest children) <=? length children) with true
          by (symmetry; apply Nat.leb_le; lia). cbn [obind].
        eexists. split; [reflexivity|]. constructor; [easy|lia|].
        apply Forall_app. split; [easy|]. constructor; [|easy]. constructor; [|easy|easy].
        destruct (Nat.ltb_spec (max - 2) (w (terminator (length children - length (hottest children))))).
        * rewrite (w_ell w Hw). lia.
        * lia.
  Qed.

  Theorem hierarchical_ok root max : 1 <= max -> act_ok w root ->
    exists t, hierarchical_profile_tree w graphemes hottest terminator root max = Ret t /\
      Forall (fun l => w l <= max) (render_tree t).
  Proof.
    intros Hmax Hok.
    destruct (profile_tree_ok (S max) root max (Nat.lt_succ_diag_r max) Hmax Hok) as (t & E & Hf).
    exists t. split; [exact E|]. destruct t as [l leaves]. cbn [render_tree].
    constructor; [inversion Hf; easy|].
    apply (tree_lines_ok _ max [] 0 Hf). rewrite (w_nil w Hw). easy.
  Qed.
End Hier.

Lemma omap_spec {A B} (f : A -> outcome B) l : forall ys, omap f l = Ret ys ->
  Forall2 (fun x y => f x = Ret y) l ys.
Proof.
  induction l as [|x l IH]; simpl; intros ys E.
  - injection E as <-. constructor.
  - destruct (f x) as [y|] eqn:Ef; [|easy]. cbn [obind] in E.
    destruct (omap f l) as [ys'|]; [|easy]. cbn [obind] in E. injection E as <-.
    constructor; [exact Ef|apply IH; easy].
Qed.

Section Shows.
  Variable w : str -> nat.
  Variable graphemes : str -> list str.
  Variable sort_desc : forall A : Type, (A -> Z) -> list A -> list A.
  Context (Hsort : sorts sort_desc).
  Variable relative : act_tree -> Z.
  Variable threshold : Z.
  Variable terminator : nat -> str.
  Let hottest := fun l => hottest_activities sort_desc l relative threshold.

  Lemma profile_shows : forall fuel root max t,
    profile_tree w graphemes hottest terminator fuel root max = Ret t ->
    shows w graphemes relative threshold terminator max root t.
  Proof.
    induction fuel as [|fuel IH]; intros [name arg info rel children] max t; [easy|].
    cbn [profile_tree].
    destruct (display_activity w graphemes name arg max info) as [label|] eqn:Ed; [|easy]. cbn [obind].
    destruct (Nat.eqb_spec (max - 1 - 1) 0) as [E|Hne].
    - intros Et. injection Et as <-. apply shows_leaf; [lia|exact Ed].
    - destruct (omap _ _) as [shown|] eqn:Em; [|easy]. cbn [obind].
      apply omap_spec in Em.
      destruct (Hsort _ relative (filter (fun c => (threshold <=? relative c)%Z) children)) as [Hp Hd].
      fold (hottest_activities sort_desc children relative threshold) in Hp, Hd.
      fold (hottest children) in Hp, Hd.
      assert (Hlen : length (hottest children) <= length children).
      { rewrite <- (Permutation_length Hp). clear. induction children as [|x l IH]; simpl; [lia|].
        destruct (_ <=? _)%Z; simpl; lia. }
      assert (Hf : Forall2 (shows w graphemes relative threshold terminator (max - 2))
                     (hottest children) shown).
      { eapply Forall2_impl; [|exact Em]. intros a b Hab. simpl in Hab.
        replace (max - 2) with (max - 1 - 1) by lia. apply IH, Hab. }
      destruct (Nat.eqb_spec (length (hottest children)) (length children)) as [El|Hl].
      + intros Et. injection Et as <-. rewrite <- (app_nil_r shown).
        eapply shows_node; [lia|exact Ed|exact Hp|exact Hd|exact Hf|]. left. easy.
      + destruct (usub _ _) as [hidden|] eqn:Eu; [|easy]. cbn [obind].
        unfold usub in Eu. destruct (_ <=? _) in Eu; [|easy]. injection Eu as <-.
        intros Et. injection Et as <-.
        eapply shows_node; [lia|exact Ed|exact Hp|exact Hd|exact Hf|]. right. split; [lia|].
        eexists. split; [reflexivity|]. replace (max - 2) with (max - 1 - 1) by lia.
        destruct (Nat.ltb_spec (max - 1 - 1) (w (terminator (length children - length (hottest children)))));
          [right|left]; split; try easy; lia.
  Qed.
End Shows.

(** *** Statistics *)
Section Stats.
  Variable sort_desc : forall A : Type, (A -> Z) -> list A -> list A.
  Context (Hsort : sorts sort_desc).
  Local Open Scope Z_scope.

  Lemma hottest_ok {A} (l : list A) dur thr :
    Permutation (filter (fun a => thr <=? dur a) l) (hottest_activities sort_desc l dur thr) /\
    decreasing dur (hottest_activities sort_desc l dur thr).
  Proof. apply Hsort. Qed.

  Lemma add_entry_names p n d x :
    In x (map fst (add_entry p n d)) <-> In x (map fst p) \/ x = n.
  Proof.
    induction p as [|[m t] p IH]; simpl; [intuition|].
    destruct (str_eqb_spec m n) as [->|Hne]; simpl; [intuition|]. rewrite IH. intuition.
  Qed.
  Lemma add_entry_nodup p n d : NoDup (map fst p) -> NoDup (map fst (add_entry p n d)).
  Proof.
    induction p as [|[m t] p IH]; simpl; intros H.
    - constructor; [easy|constructor].
    - inversion H as [|? ? Hnin Hnd]; subst.
      destruct (str_eqb_spec m n) as [->|Hne]; simpl; [constructor; easy|].
      constructor; [|apply IH; easy]. rewrite add_entry_names. intuition.
  Qed.
  Lemma add_entry_total p n d x :
    total_of x (add_entry p n d) = total_of x p + (if str_eqb n x then d else 0).
  Proof.
    induction p as [|[m t] p IH]; cbn [add_entry total_of fold_right fst snd].
    - destruct (str_eqb n x); lia.
    - destruct (str_eqb_spec m n) as [->|Hne]; cbn [total_of fold_right fst snd].
      + destruct (str_eqb n x); lia.
      + fold (total_of x (add_entry p n d)). fold (total_of x p).
        destruct (str_eqb m x); rewrite IH; lia.
  Qed.
  Definition sum_snd (l : list (str * Z)) : Z := fold_right (fun a t => snd a + t) 0 l.
  Lemma add_entry_sum p n d : sum_snd (add_entry p n d) = sum_snd p + d.
  Proof.
    induction p as [|[m t] p IH]; simpl; [lia|].
    destruct (str_eqb m n); simpl; [lia|]. fold (sum_snd (add_entry p n d)). fold (sum_snd p). lia.
  Qed.

  Lemma fold_entries l : forall p, NoDup (map fst p) ->
    let q := fold_left (fun p a => add_entry p (fst a) (snd a)) l p in
    NoDup (map fst q) /\
    (forall x, In x (map fst q) <-> In x (map fst p) \/ In x (map fst l)) /\
    (forall x, total_of x q = total_of x p + total_of x l) /\
    sum_snd q = sum_snd p + sum_snd l.
  Proof.
    induction l as [|[n d] l IH]; intros p Hp; cbn [fold_left fst snd].
    - split; [easy|]. simpl. split; [intuition|]. split; [intros; lia|lia].
    - specialize (IH (add_entry p n d) (add_entry_nodup p n d Hp)). cbv zeta in IH.
      destruct IH as (H1 & H2 & H3 & H4). split; [easy|]. split; [|split].
      + intros x. rewrite H2, add_entry_names. simpl. intuition.
      + intros x. rewrite H3, add_entry_total. cbn [total_of fold_right fst snd].
        fold (total_of x l). destruct (str_eqb n x); lia.
      + rewrite H4, add_entry_sum. simpl. fold (sum_snd l). lia.
  Qed.

  Lemma total_of_in l : NoDup (map fst l) -> forall x t, In (x, t) l -> total_of x l = t.
  Proof.
    induction l as [|[n d] l IH]; intros Hnd x t Hin; [easy|].
    cbn [total_of fold_right fst snd]. fold (total_of x l).
    cbn [map fst] in Hnd. inversion Hnd as [|? ? Hnin Hnd']; subst.
    destruct Hin as [E|Hin].
    - injection E as -> ->. rewrite str_eqb_refl.
      assert (total_of x l = 0); [|lia].
      clear - Hnin. induction l as [|[n d] l IH]; [easy|].
      cbn [total_of fold_right fst snd]. fold (total_of x l).
      destruct (str_eqb_spec n x) as [->|]; [exfalso; apply Hnin; left; easy|].
      apply IH. intros H. apply Hnin. right. easy.
    - destruct (str_eqb_spec n x) as [->|]; [|apply IH; easy].
      exfalso. apply Hnin. apply in_map_iff. exists (x, t). easy.
  Qed.
  Lemma sum_snd_perm a b : Permutation a b -> sum_snd a = sum_snd b.
  Proof. induction 1; simpl in *; try fold (sum_snd l) in *; try fold (sum_snd l') in *; lia. Qed.

  Theorem breakdown_ok acts :
    let b := activity_type_breakdown sort_desc acts in
    NoDup (map fst b) /\
    (forall name, In name (map fst b) <-> In name (map fst acts)) /\
    (forall name t, In (name, t) b -> t = total_of name acts) /\
    decreasing snd b /\ sum_snd b = sum_snd acts.
  Proof.
    cbv zeta. unfold activity_type_breakdown.
    destruct (fold_entries acts [] (NoDup_nil _)) as (H1 & H2 & H3 & H4).
    set (q := fold_left (fun p a => add_entry p (fst a) (snd a)) acts []) in *.
    destruct (Hsort _ snd q) as [Hp Hd].
    assert (Hpf : Permutation (map fst q) (map fst (sort_desc _ snd q))) by (apply Permutation_map; easy).
    split; [eapply Permutation_NoDup; [exact Hpf|exact H1]|].
    split; [|split; [|split; [exact Hd|]]].
    - intros x. split; intros Hin.
      + apply (Permutation_in _ (Permutation_sym Hpf)) in Hin. apply H2 in Hin.
        destruct Hin as [[]|Hin]. exact Hin.
      + apply (Permutation_in _ Hpf). apply H2. right. exact Hin.
    - intros x t Hin. apply (Permutation_in _ (Permutation_sym Hp)) in Hin.
      rewrite <- (total_of_in q H1 x t Hin), H3. simpl. lia.
    - rewrite <- (sum_snd_perm _ _ Hp), H4. simpl. lia.
  Qed.

  Lemma osum_seq (f : nat -> outcome Z) (l : list (node str)) k :
    (forall i n, nth_error l i = Some n -> f (k + i)%nat = Ret (n_self n)) ->
    osum f (seq k (length l)) = Ret (sum_snd (map (fun n => (s_act (n_stat n), n_self n)) l)).
  Proof.
    revert k. induction l as [|n l IH]; intros k H; [easy|]. cbn [length seq osum map sum_snd fold_right snd].
    pose proof (H 0%nat n eq_refl) as H0. rewrite Nat.add_0_r in H0. rewrite H0. cbn [obind].
    rewrite (IH (S k)). 2: { intros i m Hi. rewrite <- (H (S i) m Hi). f_equal. lia. }
    easy.
  Qed.
  Lemma trace_breakdown_total xs t : tree_of xs t ->
    exists roots total, root_activities t = Ret roots /\ osum (duration t) roots = Ret total /\
      sum_snd (trace_breakdown sort_desc t) = total.
  Proof.
    intros Ht. destruct (total_sum str xs t Ht) as (roots & total & H1 & H2 & H3).
    exists roots, total. split; [easy|]. split; [easy|].
    unfold trace_breakdown.
    destruct (breakdown_ok (map (fun n => (s_act (n_stat n), n_self n)) (t_acts t)))
      as (_ & _ & _ & _ & ->).
    assert (Hlen : length xs = length (t_acts t)).
    { destruct (all_listed str xs t Ht) as [E _]. unfold all_activities in E.
      apply (f_equal (@length (nat * stat str))) in E. rewrite !combine_length, !seq_length, map_length in E.
      lia. }
    rewrite Hlen, (osum_seq _ (t_acts t) 0) in H3.
    - injection H3 as <-. easy.
    - intros i n Hi. unfold self_duration, activity_trace. simpl. rewrite Hi. easy.
  Qed.
End Stats.
Lemma pad2_two_digits n : (0 <= n < 100)%Z -> pad2 n = two_digits n.
Proof.
  intros H.
  assert (A : forallb (fun k => str_eqb (pad2 (Z.of_nat k)) (two_digits (Z.of_nat k))) (seq 0 100) = true) by (vm_compute; reflexivity).
  rewrite forallb_forall in A. specialize (A (Z.to_nat n)). rewrite Z2Nat.id in A by lia.
  apply str_eqb_eq, A, in_seq. lia.
Qed.
Lemma fixed2_hundredths h : (0 <= h)%Z -> hundredths h (fixed2 h).
Proof.
  intros H. exists (digits (h / 100)). split; [apply digits_numeral, Z.div_pos; lia|].
  unfold fixed2. rewrite pad2_two_digits; [reflexivity|]. apply Z.mod_pos_bound. lia.
Qed.
Lemma fixed05_padded h : (0 <= h < 10000)%Z -> fixed05_2 h = hundredths_padded h.
Proof.
  intros H. unfold fixed05_2, hundredths_padded. rewrite !pad2_two_digits; [reflexivity| |].
  - apply Z.mod_pos_bound. lia.
  - split; [apply Z.div_pos; lia|]. apply Z.div_lt_upper_bound; lia.
Qed.

(** *** Durations *)
Section Duration.
  Variable round2 : Z -> Z -> Z.
  Context (Hr : rounds round2).
  Local Open Scope Z_scope.

  Ltac zb := repeat match goal with
    | |- context [?a <=? ?b] => destruct (Z.leb_spec a b); try (exfalso; unfold us_day, us_hour, us_minute, us_second in *; lia)
    end.

  Lemma seconds_ok fuel d : 0 <= d < 59995000 ->
    exists S, display_duration_impl round2 (Datatypes.S fuel) d (Some FSecond) = Ret (fixed05_2 S) /\
      0 <= S < 6000 /\ within_half d (S * 10000) 10000.
  Proof.
    intros Hd. cbn [display_duration_impl is_force orb]. cbv zeta.
    zb. all: cbn [orb].
    all: destruct (Hr d us_second) as [Hr0 Hround]; [lia|unfold us_second; lia|].
    all: exists (round2 d us_second); split; [easy|]; unfold within_half, us_second in *; lia.
  Qed.
  Lemma minutes_ok fuel d : 0 <= d < 59 * us_minute + 59995000 ->
    exists M S, display_duration_impl round2 (Datatypes.S (Datatypes.S fuel)) d (Some FMinute)
      = Ret (pad2 M ++ of_string ":" ++ fixed05_2 S) /\
      0 <= M < 60 /\ 0 <= S < 6000 /\ within_half d (M * us_minute + S * 10000) 10000.
  Proof.
    intros Hd. remember (Datatypes.S fuel) as f1 eqn:Ef. cbn [display_duration_impl is_force orb]. cbv zeta.
    destruct (Z.leb_spec (23 * us_hour + 59 * us_minute + 59995000) d);
      [exfalso; unfold us_hour, us_minute, us_second in *; lia|].
    destruct (Z.leb_spec (59 * us_minute + 59995000) d); [lia|]. cbn [orb].
    pose proof (Z.div_mod d us_minute ltac:(unfold us_minute, us_second; lia)) as Hdm.
    pose proof (Z.mod_pos_bound d us_minute ltac:(unfold us_minute, us_second; lia)) as Hmb.
    set (q := d / us_minute) in *. set (r := d mod us_minute) in *.
    replace (d - q * us_minute) with r by lia.
    destruct (Z.leb_spec 59995000 r).
    - destruct (seconds_ok fuel 0 ltac:(lia)) as (S & E & HS & Hh). subst f1. rewrite E. cbn [obind].
      exists (q + 1), S. split; [easy|]. unfold within_half, us_minute, us_second in *.
      lia.
    - destruct (seconds_ok fuel r ltac:(lia)) as (S & E & HS & Hh). subst f1. rewrite E. cbn [obind].
      exists q, S. split; [easy|]. unfold within_half, us_minute, us_second in *. lia.
  Qed.
  Lemma hours_ok fuel d : 0 <= d < 23 * us_hour + 59 * us_minute + 59995000 ->
    exists H M S, display_duration_impl round2 (Datatypes.S (Datatypes.S (Datatypes.S fuel))) d (Some FHour)
      = Ret (pad2 H ++ of_string ":" ++ pad2 M ++ of_string ":" ++ fixed05_2 S) /\
      0 <= H < 24 /\ 0 <= M < 60 /\ 0 <= S < 6000 /\
      within_half d (H * us_hour + M * us_minute + S * 10000) 10000.
  Proof.
    intros Hd. remember (Datatypes.S (Datatypes.S fuel)) as f1 eqn:Ef.
    cbn [display_duration_impl is_force orb]. cbv zeta.
    destruct (Z.leb_spec (23 * us_hour + 59 * us_minute + 59995000) d); [lia|].
    pose proof (Z.div_mod d us_hour ltac:(unfold us_hour, us_minute, us_second; lia)) as Hdm.
    pose proof (Z.mod_pos_bound d us_hour ltac:(unfold us_hour, us_minute, us_second; lia)) as Hmb.
    set (q := d / us_hour) in *. set (r := d mod us_hour) in *.
    replace (d - q * us_hour) with r by lia.
    destruct (Z.leb_spec (59 * us_minute + 59995000) r).
    - destruct (minutes_ok fuel 0 ltac:(unfold us_minute, us_second; lia)) as (M & S & E & HM & HS & Hh).
      subst f1. rewrite E. cbn [obind].
      exists (q + 1), M, S. split; [easy|]. unfold within_half, us_hour, us_minute, us_second in *. lia.
    - destruct (minutes_ok fuel r ltac:(lia)) as (M & S & E & HM & HS & Hh). subst f1. rewrite E. cbn [obind].
      exists q, M, S. split; [easy|]. unfold within_half, us_hour, us_minute, us_second in *. lia.
  Qed.

  Theorem duration_ok d : 0 <= d ->
    exists s, display_duration round2 d = Ret s /\ duration_display d s.
  Proof.
    intros Hd. unfold display_duration. remember 4%nat as f1 eqn:Ef.
    cbn [display_duration_impl is_force orb]. cbv zeta.
    destruct (Z.leb_spec (23 * us_hour + 59 * us_minute + 59995000) d) as [Hday|Hday].
    { pose proof (Z.div_mod d us_day ltac:(unfold us_day, us_hour, us_minute, us_second; lia)) as Hdm.
      pose proof (Z.mod_pos_bound d us_day ltac:(unfold us_day, us_hour, us_minute, us_second; lia)) as Hmb.
      set (q := d / us_day) in *. set (r := d mod us_day) in *.
      replace (d - q * us_day) with r by lia.
      destruct (Z.leb_spec (23 * us_hour + 59 * us_minute + 59995000) r).
      - destruct (hours_ok 1 0 ltac:(unfold us_hour, us_minute, us_second; lia))
          as (H' & M & S & E & HH & HM & HS & Hh). subst f1. rewrite E. cbn [obind].
        eexists. split; [reflexivity|]. rewrite !pad2_two_digits, fixed05_padded by lia. eapply dd_days; [| |apply digits_numeral];
          unfold within_half, us_day, us_hour, us_minute, us_second in *; lia.
      - destruct (hours_ok 1 r ltac:(lia)) as (H' & M & S & E & HH & HM & HS & Hh). subst f1. rewrite E. cbn [obind].
        eexists. split; [reflexivity|]. rewrite !pad2_two_digits, fixed05_padded by lia. eapply dd_days; [| |apply digits_numeral];
          unfold within_half, us_day, us_hour, us_minute, us_second in *; lia. }
    destruct (Z.leb_spec (59 * us_minute + 59995000) d) as [Hhour|Hhour].
    { pose proof (Z.div_mod d us_hour ltac:(unfold us_hour, us_minute, us_second; lia)) as Hdm.
      pose proof (Z.mod_pos_bound d us_hour ltac:(unfold us_hour, us_minute, us_second; lia)) as Hmb.
      set (q := d / us_hour) in *. set (r := d mod us_hour) in *.
      replace (d - q * us_hour) with r by lia.
      destruct (Z.leb_spec (59 * us_minute + 59995000) r).
      - destruct (minutes_ok 2 0 ltac:(unfold us_minute, us_second; lia)) as (M & S & E & HM & HS & Hh).
        subst f1. rewrite E. cbn [obind].
        eexists. split; [reflexivity|]. rewrite !pad2_two_digits, fixed05_padded by lia. eapply dd_hours; [| |apply digits_numeral];
          unfold within_half, us_hour, us_minute, us_second in *; lia.
      - destruct (minutes_ok 2 r ltac:(lia)) as (M & S & E & HM & HS & Hh). subst f1. rewrite E. cbn [obind].
        eexists. split; [reflexivity|]. rewrite !pad2_two_digits, fixed05_padded by lia. eapply dd_hours; [| |apply digits_numeral];
          unfold within_half, us_hour, us_minute, us_second in *; lia. }
    destruct (Z.leb_spec 59995000 d) as [Hmin|Hmin].
    { pose proof (Z.div_mod d us_minute ltac:(unfold us_minute, us_second; lia)) as Hdm.
      pose proof (Z.mod_pos_bound d us_minute ltac:(unfold us_minute, us_second; lia)) as Hmb.
      set (q := d / us_minute) in *. set (r := d mod us_minute) in *.
      replace (d - q * us_minute) with r by lia.
      destruct (Z.leb_spec 59995000 r).
      - destruct (seconds_ok 3 0 ltac:(lia)) as (S & E & HS & Hh). subst f1. rewrite E. cbn [obind].
        eexists. split; [reflexivity|]. rewrite fixed05_padded by lia. eapply dd_minutes; [| |apply digits_numeral];
          unfold within_half, us_minute, us_second in *; lia.
      - destruct (seconds_ok 3 r ltac:(lia)) as (S & E & HS & Hh). subst f1. rewrite E. cbn [obind].
        eexists. split; [reflexivity|]. rewrite fixed05_padded by lia. eapply dd_minutes; [| |apply digits_numeral];
          unfold within_half, us_minute, us_second in *; lia. }
    destruct (Z.leb_spec 999995 d) as [Hs|Hs]; cbn [orb].
    { destruct (Hr d us_second) as [Hr0 Hround]; [lia|unfold us_second; lia|].
      eexists. split; [reflexivity|]. eapply dd_seconds; [| |apply fixed2_hundredths]; unfold within_half, us_second in *; lia. }
    destruct (Z.leb_spec 1000 d) as [Hms|Hms].
    { destruct (Hr d 1000) as [Hr0 Hround]; [lia|lia|].
      eexists. split; [reflexivity|]. eapply dd_millis; [| |apply fixed2_hundredths]; unfold within_half; lia. }
    eexists. split; [reflexivity|]. apply dd_micros; [lia|now apply digits_numeral].
  Qed.
End Duration.

Lemma intersperse_more (c : str) (l : list str) : l <> [] ->
  intersperse (c :: l) = c ++ [slash] ++ intersperse l.
Proof. destruct l; [easy|reflexivity]. Qed.
Lemma snoc_some (i : list str) (n : str) : i ++ [n] <> [].
Proof. destruct i; discriminate. Qed.
Lemma leading_full init name : path_ok (init ++ [name]) ->
  full_path (init ++ [name]) = leading init ++ name.
Proof.
  intros [_ Hok].
  assert (Hi : forall i n, (forall c, In c (i ++ [n]) -> ~ is_root c) ->
                 intersperse (i ++ [n]) = leading i ++ n).
  { induction i as [|c i IH]; intros n H; [easy|].
    cbn [app leading]. rewrite intersperse_more by apply snoc_some.
    rewrite IH by (intros x Hx; apply H; right; exact Hx).
    destruct (str_eqb_spec c [slash]) as [->|]; [exfalso; apply (H [slash]); [left|]; easy|].
    rewrite <- !app_assoc. reflexivity. }
  destruct init as [|c i].
  - cbn [app full_path leading]. destruct (str_eqb_spec name root_component) as [->|]; [|easy].
    reflexivity.
  - cbn [app tl] in Hok. cbn [app full_path leading].
    destruct (str_eqb_spec c root_component) as [->|Hc].
    + rewrite Hi by exact Hok. change (str_eqb root_component [slash]) with true. cbv iota.
      rewrite <- app_assoc. reflexivity.
    + rewrite intersperse_more by apply snoc_some. rewrite Hi by exact Hok.
      destruct (str_eqb_spec c [slash]) as [->|]; [exfalso; apply Hc; easy|].
      rewrite <- !app_assoc. reflexivity.
Qed.

Lemma multi_line_desc (w : str -> nat) graphemes name :
  display_activity_desc w graphemes name ANothing MultiLine = Ret (DOk true name) /\
  forall arg text, argument_text arg text ->
  display_activity_desc w graphemes name arg MultiLine
    = Ret (DOk true (name ++ of_string "(" ++ text ++ of_string ")")).
Proof.
  split; [reflexivity|]. intros arg text [| | | i n H |]; try reflexivity.
  unfold display_activity_desc. cbn [has_argument display_arg display_path obind].
  rewrite leading_full by exact H. reflexivity.
Qed.

Lemma single_line_desc (w : str -> nat) graphemes name arg max text :
  w name + 3 <= max -> argument_within w graphemes arg (max - w name - 2) text ->
  display_activity_desc w graphemes name arg (SingleLine max)
    = Ret (DOk false (name ++ of_string "(" ++ text ++ of_string ")")).
Proof.
  intros Hm H. replace (max - w name - 2) with (max - (w name + 2)) in H by lia.
  unfold display_activity_desc.
  destruct (Nat.ltb_spec max (w name + 3 * b2n (has_argument arg))) as [Hlt|_].
  { exfalso. destruct (has_argument arg); simpl in Hlt; lia. }
  destruct arg; cbn [has_argument display_arg argument_within] in *;
    try (rewrite H; reflexivity). destruct H.
Qed.

Lemma short_argument (w : str -> nat) graphemes name arg max text :
  argument_text arg text -> (forall p, arg <> AFilePath p) -> (forall b f, arg <> ACpp b f) ->
  w name + 3 <= max -> w name + w text + 2 <= max ->
  display_activity_desc w graphemes name arg (SingleLine max)
    = Ret (DOk false (name ++ of_string "(" ++ text ++ of_string ")")).
Proof.
  intros Ht Hp Hc Hm Hw. apply single_line_desc; [exact Hm|].
  assert (Hs : display_string w graphemes text (SingleLine (max - w name - 2)) = Ret text).
  { unfold display_string. destruct (Nat.leb_spec (w text) (max - w name - 2)); [easy|lia]. }
  destruct Ht as [| | s | i n ? | b f]; try exact Hs.
  - exfalso. eapply Hp; reflexivity.
  - exfalso. eapply Hc; reflexivity.
Qed.

Lemma metadata_narrow (w : str -> nat) rfc3339 debug_str name pid thread bot max :
  1 <= max -> max <= w (of_string "Data from " ++ name) ->
  metadata w rfc3339 debug_str name pid thread bot max = Ret [ellipsis].
Proof.
  intros H H1. unfold metadata. destruct (Nat.leb_spec 1 max); [|lia].
  destruct (Nat.ltb_spec (max - 1) (w (of_string "Data from " ++ name))); [reflexivity|lia].
Qed.

(** *** Drawing trees *)
Definition below (lasts : list bool) : str :=
  concat (map (fun l : bool => if l then of_string "  " else [9474%N; 32%N]) lasts).
Lemma node_line_snoc lasts (last : bool) (label : str) :
  node_line (lasts ++ [last], label)
    = below lasts ++ [if last then last_item else middle_item; item_indent] ++ label.
Proof.
  unfold node_line. cbn [fst snd]. rewrite rev_app_distr. cbn [rev app].
  rewrite rev_involutive. reflexivity.
Qed.
Lemma below_snoc lasts (last : bool) :
  below (lasts ++ [last]) = below lasts ++ [if last then space else middle_skip; space].
Proof.
  unfold below. rewrite map_app, concat_app. cbn [map concat]. rewrite app_nil_r. f_equal.
  destruct last; reflexivity.
Qed.
Lemma tree_lines_nodes t : forall lasts,
  tree_lines (below lasts) t = map node_line (tl (nodes lasts t)).
Proof.
  induction t as [label sub IH] using text_tree_ind'. intros lasts.
  cbn [tree_lines nodes tl]. induction IH as [|[l sub'] r Hc _ IHr]; [reflexivity|].
  cbn [map]. rewrite map_app. rewrite <- IHr. clear IHr.
  set (last := match r with [] => true | _ => false end).
  rewrite <- below_snoc, (Hc (lasts ++ [last])). clearbody last.
  cbn [nodes tl map]. rewrite node_line_snoc. reflexivity.
Qed.
Lemma render_tree_nodes t : render_tree t = map node_line (nodes [] t).
Proof.
  pose proof (tree_lines_nodes t []) as H. destruct t as [label sub]. unfold render_tree.
  change (below []) with (@nil chr) in H. transitivity (label :: map node_line (tl (nodes [] (TT label sub)))).
  - f_equal. exact H.
  - reflexivity.
Qed.

(** *** Lines of activities *)
Lemma display_activity_content (w : str -> nat) graphemes name arg info max :
  1 <= max ->
  let needed := w name + (if has_argument arg then 3 else 0) in
  (w info + needed <= max -> forall desc,
     display_activity_desc w graphemes name arg (SingleLine (max - w info)) = Ret (DOk false desc) ->
     display_activity w graphemes name arg max info = Ret (desc ++ info)) /\
  (1 <= needed -> needed <= max < w info + needed -> forall desc,
     display_activity_desc w graphemes name arg (SingleLine max) = Ret (DOk false desc) ->
     display_activity w graphemes name arg max info = Ret desc) /\
  (max < needed -> display_activity w graphemes name arg max info = Ret [ellipsis]).
Proof.
  intros Hm needed. unfold display_activity. destruct (Nat.leb_spec 1 max); [|lia].
  assert (Hn : needed = w name + 3 * b2n (has_argument arg))
    by (unfold needed; destruct (has_argument arg); simpl; lia).
  assert (Hno : forall cols, cols < needed ->
    display_activity_desc w graphemes name arg (SingleLine cols) = Ret (DNotEnoughCols cols)).
  { intros cols H1. unfold display_activity_desc. rewrite <- Hn.
    destruct (Nat.ltb_spec cols needed); [reflexivity|lia]. }
  split; [|split].
  - intros _ desc ->. reflexivity.
  - intros Hp H1 desc Hd. rewrite Hno by lia. cbn [obind]. rewrite Hd. reflexivity.
  - intros H1. rewrite Hno by lia. cbn [obind]. rewrite Hno by lia. reflexivity.
Qed.

(** Proofs about numbers and rows of build profiles. *)
From Coq Require Import QArith String.
From Verif Require Import Base.
From Verif Require Import Cmd_Model Cmd_Spec Csv_Model Csv_Spec Csv_Proofs.
Local Open Scope nat_scope.
Local Open Scope bool_scope.
Local Open Scope list_scope.
Local Notation length := List.length.

(** *** Numbers *)
Lemma digit_of_spec radix c d : (radix <= 16)%N ->
  digit_of radix c = Some d <-> hex_digit c d /\ (d < radix)%N.
Proof.
  intros Hr. unfold digit_of. split.
  - intros H.
    destruct ((48 <=? c) && (c <=? 57))%N eqn:E1; [|destruct ((97 <=? c) && (c <=? 122))%N eqn:E2;
      [|destruct ((65 <=? c) && (c <=? 90))%N eqn:E3; [|discriminate]]];
      match goal with
      | H : (if ?v <? radix then _ else _)%N = _ |- _ => destruct (N.ltb_spec v radix) as [Hl|]; [|discriminate]; injection H as <-
      end; (split; [|exact Hl]).
    + rewrite andb_true_iff, !N.leb_le in E1. replace c with (48 + (c - 48))%N at 1 by lia. constructor. lia.
    + rewrite andb_true_iff, !N.leb_le in E2. replace c with (87 + (c - 87))%N at 1 by lia. constructor. lia.
    + rewrite andb_true_iff, !N.leb_le in E3. replace c with (55 + (c - 55))%N at 1 by lia. constructor. lia.
  - intros [H Hl]. destruct H as [d H|d H|d H].
    + replace ((48 <=? 48 + d) && (48 + d <=? 57))%N with true by (symmetry; rewrite andb_true_iff, !N.leb_le; lia).
      replace (48 + d - 48)%N with d by lia. now apply N.ltb_lt in Hl as ->.
    + replace ((48 <=? 87 + d) && (87 + d <=? 57))%N with false by (symmetry; rewrite andb_false_iff, !N.leb_gt; lia).
      replace ((97 <=? 87 + d) && (87 + d <=? 122))%N with true by (symmetry; rewrite andb_true_iff, !N.leb_le; lia).
      replace (87 + d - 87)%N with d by lia. now apply N.ltb_lt in Hl as ->.
    + replace ((48 <=? 55 + d) && (55 + d <=? 57))%N with false by (symmetry; rewrite andb_false_iff, !N.leb_gt; lia).
      replace ((97 <=? 55 + d) && (55 + d <=? 122))%N with false by (symmetry; rewrite andb_false_iff, !N.leb_gt; lia).
      replace ((65 <=? 55 + d) && (55 + d <=? 90))%N with true by (symmetry; rewrite andb_true_iff, !N.leb_le; lia).
      replace (55 + d - 55)%N with d by lia. now apply N.ltb_lt in Hl as ->.
Qed.

Lemma radix_digits_spec radix s n : (1 <= radix <= 16)%N -> forall acc, (acc <= u64_max)%N ->
  radix_digits radix acc s = Some n <->
  exists ds, Forall2 hex_digit s ds /\ (forall d, In d ds -> (d < radix)%N) /\
    n = (acc * radix ^ N.of_nat (length ds) + positional radix ds)%N /\ (n <= u64_max)%N.
Proof.
  intros Hr. induction s as [|c s IH]; intros acc Hacc.
  - cbn [radix_digits]. split.
    + intros H. injection H as <-. exists []. repeat split; [constructor|contradiction|cbn; lia|exact Hacc].
    + intros (ds & H & _ & -> & _). inversion H; subst. cbn. f_equal. lia.
  - cbn [radix_digits].
    assert (Hpow : forall a (ds : list N), (a <= a * radix ^ N.of_nat (length ds))%N).
    { intros a ds. assert (radix ^ N.of_nat (length ds) <> 0)%N by (apply N.pow_nonzero; lia). nia. }
    assert (Heq : forall d (ds : list N), (acc * radix ^ N.of_nat (length (d :: ds)) + positional radix (d :: ds) =
      (acc * radix + d) * radix ^ N.of_nat (length ds) + positional radix ds)%N).
    { intros d ds. cbn [List.length positional]. rewrite Nat2N.inj_succ, N.pow_succ_r'. lia. }
    destruct (digit_of radix c) as [d|] eqn:E.
    + apply digit_of_spec in E as [Hd Hl]; [|lia]. destruct (N.leb_spec (acc * radix + d) u64_max) as [Hle|Hgt].
      * rewrite IH by exact Hle. split.
        -- intros (ds & H1 & H2 & H3 & H4). exists (d :: ds). rewrite Heq. split; [now constructor|]. split; [|now split].
           intros x [<-|Hx]; [exact Hl|now apply H2].
        -- intros (ds & H1 & H2 & H3 & H4). inversion H1 as [|? d' ? ds' Hd' Hs]; subst ds. clear H1.
           assert (d' = d).
           { assert (digit_of radix c = Some d) as X by (apply digit_of_spec; [lia|now split]).
             assert (digit_of radix c = Some d') as Y
               by (apply digit_of_spec; [lia|split; [exact Hd'|apply H2; now left]]). congruence. }
           subst d'. rewrite Heq in H3. exists ds'. split; [exact Hs|]. split; [|now split].
           intros y Hy. apply H2. now right.
      * split; [discriminate|]. intros (ds & H1 & H2 & H3 & H4). inversion H1 as [|? d' ? ds' Hd' Hs]; subst ds.
        assert (d' = d).
        { assert (digit_of radix c = Some d) as X by (apply digit_of_spec; [lia|now split]).
          assert (digit_of radix c = Some d') as Y
            by (apply digit_of_spec; [lia|split; [exact Hd'|apply H2; now left]]). congruence. }
        subst d'. rewrite Heq in H3. pose proof (Hpow (acc * radix + d)%N ds'). lia.
    + split; [discriminate|]. intros (ds & H1 & H2 & _ & _). inversion H1 as [|? d' ? ds' Hd' Hs]; subst ds.
      assert (digit_of radix c = Some d') as Y
        by (apply digit_of_spec; [lia|split; [exact Hd'|apply H2; now left]]). congruence.
Qed.

Lemma radix_numeral radix s n : (1 <= radix <= 16)%N -> s <> [] ->
  radix_digits radix 0 s = Some n <-> numeral radix s n /\ (n < 2 ^ 64)%N.
Proof.
  intros Hr Hs. rewrite radix_digits_spec by (try exact Hr; unfold u64_max; lia). unfold numeral. split.
  - intros (ds & H1 & H2 & H3 & H4). split; [|unfold u64_max in H4; lia]. exists ds.
    repeat split; [|exact H1|exact H2|lia]. intros ->. inversion H1; subst; contradiction.
  - intros [(ds & _ & H1 & H2 & ->) H4]. exists ds. repeat split; [exact H1|exact H2| unfold u64_max; lia].
Qed.

Lemma hex_not_plus d : ~ hex_digit 43%N d.
Proof. intros H. remember 43%N as c eqn:E. destruct H; lia. Qed.
Lemma hex_not_x d : ~ hex_digit 120%N d.
Proof. intros H. remember 120%N as c eqn:E. destruct H; lia. Qed.

Lemma from_str_radix_spec radix s n : (1 <= radix <= 16)%N ->
  from_str_radix radix s = Some n <->
  (n < 2 ^ 64)%N /\ exists plus ds, (plus = [] \/ plus = of_string "+") /\ s = plus ++ ds /\ numeral radix ds n.
Proof.
  intros Hr. unfold from_str_radix. destruct s as [|c s].
  - split; [discriminate|]. intros (_ & plus & ds & _ & E & (l & Hl & H & _)).
    symmetry in E. apply app_eq_nil in E as [_ ->]. inversion H; subst; contradiction.
  - destruct (N.eqb_spec c 43) as [->|Hne].
    + split.
      * intros H. destruct s as [|a s]; [discriminate|]. apply radix_numeral in H as [H H']; [|exact Hr|discriminate].
        split; [exact H'|]. exists (of_string "+"), (a :: s). split; [now right|]. split; [reflexivity|exact H].
      * intros (Hn & plus & ds & [-> | ->] & E & Hnum).
        -- cbn [app] in E. subst ds. destruct Hnum as (l & _ & H & _). inversion H as [|? d ? ? Hd]; subst.
           apply hex_not_plus in Hd. contradiction.
        -- cbn in E. injection E as ->. destruct ds as [|a ds].
           ++ destruct Hnum as (l & Hl & H & _). inversion H; subst; contradiction.
           ++ apply radix_numeral; [exact Hr|discriminate|]. split; assumption.
    + rewrite radix_numeral by (try exact Hr; discriminate). split.
      * intros [H H']. split; [exact H'|]. exists [], (c :: s). split; [now left|]. split; [reflexivity|exact H].
      * intros (Hn & plus & ds & [-> | ->] & E & Hnum).
        -- cbn [app] in E. subst ds. split; assumption.
        -- cbn in E. injection E as E _. contradiction.
Qed.

Theorem de_u64_spec t n : de_u64 t = Some n <-> number_text t n.
Proof.
  assert (H10 : (1 <= 10 <= 16)%N) by lia. assert (H16 : (1 <= 16 <= 16)%N) by lia.
  assert (Hno : forall t, (forall s, t <> 48%N :: 120%N :: s) ->
    from_str_radix 10 t = Some n <-> number_text t n).
  { intros s Hs. rewrite from_str_radix_spec by exact H10. unfold number_text. split.
    - intros (Hn & plus & ds & Hp & E & Hnum). split; [exact Hn|]. exists plus, ds. split; [exact Hp|]. left. now split.
    - intros (Hn & plus & ds & Hp & [[E Hnum]|[E _]]).
      + split; [exact Hn|]. now exists plus, ds.
      + exfalso. exact (Hs _ E). }
  unfold de_u64. destruct t as [|a [|b t]]; [apply Hno; discriminate|apply Hno; discriminate|].
  destruct (N.eqb a 48 && N.eqb b 120) eqn:E.
  - apply andb_true_iff in E as [Ea Eb]. apply N.eqb_eq in Ea, Eb. subst a b.
    rewrite from_str_radix_spec by exact H16. unfold number_text. split.
    + intros (Hn & plus & ds & Hp & -> & Hnum). split; [exact Hn|]. exists plus, ds. split; [exact Hp|]. right. now split.
    + intros (Hn & plus & ds & Hp & [[E Hnum]|[E Hnum]]).
      * exfalso. destruct Hp as [-> | ->]; [|discriminate]. cbn [app] in E. subst ds. destruct Hnum as (l & _ & H & _).
        inversion H as [|? ? ? ? _ H1]; subst. inversion H1 as [|? ? ? ? H2 _]; subst. exact (hex_not_x _ H2).
      * split; [exact Hn|]. exists plus, ds. split; [exact Hp|]. split; [|exact Hnum].
        cbn in E. now injection E as ->.
  - apply Hno. intros s X. injection X as -> -> _. cbn in E. discriminate.
Qed.

(** *** Columns *)
Definition col (k : str) (cells : list (str * str)) : list str :=
  map snd (filter (fun c => str_eqb (fst c) k) cells).

Lemma col_cons k key v cells :
  col k ((key, v) :: cells) = if str_eqb key k then v :: col k cells else col k cells.
Proof. unfold col. cbn [filter fst]. destruct (str_eqb key k); reflexivity. Qed.

Lemma cell_cons a h b r k v : cell (a :: h) (b :: r) k v <-> (a = k /\ b = v) \/ cell h r k v.
Proof.
  unfold cell. split.
  - intros [[|i] [H1 H2]]; [left; cbn in *; split; congruence|right; exists i; now split].
  - intros [[-> ->]|[i [H1 H2]]]; [exists 0; now split|exists (S i); now split].
Qed.
Lemma cell_nil k v : ~ cell [] [] k v.
Proof. intros [[|i] [H _]]; discriminate. Qed.
Lemma once_nil k : once [] k.
Proof. intros [|i]; discriminate. Qed.
Lemma once_cons a h k : once (a :: h) k <-> (a = k -> ~ In k h) /\ once h k.
Proof.
  unfold once. split.
  - intros H. split.
    + intros -> Hin. apply In_nth_error in Hin as [i Hi]. specialize (H 0 (S i) eq_refl Hi). discriminate.
    + intros i j Hi Hj. specialize (H (S i) (S j) Hi Hj). congruence.
  - intros [H1 H2] [|i] [|j] Hi Hj; cbn in Hi, Hj.
    + reflexivity.
    + exfalso. injection Hi as ->. exact (H1 eq_refl (nth_error_In _ _ Hj)).
    + exfalso. injection Hj as ->. exact (H1 eq_refl (nth_error_In _ _ Hi)).
    + f_equal. now apply H2.
Qed.

Lemma col_nil k h : forall r, length r = length h -> col k (combine h r) = [] <-> ~ In k h.
Proof.
  induction h as [|a h IH]; intros [|b r] Hl; try discriminate; cbn [combine].
  - split; [intros _ []|reflexivity].
  - rewrite col_cons. injection Hl as Hl. destruct (str_eqb_spec a k) as [->|Hne].
    + split; [discriminate|]. intros H. exfalso. apply H. now left.
    + rewrite IH by exact Hl. cbn [In]. tauto.
Qed.
Lemma col_one k h v : forall r, length r = length h ->
  col k (combine h r) = [v] <-> once h k /\ cell h r k v.
Proof.
  induction h as [|a h IH]; intros [|b r] Hl; try discriminate; cbn [combine].
  - split; [discriminate|]. intros [_ H]. exfalso. exact (cell_nil _ _ H).
  - rewrite col_cons, once_cons, cell_cons. injection Hl as Hl. destruct (str_eqb_spec a k) as [->|Hne].
    + split.
      * intros H. injection H as -> H. apply col_nil in H; [|exact Hl]. split.
        -- split; [now intros _|]. intros i j Hi. exfalso. exact (H (nth_error_In _ _ Hi)).
        -- left. now split.
      * intros [[H1 _] [[_ ->]|H]].
        -- f_equal. apply col_nil; [exact Hl|]. now apply H1.
        -- exfalso. destruct H as [i [H _]]. exact (H1 eq_refl (nth_error_In _ _ H)).
    + rewrite IH by exact Hl. tauto.
Qed.
Lemma col_short k h r : length r = length h ->
  once h k <-> col k (combine h r) = [] \/ exists v, col k (combine h r) = [v].
Proof.
  intros Hl. split.
  - intros H. destruct (in_dec (list_eq_dec N.eq_dec : forall a b : str, {a = b} + {a <> b}) k h) as [Hin|Hno].
    + right. apply In_nth_error in Hin as [i Hi].
      destruct (nth_error r i) as [v|] eqn:E.
      * exists v. apply col_one; [exact Hl|]. split; [exact H|]. now exists i.
      * exfalso. apply nth_error_None in E. assert (X : nth_error h i <> None) by (intros X; rewrite X in Hi; discriminate).
        apply nth_error_Some in X. lia.
    + left. now apply col_nil.
  - intros [H|[v H]].
    + apply col_nil in H; [|exact Hl]. intros i j Hi. exfalso. exact (H (nth_error_In _ _ Hi)).
    + apply col_one in H; [|exact Hl]. apply H.
Qed.

(** What is expected of a column, whether it has been seen or not *)
Definition one_of {A} (seen : option A) (vals : list str) (conv : str -> option A) (x : A) : Prop :=
  match seen with
  | Some y => vals = [] /\ x = y
  | None => exists v, vals = [v] /\ conv v = Some x
  end.

Lemma keys_differ : file_key <> max_rss_key /\ file_key <> time_key /\ max_rss_key <> time_key.
Proof. repeat split; discriminate. Qed.

Lemma de_cells_spec read cells : forall p n t u,
  de_cells read cells p n t = Some u <->
  exists p', r_path u = PText p' /\ one_of p (col file_key cells) Some p' /\
    one_of n (col max_rss_key cells) de_u64 (r_rss u) /\
    (one_of t (col time_key cells) (de_time read) (r_time u) \/
     t = None /\ col time_key cells = [] /\ r_time u = None).
Proof.
  induction cells as [|[key v] cells IH]; intros p n t u.
  - cbn [de_cells]. split.
    + intros H. destruct p as [p'|], n as [n'|]; try discriminate. injection H as <-. exists p'. cbn [r_path r_rss r_time one_of].
      split; [reflexivity|]. split; [now split|]. split; [now split|].
      destruct t as [t'|]; [left; now split|right; repeat split].
    + intros (p' & E & Hp & Hn & Ht). destruct p as [q|]; [|destruct Hp as (v & X & _); discriminate].
      destruct n as [m|]; [|destruct Hn as (v & X & _); discriminate].
      cbn [one_of] in Hp, Hn. destruct Hp as [_ ->], Hn as [_ Hn].
      destruct u as [up un ut]. cbn [r_path r_rss r_time] in *. subst up un. do 2 f_equal.
      destruct t as [t'|].
      * destruct Ht as [[_ ->]|[X _]]; [reflexivity|discriminate].
      * destruct Ht as [(v & X & _)|(_ & _ & ->)]; [discriminate|reflexivity].
  - cbn [de_cells]. rewrite !col_cons. destruct keys_differ as (D1 & D2 & D3).
    destruct (str_eqb_spec key file_key) as [->|N1].
    { destruct (str_eqb_spec file_key max_rss_key) as [X|_]; [contradiction|].
      destruct (str_eqb_spec file_key time_key) as [X|_]; [contradiction|].
      destruct p as [q|].
      - split; [discriminate|]. intros (p' & _ & [X _] & _). discriminate.
      - rewrite IH. split.
        + intros (p' & E & Hp & Hn & Ht). destruct Hp as [Hp ->]. exists v. split; [exact E|].
          split; [exists v; rewrite Hp; now split|]. now split.
        + intros (p' & E & Hp & Hn & Ht). destruct Hp as (v' & Hp & Hc). injection Hp as <- Hp. injection Hc as ->.
          exists p'. split; [exact E|]. split; [now split|]. now split. }
    destruct (str_eqb_spec key max_rss_key) as [->|N2].
    { destruct (str_eqb_spec max_rss_key time_key) as [X|_]; [contradiction|].
      destruct n as [m|].
      - split; [discriminate|]. intros (p' & _ & _ & [X _] & _). discriminate.
      - destruct (de_u64 v) as [n'|] eqn:Ev.
        + rewrite IH. split.
          * intros (p' & E & Hp & Hn & Ht). destruct Hn as [Hn ->]. exists p'. split; [exact E|]. split; [exact Hp|].
            split; [exists v; rewrite Hn; now split|]. exact Ht.
          * intros (p' & E & Hp & Hn & Ht). destruct Hn as (v' & Hn & Hc). injection Hn as <- Hn.
            exists p'. split; [exact E|]. split; [exact Hp|]. split; [split; [exact Hn|congruence]|exact Ht].
        + split; [discriminate|]. intros (p' & E & Hp & Hn & Ht). destruct Hn as (v' & Hn & Hc). injection Hn as <- Hn. congruence. }
    destruct (str_eqb_spec key time_key) as [->|N3].
    { destruct t as [t0|].
      - split; [discriminate|]. intros (p' & _ & _ & _ & [[X _]|[X _]]); discriminate.
      - destruct (de_time read v) as [t'|] eqn:Ev.
        + rewrite IH. split.
          * intros (p' & E & Hp & Hn & Ht). destruct Ht as [[Ht ->]|[X _]]; [|discriminate].
            exists p'. split; [exact E|]. split; [exact Hp|]. split; [exact Hn|].
            left. exists v. rewrite Ht. now split.
          * intros (p' & E & Hp & Hn & Ht). destruct Ht as [(v' & Ht & Hc)|(_ & X & _)]; [|discriminate].
            injection Ht as <- Ht. exists p'. split; [exact E|]. split; [exact Hp|]. split; [exact Hn|].
            left. split; [exact Ht|congruence].
        + split; [discriminate|]. intros (p' & E & Hp & Hn & Ht).
          destruct Ht as [(v' & Ht & Hc)|(_ & X & _)]; [|discriminate]. injection Ht as <- Ht. congruence. }
    apply IH.
Qed.

Theorem de_row_spec read header row u : de_row read header row = Some u <-> row_says read header row u.
Proof.
  unfold de_row. destruct (Nat.eqb_spec (length row) (length header)) as [Hl|Hl].
  2:{ split; [discriminate|]. intros [H _ _ _ _]. contradiction. }
  rewrite de_cells_spec. cbn [one_of]. split.
  - intros (p & Ep & (v & Hv & E) & (w & Hw & En) & Ht). injection E as ->.
    apply col_one in Hv as [Ho1 Hc1]; [|exact Hl]. apply col_one in Hw as [Ho2 Hc2]; [|exact Hl].
    constructor.
    + exact Hl.
    + split; [exact Ho1|]. split; [exact Ho2|]. apply (col_short _ header row Hl).
      destruct Ht as [(x & Hx & _)|(_ & Hx & _)]; [right; now exists x|left; exact Hx].
    + now exists p.
    + exists w. split; [exact Hc2|]. now apply de_u64_spec.
    + destruct Ht as [(x & Hx & Hd)|(_ & Hx & ->)].
      * apply col_one in Hx as [_ Hx]; [|exact Hl]. unfold de_time in Hd. destruct x as [|c x].
        -- injection Hd as <-. right. exact Hx.
        -- destruct (read (c :: x)) as [y|] eqn:Ey; [|discriminate]. cbn in Hd. injection Hd as <-.
           exists (c :: x). split; [discriminate|]. now split.
      * left. now apply col_nil in Hx.
  - intros [_ (Ho1 & Ho2 & Ho3) (p & Ep & Hp) (w & Hw & Hn) Ht].
    exists p. split; [exact Ep|]. split; [exists p; split; [|reflexivity]; now apply col_one|].
    split; [exists w; split; [now apply col_one|now apply de_u64_spec]|].
    destruct (r_time u) as [x|].
    + left. destruct Ht as (t & Hne & Hc & Hr). exists t. split; [now apply col_one|].
      unfold de_time. destruct t; [contradiction|]. now rewrite Hr.
    + destruct Ht as [Ht|Ht].
      * right. split; [reflexivity|]. split; [|reflexivity]. now apply col_nil.
      * left. exists []. split; [now apply col_one|reflexivity].
Qed.

Lemma de_rows_spec read header rows us :
  de_rows read header rows = Some us <-> Forall2 (row_says read header) rows us.
Proof.
  revert us. induction rows as [|row rows IH]; intros us; cbn [de_rows].
  - split; [intros H; injection H as <-; constructor|]. intros H. now inversion H.
  - split.
    + intros H. destruct (de_row read header row) as [u|] eqn:E; [|discriminate].
      destruct (de_rows read header rows) as [us'|] eqn:E'; [|discriminate]. cbn in H. injection H as <-.
      constructor; [now apply de_row_spec|now apply IH].
    + intros H. inversion H as [|? u ? us' Hu Hus]; subst. apply de_row_spec in Hu. apply IH in Hus.
      rewrite Hu, Hus. reflexivity.
Qed.

Theorem load_table read header rows bom text us :
  table_text (header :: rows) text -> (bom = [65279%N] \/ bom = [] /\ hd 0%N text <> 65279%N) ->
  load read (Some (bom ++ text)) = inl us <-> Forall2 (row_says read header) rows us.
Proof.
  intros H Hb. unfold load. assert (E : strip_bom (bom ++ text) = text).
  { destruct Hb as [->|[-> Hb]]; [reflexivity|]. cbn [app]. unfold strip_bom. destruct text as [|c s]; [reflexivity|].
    replace (N.eqb c c_bom) with false by (symmetry; apply N.eqb_neq; exact Hb). reflexivity. }
  rewrite E. rewrite (table_read _ _ H). rewrite <- de_rows_spec.
  destruct (de_rows read header rows); split; congruence.
Qed.

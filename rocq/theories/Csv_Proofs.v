(** Proofs about the reading of CSV tables. *)
From Coq Require Import QArith String.
From Verif Require Import Base.
From Verif Require Import Cmd_Model Cmd_Spec Csv_Model Csv_Spec.
Local Open Scope nat_scope.
Local Open Scope bool_scope.
Local Open Scope list_scope.
Local Notation length := List.length.

Lemma is_term_spec c : is_term c = true <-> line_end c.
Proof. unfold is_term, line_end, c_cr, c_lf. rewrite orb_true_iff, !N.eqb_eq. tauto. Qed.
Lemma is_term_no c : ~ line_end c -> is_term c = false.
Proof. intros H. destruct (is_term c) eqn:E; [|reflexivity]. apply is_term_spec in E. contradiction. Qed.

(** *** Fields *)
Lemma read_quoted f t : doubled f t -> forall cur fs rest,
  csv_read InQuoted cur fs (t ++ 34%N :: rest) = csv_read InQuoteQuoted (cur ++ f) fs rest.
Proof.
  induction 1 as [|f t H IH|c f t Hc H IH]; intros cur fs rest.
  - cbn. now rewrite app_nil_r.
  - cbn [app csv_read]. cbn [N.eqb c_quote Pos.eqb]. rewrite IH, <- app_assoc. reflexivity.
  - cbn [app csv_read]. replace (N.eqb c c_quote) with false by (symmetry; apply N.eqb_neq; exact Hc).
    rewrite IH, <- app_assoc. reflexivity.
Qed.

Definition plain (c : chr) : Prop := c <> 44%N /\ ~ line_end c.

Lemma read_bare f : (forall c, In c f -> plain c) -> forall cur fs rest,
  csv_read InField cur fs (f ++ rest) = csv_read InField (cur ++ f) fs rest.
Proof.
  induction f as [|c f IH]; intros H cur fs rest.
  - cbn [app]. now rewrite app_nil_r.
  - cbn [app csv_read]. destruct (H c (or_introl eq_refl)) as [H1 H2].
    replace (N.eqb c c_comma) with false by (symmetry; apply N.eqb_neq; exact H1).
    rewrite (is_term_no c H2). rewrite IH by (intros; apply H; now right). now rewrite <- app_assoc.
Qed.

(** States in which a field may end *)
Definition after (st : rstate) : Prop := st = StartField \/ st = InField \/ st = InQuoteQuoted.

Lemma after_comma st cur fs s : after st ->
  csv_read st cur fs (44%N :: s) = csv_read StartField [] (fs ++ [cur]) s.
Proof. intros [->|[->| ->]]; reflexivity. Qed.
Lemma after_end st cur fs c s : after st -> line_end c ->
  csv_read st cur fs (c :: s) = (fs ++ [cur]) :: csv_read StartRecord [] [] s.
Proof. intros [->|[->| ->]] [->| ->]; reflexivity. Qed.
Lemma after_eof st cur fs : after st -> csv_read st cur fs [] = [fs ++ [cur]].
Proof. intros [->|[->| ->]]; reflexivity. Qed.

Lemma field_read f t : field_text f t -> exists st, after st /\
  forall fs rest, csv_read StartField [] fs (t ++ rest) = csv_read st f fs rest.
Proof.
  intros [H Hq|u Hu].
  - destruct f as [|c f].
    + exists StartField. split; [now left|]. reflexivity.
    + exists InField. split; [right; now left|]. intros fs rest.
      destruct (H c (or_introl eq_refl)) as [H1 H2]. cbn [app csv_read].
      replace (N.eqb c c_quote) with false
        by (symmetry; apply N.eqb_neq; intros ->; exact (Hq f eq_refl)).
      replace (N.eqb c c_comma) with false by (symmetry; apply N.eqb_neq; exact H1).
      rewrite (is_term_no c H2). rewrite read_bare by (intros; apply H; now right). reflexivity.
  - exists InQuoteQuoted. split; [right; now right|]. intros fs rest.
    cbn [app csv_read]. cbn [N.eqb c_quote Pos.eqb]. rewrite <- app_assoc. cbn [app].
    rewrite (read_quoted f u Hu). reflexivity.
Qed.

Lemma fields_read row t : fields_text row t -> exists st pre cur, after st /\ row = pre ++ [cur] /\
  forall fs rest, csv_read StartField [] fs (t ++ rest) = csv_read st cur (fs ++ pre) rest.
Proof.
  induction 1 as [f t H|f t fs ts H Hs IH].
  - destruct (field_read f t H) as (st & Ha & E). exists st, [], f. split; [exact Ha|]. split; [reflexivity|].
    intros fs rest. rewrite E, app_nil_r. reflexivity.
  - destruct (field_read f t H) as (st & Ha & E). destruct IH as (st' & pre & cur & Ha' & -> & E').
    exists st', (f :: pre), cur. split; [exact Ha'|]. split; [reflexivity|].
    intros fs rest. rewrite <- app_assoc, E. cbn [app]. rewrite after_comma by exact Ha.
    rewrite E', <- app_assoc. reflexivity.
Qed.

Lemma fields_start row t : fields_text row t -> forall c t', t = c :: t' -> ~ line_end c.
Proof.
  assert (Hf : forall f t, field_text f t -> forall c t', t = c :: t' -> ~ line_end c).
  { intros f t0 [H _|u Hu] c t' E.
    - subst f. destruct (H c (or_introl eq_refl)) as [_ H2]. exact H2.
    - injection E as <- _. unfold line_end. intros [X|X]; discriminate. }
  induction 1 as [f t H|f t fs ts H Hs IH]; intros c t' E.
  - exact (Hf f t H c t' E).
  - destruct t as [|d t].
    + injection E as <- _. unfold line_end. intros [X|X]; discriminate.
    + injection E as <- _. exact (Hf f _ H d t eq_refl).
Qed.

Lemma start_record c s : ~ line_end c ->
  csv_read StartRecord [] [] (c :: s) = csv_read StartField [] [] (c :: s).
Proof.
  intros H. cbn [csv_read]. rewrite (is_term_no c H). destruct (N.eqb c c_quote); [reflexivity|].
  destruct (N.eqb c c_comma); reflexivity.
Qed.

Lemma row_read row t rest : fields_text row t -> t <> [] ->
  (forall c s, rest = c :: s -> line_end c) ->
  csv_read StartRecord [] [] (t ++ rest) =
  row :: match rest with [] => [] | _ :: s => csv_read StartRecord [] [] s end.
Proof.
  intros H Hne Hr. destruct t as [|c t]; [contradiction|]. pose proof (fields_start _ _ H c t eq_refl) as Hc.
  cbn [app]. rewrite start_record by exact Hc. change (c :: t ++ rest) with ((c :: t) ++ rest).
  destruct (fields_read _ _ H) as (st & pre & cur & Ha & -> & E). rewrite E. cbn [app].
  destruct rest as [|d s].
  - apply after_eof; exact Ha.
  - apply after_end; [exact Ha|]. exact (Hr d s eq_refl).
Qed.

Theorem table_read rows s : table_text rows s -> csv_read StartRecord [] [] s = rows.
Proof.
  induction 1 as [|c rows s Hc H IH|row t H Hne|row t c rows s H Hne Hc Hs IH].
  - reflexivity.
  - cbn [csv_read]. replace (is_term c) with true by (symmetry; apply is_term_spec; exact Hc). exact IH.
  - rewrite <- (app_nil_r t). rewrite (row_read row t [] H Hne) by discriminate. reflexivity.
  - rewrite (row_read row t (c :: s) H Hne).
    + now rewrite IH.
    + intros d s' E. injection E as <- _. exact Hc.
Qed.

(** *** What is written *)
Lemma escape_doubled f : doubled f (escape_quotes f).
Proof.
  induction f as [|c f IH]; [constructor|]. cbn [escape_quotes].
  destruct (N.eqb_spec c c_quote) as [->|Hne]; now constructor.
Qed.

Lemma write_field_text f : field_text f (write_field f).
Proof.
  unfold write_field. destruct (needs_quotes f) eqn:E.
  - apply ft_quoted. apply escape_doubled.
  - unfold needs_quotes in E.
    assert (H : forall c, In c f -> c <> 44%N /\ c <> 34%N /\ c <> 13%N /\ c <> 10%N).
    { intros c Hc. assert (X := proj2 (not_true_iff_false _) E). rewrite existsb_exists in X.
      repeat split; intros ->; apply X; eexists; (split; [exact Hc|reflexivity]). }
    apply ft_bare.
    + intros c Hc. destruct (H c Hc) as (H1 & _ & H3 & H4). split; [exact H1|]. intros [X|X]; contradiction.
    + intros g ->. destruct (H 34%N (or_introl eq_refl)) as (_ & X & _). contradiction.
Qed.

Lemma write_fields_text f fs : fields_text (f :: fs) (write_fields (f :: fs)).
Proof.
  revert f. induction fs as [|g fs IH]; intros f.
  - apply fst_one. apply write_field_text.
  - change (write_fields (f :: g :: fs)) with (write_field f ++ c_comma :: write_fields (g :: fs)).
    apply fst_more; [apply write_field_text|apply IH].
Qed.

Lemma write_fields_ne f g fs : write_fields (f :: g :: fs) <> [].
Proof.
  change (write_fields (f :: g :: fs)) with (write_field f ++ c_comma :: write_fields (g :: fs)).
  intros E. apply app_eq_nil in E as [_ E]. discriminate.
Qed.

(** *** Prefixes of what is written *)
Definition prefix_of (p s : str) : Prop := exists q, s = p ++ q.

Lemma prefix_app (p a b : str) : prefix_of p (a ++ b) -> prefix_of p a \/ exists q, p = a ++ q /\ prefix_of q b.
Proof.
  revert p. induction a as [|c a IH]; intros p H.
  - right. exists p. split; [reflexivity|exact H].
  - destruct p as [|d p]; [left; exists (c :: a); reflexivity|].
    destruct H as [q H]. injection H as <- H. destruct (IH p (ex_intro _ q H)) as [[q' ->]|(q' & -> & H')].
    + left. now exists q'.
    + right. now exists q'.
Qed.

(** A cut inside a field: the record ends there. *)
Lemma read_all_plain f : (forall c, In c f -> plain c) -> forall cur fs, csv_read InField cur fs f = [fs ++ [cur ++ f]].
Proof. intros H cur fs. rewrite <- (app_nil_r f) at 1. rewrite read_bare by exact H. reflexivity. Qed.

Lemma cut_doubled f t : doubled f t -> forall cur fs p, prefix_of p (t ++ [34%N]) ->
  exists x, csv_read InQuoted cur fs p = [fs ++ [x]].
Proof.
  induction 1 as [|f t H IH|c f t Hc H IH]; intros cur fs p [q Hp].
  - destruct p as [|d p]; [now exists cur|]. injection Hp as <- Hp. destruct p as [|d p]; [|discriminate].
    cbn. now exists cur.
  - destruct p as [|d p]; [now exists cur|]. injection Hp as <- Hp. destruct p as [|d p]; [cbn; now exists cur|].
    injection Hp as <- Hp. cbn [csv_read]. cbn [N.eqb c_quote Pos.eqb]. apply IH. now exists q.
  - destruct p as [|d p]; [now exists cur|]. injection Hp as <- Hp. cbn [csv_read].
    replace (N.eqb c c_quote) with false by (symmetry; apply N.eqb_neq; exact Hc).
    apply IH. now exists q.
Qed.

Lemma cut_field f t p : field_text f t -> prefix_of p t -> forall fs,
  exists x, csv_read StartField [] fs p = [fs ++ [x]].
Proof.
  intros [H Hq|u Hu] [q Hp] fs.
  - destruct p as [|c p]; [now exists []|]. exists (c :: p). rewrite Hp in H, Hq.
    destruct (H c (or_introl eq_refl)) as [H1 H2]. cbn [csv_read].
    replace (N.eqb c c_quote) with false
      by (symmetry; apply N.eqb_neq; intros ->; exact (Hq (p ++ q) eq_refl)).
    replace (N.eqb c c_comma) with false by (symmetry; apply N.eqb_neq; exact H1).
    rewrite (is_term_no c H2). rewrite read_all_plain; [reflexivity|].
    intros d Hd. apply H. right. apply in_or_app. now left.
  - destruct p as [|c p]; [now exists []|]. injection Hp as <- Hp. cbn [csv_read]. cbn [N.eqb c_quote Pos.eqb].
    apply (cut_doubled f u Hu). now exists q.
Qed.

Lemma cut_fields row t p : fields_text row t -> prefix_of p t -> forall fs,
  exists k x, k < length row /\ csv_read StartField [] fs p = [fs ++ firstn k row ++ [x]].
Proof.
  intros H. revert p. induction H as [f t H|f t gs ts H Hs IH]; intros p Hp fs.
  - destruct (cut_field f t p H Hp fs) as [x E]. exists 0, x. split; [cbn; lia|exact E].
  - apply prefix_app in Hp as [Hp|(q & -> & Hq)].
    + destruct (cut_field f t p H Hp fs) as [x E]. exists 0, x. split; [cbn; lia|exact E].
    + destruct (field_read f t H) as (st & Ha & E). rewrite E. destruct q as [|c q].
      * rewrite after_eof by exact Ha. exists 0, f. split; [cbn; lia|reflexivity].
      * destruct Hq as [q' Hq]. injection Hq as <- Hq. rewrite after_comma by exact Ha.
        destruct (IH q (ex_intro _ q' Hq) (fs ++ [f])) as (k & x & Hk & E'). exists (S k), x.
        split; [cbn; lia|]. rewrite E', <- app_assoc. reflexivity.
Qed.

(** A cut of a row: nothing, or the first fields and something of the next one. *)
Lemma cut_row row t p : fields_text row t -> prefix_of p t ->
  csv_read StartRecord [] [] p = [] \/
  exists k x, k < length row /\ csv_read StartRecord [] [] p = [firstn k row ++ [x]].
Proof.
  intros H Hp. destruct p as [|c p]; [now left|]. right. destruct Hp as [q Hp].
  pose proof (fields_start _ _ H c (p ++ q) Hp) as Hc. rewrite start_record by exact Hc.
  destruct (cut_fields row t (c :: p) H (ex_intro _ q Hp) []) as (k & x & Hk & E). now exists k, x.
Qed.

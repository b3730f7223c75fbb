(** Widths of renderings, bounded display. *)
From Coq Require Import Ascii String.
From Verif Require Import Base Cpp_Lex_Model Cpp_Ast_Model Cpp_Display_Spec Cpp_Display_Proofs
  Cpp_Display_Proofs2 Cpp_Display_Proofs3.
Local Open Scope nat_scope.
Local Open Scope bool_scope.
Local Open Scope list_scope.

Section Widths.
  Variable cw : chr -> N.
  Hypothesis Hcw : terminal_widths cw.
  Notation w := (width_of cw).

  Lemma w_app a b : w (a ++ b) = (w a + w b)%N.
  Proof. unfold width_of. induction a as [|c a IH]; cbn; [reflexivity|]. rewrite IH. lia. Qed.
  Lemma w_vis s : vis s = true -> (1 <= w s)%N.
  Proof.
    unfold vis. rewrite existsb_exists. intros (c & Hin & Hc).
    apply andb_true_iff in Hc as [H1 H2]. apply N.leb_le in H1. apply N.ltb_lt in H2.
    destruct Hcw as [_ H]. specialize (H c (conj H1 H2)).
    induction s as [|x s IH]; [easy|]. cbn. destruct Hin as [->|Hin]; [lia|].
    specialize (IH Hin). unfold width_of in IH. lia.
  Qed.
  Lemma w_ellipsis : w [ellipsis] = 1%N.
  Proof. cbn. destruct Hcw as [-> _]. reflexivity. Qed.

  Lemma pos_width d : solid d = true -> pos d = true -> forall st, (1 <= w (txt (dr d) st))%N.
  Proof.
    induction d as [| | a b IHa IHb |h sep tr l IH|r l IH|y n|l v IH] using doc_ind';
      cbn [solid pos dr]; intros Hs Hp st; try discriminate.
    - rewrite txt_write. now apply w_vis.
    - rewrite txt_then by apply bal_doc. rewrite w_app. apply andb_true_iff in Hs as [Ha Hb].
      apply orb_true_iff in Hp as [Hp|Hp].
      + specialize (IHa Ha Hp st). lia.
      + specialize (IHb Hb Hp st). lia.
    - rewrite txt_slice, !w_app. apply orb_true_iff in Hp as [Hp|Hp]; apply w_vis in Hp; lia.
    - apply andb_true_iff in Hs as [Hy Hn]. apply str_eqb_eq in Hy, Hn; subst.
      rewrite txt_guard, !txt_write. destruct (N.ltb 0 st); now apply w_vis.
    - rewrite txt_then by apply bal_slice_docs. rewrite txt_slice, !w_app.
      assert (H : (1 <= w (of_string "("))%N) by now apply w_vis. lia.
  Qed.

  Lemma join_mono {A} sep (f g : A -> str) l :
    (forall x, In x l -> (w (f x) <= w (g x))%N) ->
    (w (join sep (map f l)) <= w (join sep (map g l)))%N.
  Proof.
    induction l as [|x l IH]; intros H; [reflexivity|]. destruct l as [|y l].
    - cbn. apply H. now left.
    - change (w (f x ++ sep ++ join sep (map f (y :: l))) <= w (g x ++ sep ++ join sep (map g (y :: l))))%N.
      rewrite !w_app. assert (w (f x) <= w (g x))%N by (apply H; now left).
      assert (w (join sep (map f (y :: l))) <= w (join sep (map g (y :: l))))%N
        by (apply IH; intros; apply H; now right). lia.
  Qed.

  Lemma join_first {A} sep (f : A -> str) x l : (w (f x) <= w (join sep (map f (x :: l))))%N.
  Proof.
    destruct l as [|y l]; [reflexivity|].
    change (w (f x) <= w (f x ++ sep ++ join sep (map f (y :: l))))%N. rewrite w_app. lia.
  Qed.

  Lemma slice_mono h sep tr l :
    Forall (fun d => solid d = true -> forall st, (w (txt (dr d) st) <= w (txt (dr d) (st + 1)))%N) l ->
    forallb solid l && forallb pos l = true -> forall st,
    (w (txt (slice_render h sep tr (map dr l)) st) <=
     w (txt (slice_render h sep tr (map dr l)) (st + 1)))%N.
  Proof.
    intros IH Hs st. apply andb_true_iff in Hs as [Hs Hp]. rewrite !txt_slice, !w_app.
    replace (N.ltb 0 (st + 1)) with true by (symmetry; apply N.ltb_lt; lia).
    destruct (N.ltb_spec 0 st) as [H|H].
    - assert ((w (join (of_string sep) (map (fun d => txt (dr d) (st - 1)) l)) <=
               w (join (of_string sep) (map (fun d => txt (dr d) (st + 1 - 1)) l)))%N); [|lia].
      apply join_mono. intros d Hd. rewrite Forall_forall in IH.
      replace (st + 1 - 1)%N with (st - 1 + 1)%N by lia. apply IH; auto.
      eapply forallb_forall in Hs; eauto.
    - destruct l as [|x l]; [cbn; lia|].
      rewrite w_ellipsis.
      assert (1 <= w (join (of_string sep) (map (fun d => txt (dr d) (st + 1 - 1)) (x :: l))))%N; [|lia].
      etransitivity; [|apply join_first]. cbn in Hs, Hp.
      apply andb_true_iff in Hs as [Hs _]. apply andb_true_iff in Hp as [Hp _].
      now apply pos_width.
  Qed.

  Lemma scope_items_wide x l st :
    is_scope_doc x = true -> solid x = true ->
    (1 + w (of_string "::") <= w (join [] (map (fun d => txt (dr d) st) (x :: l))))%N.
  Proof.
    intros Hi Hs. etransitivity; [|apply join_first].
    destruct x as [| |a b| | | |]; try discriminate. destruct b as [|t| | | | |]; try discriminate.
    cbn [is_scope_doc] in Hi. apply andb_true_iff in Hi as [Hp Ht]. apply str_eqb_eq in Ht. subst t.
    cbn [solid] in Hs. apply andb_true_iff in Hs as [Hs _].
    cbn [dr]. rewrite txt_then by apply bal_doc. rewrite txt_write, w_app.
    pose proof (pos_width _ Hs Hp st). lia.
  Qed.

  Lemma doc_mono d : solid d = true -> forall st, (w (txt (dr d) st) <= w (txt (dr d) (st + 1)))%N.
  Proof.
    induction d as [| | a b IHa IHb |h sep tr l IH|r l IH|y n|l v IH] using doc_ind';
      cbn [solid]; intros Hs st.
    - cbn; lia.
    - cbn [dr]. rewrite !txt_write. lia.
    - cbn [dr]. rewrite !txt_then by apply bal_doc. rewrite !w_app.
      apply andb_true_iff in Hs as [Ha Hb]. specialize (IHa Ha st). specialize (IHb Hb st). lia.
    - cbn [dr]. now apply slice_mono.
    - cbn [dr]. rewrite !txt_if. apply andb_true_iff in Hs as [Hs Hi].
      replace (N.ltb 0 (st + 1)) with true by (symmetry; apply N.ltb_lt; lia).
      rewrite (txt_then (when r (writes "::")) _ (st + 1)) by (apply bal_when, bal_writes).
      rewrite (txt_slice _ _ _ _ (st + 1)).
      replace (N.ltb 0 (st + 1)) with true by (symmetry; apply N.ltb_lt; lia).
      rewrite !w_app. destruct (N.ltb_spec 0 st) as [H|H].
      + rewrite txt_then by (apply bal_when, bal_writes). rewrite txt_slice.
        replace (N.ltb 0 st) with true by (symmetry; apply N.ltb_lt; lia).
        rewrite !w_app.
        assert (E : w (txt (when r (writes "::")) st) = w (txt (when r (writes "::")) (st + 1)))
          by (destruct r; reflexivity).
        assert ((w (join (of_string "") (map (fun d => txt (dr d) (st - 1)) l)) <=
                 w (join (of_string "") (map (fun d => txt (dr d) (st + 1 - 1)) l)))%N); [|lia].
        apply join_mono. intros d Hd. rewrite Forall_forall in IH.
        replace (st + 1 - 1)%N with (st - 1 + 1)%N by lia. apply IH; auto.
        eapply forallb_forall in Hs; eauto.
      + destruct l as [|x l]; [cbn; lia|]. rewrite txt_write.
        cbn [forallb] in Hs, Hi. apply andb_true_iff in Hs as [Hs _]. apply andb_true_iff in Hi as [Hi _].
        pose proof (scope_items_wide x l (st + 1 - 1) Hi Hs).
        change (ellipsis :: of_string "::") with ([ellipsis] ++ of_string "::").
        rewrite w_app, w_ellipsis. change (of_string "") with (@nil chr). lia.
    - apply andb_true_iff in Hs as [Hy Hn]. apply str_eqb_eq in Hy, Hn. subst y n.
      cbn [dr]. rewrite !txt_guard, !txt_write.
      replace (N.ltb 0 (st + 1)) with true by (symmetry; apply N.ltb_lt; lia).
      destruct (N.ltb 0 st); [lia|]. cbn. destruct Hcw as [-> H]. rewrite !H by lia. lia.
    - cbn [dr]. rewrite !txt_then by
        (apply bal_slice_docs || (apply bal_if; [apply bal_when, bal_writes|apply bal_nothing])).
      rewrite !w_app. pose proof (slice_mono "(" ", " "" l IH Hs st) as M.
      rewrite !txt_if, !txt_writes.
      replace (N.ltb 0 (st + 1)) with true by (symmetry; apply N.ltb_lt; lia).
      assert ((w (if N.ltb 0 st then txt (when v (writes ", ...")) st else txt nothing st) <=
               w (txt (when v (writes ", ...")) (st + 1)))%N); [|lia].
      destruct (N.ltb 0 st); destruct v; (reflexivity || apply N.le_0_l).
  Qed.

  Lemma doc_mono_le d st st' :
    solid d = true -> (st <= st')%N -> (w (txt (dr d) st) <= w (txt (dr d) st'))%N.
  Proof.
    intros Hs Hle. replace st' with (st + (st' - st))%N by lia.
    generalize (st' - st)%N as k. intros k. induction k as [|k IH] using N.peano_ind.
    - rewrite N.add_0_r. lia.
    - rewrite N.add_succ_r, <- N.add_1_r. pose proof (doc_mono d Hs (st + k)). lia.
  Qed.
End Widths.

(** ** Entities *)

Lemma entity_rep vb e :
  rep (entity_render vb e) (entity_depth e) (well_counted e) (well_formed e) true.
Proof.
  destruct e as [t|].
  - apply (type_rep vb any any path_is_counted sig_is_counted is_identifier is_visible any any); auto.
  - cbn. eapply rep_weaken; [apply rep_writes|..]; auto.
Qed.

Lemma entity_doc vb e :
  exists d, (forall st, entity_render vb e st = dr d st) /\ dd d = entity_depth e /\
            (well_counted e = true -> counted d = true) /\ (well_formed e = true -> solid d = true).
Proof.
  destruct (entity_rep vb e) as (d & H1 & H2 & H3 & H4). exists d.
  repeat split; auto. intros H. now destruct (H4 H).
Qed.

Lemma entity_balanced vb e d :
  snd (entity_render vb e d) = d /\ well_nested d (fst (entity_render vb e d)).
Proof.
  destruct (entity_doc vb e) as (x & H1 & _). rewrite H1. apply bal_doc.
Qed.

Lemma entity_stable_counted vb e d :
  well_counted e = true -> (entity_depth e <= d)%N ->
  forall d', (entity_depth e <= d')%N -> entity_at vb e d = entity_at vb e d'.
Proof.
  intros Hc H d' H'. destruct (entity_doc vb e) as (x & H1 & H2 & H3 & _).
  unfold entity_at. rewrite !H1. apply (doc_stable 0 x); auto; lia.
Qed.

Lemma entity_stable vb e d d' :
  (entity_depth e < d)%N -> (entity_depth e < d')%N -> entity_at vb e d = entity_at vb e d'.
Proof.
  intros H H'. destruct (entity_doc vb e) as (x & H1 & H2 & _).
  unfold entity_at. rewrite !H1. apply (doc_stable 1 x); auto; try lia.
Qed.

Lemma entity_mono vb cw e d d' :
  terminal_widths cw -> well_formed e = true -> (d <= d')%N ->
  (width_of cw (entity_at vb e d) <= width_of cw (entity_at vb e d'))%N.
Proof.
  intros Hcw Hf Hd. destruct (entity_doc vb e) as (x & H1 & _ & _ & H4).
  unfold entity_at. rewrite !H1. apply doc_mono_le; auto.
Qed.

(** ** Bounded display *)

Section BoundedProofs.
  Variable width : str -> N.
  Variable f : N -> str.
  Variable cols : N.

  Lemma bounded_loop_spec k d prev :
    (bounded_loop width f cols k d prev = prev /\ (cols < width (f d))%N) \/
    exists d', (d <= d' <= d + N.of_nat k)%N /\ bounded_loop width f cols k d prev = f d' /\
      (forall d'', (d <= d'' <= d')%N -> (width (f d'') <= cols)%N) /\
      (d' = d + N.of_nat k \/ cols < width (f (d' + 1)))%N.
  Proof.
    revert d prev. induction k as [|k IH]; intros d prev; cbn [bounded_loop].
    - destruct (N.ltb_spec cols (width (f d))) as [H|H]; [left; auto|]. right. exists d.
      split; [lia|]. split; [reflexivity|]. split; [|left; lia].
      intros d'' Hd. now replace d'' with d by lia.
    - destruct (N.ltb_spec cols (width (f d))) as [H|H]; [left; auto|]. right.
      destruct (IH (d + 1)%N (f d)) as [[E H1]|(d' & H1 & E & H2 & H3)].
      + exists d. rewrite E. split; [lia|]. split; [reflexivity|]. split; [|right; exact H1].
        intros d'' Hd. now replace d'' with d by lia.
      + exists d'. rewrite E. split; [lia|]. split; [reflexivity|]. split; [|destruct H3; [left|right]; lia].
        intros d'' Hd. destruct (N.eq_dec d'' d) as [->|Hne]; [exact H|]. apply H2. lia.
  Qed.
End BoundedProofs.

Lemma bounded_cases vb width e cols :
  (1 <= cols)%N ->
  exists s, bounded_display vb width e cols = Ret s /\
  ((s = [ellipsis] /\ (cols < width (entity_at vb e 0))%N) \/
   exists d, (d <= entity_depth e)%N /\ s = entity_at vb e d /\
     (forall d', (d' <= d)%N -> (width (entity_at vb e d') <= cols)%N) /\
     (d = entity_depth e \/ (cols < width (entity_at vb e (d + 1)))%N)).
Proof.
  intros H. unfold bounded_display. replace (N.leb 1 cols) with true by (symmetry; now apply N.leb_le).
  eexists; split; [reflexivity|].
  destruct (bounded_loop_spec width (entity_at vb e) cols (N.to_nat (entity_depth e)) 0 [ellipsis])
    as [[E H1]|(d & H1 & E & H2 & H3)].
  - left. now rewrite E.
  - right. exists d. rewrite E. rewrite N2Nat.id in *. repeat split.
    + lia.
    + intros d' Hd. apply H2. lia.
    + destruct H3; [left; lia|now right].
Qed.

Lemma bounded_fits vb width e cols s :
  width [ellipsis] = 1%N ->
  bounded_display vb width e cols = Ret s -> (width s <= cols)%N.
Proof.
  intros He Hb. destruct (N.leb_spec 1 cols) as [H|H].
  - destruct (bounded_cases vb width e cols H) as (s' & E & C). rewrite E in Hb. injection Hb as <-.
    destruct C as [[-> _]|(d & _ & -> & H2 & _)]; [lia|]. apply H2. lia.
  - unfold bounded_display in Hb. replace (N.leb 1 cols) with false in Hb by (symmetry; now apply N.leb_gt).
    discriminate.
Qed.

Lemma bounded_full vb width e cols :
  (1 <= cols)%N -> well_counted e = true -> (entity_depth e <= full_depth)%N ->
  (forall d, (width (entity_at vb e d) <= cols)%N) ->
  bounded_display vb width e cols = Ret (entity_full vb e).
Proof.
  intros H Hc Hd Hw. destruct (bounded_cases vb width e cols H) as (s & -> & C).
  f_equal. destruct C as [[_ C]|(d & H1 & -> & _ & [->|C])].
  - specialize (Hw 0%N). lia.
  - unfold entity_full. apply entity_stable_counted; auto; lia.
  - specialize (Hw (d + 1)%N). lia.
Qed.

Lemma bounded_full_width vb cw e cols :
  terminal_widths cw -> well_formed e = true -> well_counted e = true ->
  (entity_depth e <= full_depth)%N -> (1 <= cols)%N ->
  bounded_display vb (width_of cw) e cols = Ret (entity_full vb e) <->
  (width_of cw (entity_full vb e) <= cols)%N.
Proof.
  intros Hcw Hf Hc Hd H. split.
  - intros E. eapply bounded_fits; [|exact E]. now apply w_ellipsis.
  - intros Hw. apply bounded_full; auto. intros d.
    etransitivity; [|exact Hw]. unfold entity_full.
    destruct (N.leb_spec d full_depth) as [L|L]; [now apply entity_mono|].
    rewrite (entity_stable_counted vb e d Hc ltac:(lia) full_depth) by lia. reflexivity.
Qed.

(** Nothing wider fits, once the renderings are well-behaved *)
Lemma bounded_widest vb cw e cols :
  terminal_widths cw -> well_formed e = true -> well_counted e = true -> (1 <= cols)%N ->
  exists s, bounded_display vb (width_of cw) e cols = Ret s /\
  ((s = [ellipsis] /\ forall d, (cols < width_of cw (entity_at vb e d))%N) \/
   exists d, s = entity_at vb e d /\
     forall d', (d < d')%N -> entity_at vb e d' = s \/ (cols < width_of cw (entity_at vb e d'))%N).
Proof.
  intros Hcw Hf Hc H. destruct (bounded_cases vb (width_of cw) e cols H) as (s & E & C).
  exists s. split; [exact E|]. destruct C as [[-> C]|(d & H1 & -> & H2 & C)]; [left|right].
  - split; [reflexivity|]. intros d. pose proof (entity_mono vb cw e 0 d Hcw Hf ltac:(lia)). lia.
  - exists d. split; [reflexivity|]. intros d' Hd. destruct C as [->|C].
    + left. symmetry. apply entity_stable_counted; auto; lia.
    + right. pose proof (entity_mono vb cw e (d + 1) d' Hcw Hf ltac:(lia)). lia.
Qed.

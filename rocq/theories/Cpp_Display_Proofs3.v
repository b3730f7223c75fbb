(** Properties of documents: balance, stability beyond the recursion depth, widths. *)
From Coq Require Import Ascii String.
From Verif Require Import Base Cpp_Lex_Model Cpp_Ast_Model Cpp_Display_Spec Cpp_Display_Proofs
  Cpp_Display_Proofs2.
Local Open Scope nat_scope.
Local Open Scope bool_scope.
Local Open Scope list_scope.

(** ** Balance *)

Lemma enters_app a b : enters (a ++ b) = enters a + enters b.
Proof. induction a as [|[s| |] a IH]; cbn; rewrite ?IH; reflexivity. Qed.
Lemma leaves_app a b : leaves (a ++ b) = leaves a + leaves b.
Proof. induction a as [|[s| |] a IH]; cbn; rewrite ?IH; reflexivity. Qed.

Lemma wn_nil d : well_nested d [].
Proof.
  split; [reflexivity|]. intros past future E. destruct past; [|discriminate]. cbn. lia.
Qed.
Lemma wn_text d s : well_nested d [EText s].
Proof.
  split; [reflexivity|]. intros [|e [|e' past]] future E; cbn.
  - lia.
  - injection E as <- _. cbn. lia.
  - destruct past; discriminate.
Qed.
Lemma wn_app d a b : well_nested d a -> well_nested d b -> well_nested d (a ++ b).
Proof.
  intros [A1 A2] [B1 B2]. split; [rewrite enters_app, leaves_app; lia|].
  intros past future E. symmetry in E. apply app_eq_app in E as [l [[E1 E2]|[E1 E2]]]; subst.
  - rewrite enters_app, leaves_app. specialize (B2 _ _ eq_refl). lia.
  - exact (A2 _ _ eq_refl).
Qed.
Lemma wn_guard d a : (0 < d)%N -> well_nested (d - 1) a -> well_nested d (EEnter :: a ++ [ELeave]).
Proof.
  intros Hd [A1 A2]. split; [cbn; rewrite enters_app, leaves_app; cbn; lia|].
  intros past future E. destruct past as [|e past]; [cbn; lia|].
  injection E as <- E. cbn. symmetry in E. apply app_eq_app in E as [l [[E1 E2]|[E1 E2]]]; subst.
  - rewrite enters_app, leaves_app. destruct l as [|e [|e' l]]; try discriminate.
    + cbn. lia.
    + injection E2 as <- _. cbn. lia.
  - specialize (A2 _ _ eq_refl). lia.
Qed.

Definition balanced (r : render) : Prop :=
  forall st, snd (r st) = st /\ well_nested st (fst (r st)).

Lemma bal_write s : balanced (write s).
Proof. intros st. split; [reflexivity|apply wn_text]. Qed.
Lemma bal_writes s : balanced (writes s).
Proof. apply bal_write. Qed.
Lemma bal_nothing : balanced nothing.
Proof. intros st. split; [reflexivity|apply wn_nil]. Qed.
Lemma bal_then a b : balanced a -> balanced b -> balanced (a >> b).
Proof.
  intros A B st. unfold andthen. destruct (A st) as [A1 A2]. destruct (a st) as [e1 st1].
  cbn in A1, A2; subst. destruct (B st) as [B1 B2]. destruct (b st) as [e2 st2]. cbn in *; subst.
  split; [reflexivity|now apply wn_app].
Qed.
Lemma bal_if a b : balanced a -> balanced b -> balanced (if_can a b).
Proof. intros A B st. unfold if_can. destruct (can_recurse st); auto. Qed.
Lemma bal_when c a : balanced a -> balanced (when c a).
Proof. intros A. destruct c; [exact A|apply bal_nothing]. Qed.
Lemma bal_guard a b : balanced a -> balanced b -> balanced (with_guard a b).
Proof.
  intros A B st. unfold with_guard, can_recurse. destruct (N.ltb_spec 0 st) as [H|H]; [|apply B].
  destruct (A (st - 1)%N) as [A1 A2]. destruct (a (st - 1)%N) as [e st']. cbn in *; subst.
  split; [lia|now apply wn_guard].
Qed.
Lemma bal_items sep l : Forall balanced l -> balanced (items_render sep l).
Proof.
  induction 1 as [|a l Ha Hl IH]; [apply bal_nothing|].
  destruct l; [exact Ha|]. apply bal_then; [exact Ha|]. apply bal_then; [apply bal_write|exact IH].
Qed.
Lemma bal_slice h sep tr l : Forall balanced l -> balanced (slice_render h sep tr l).
Proof.
  intros H. unfold slice_render. apply bal_then; [apply bal_writes|]. apply bal_then; [|apply bal_writes].
  apply bal_guard; [now apply bal_items|]. destruct l; [apply bal_nothing|apply bal_write].
Qed.

Lemma bal_doc d : balanced (dr d).
Proof.
  induction d as [| | a b IHa IHb |h sep tr l IH|r l IH|y n|l v IH] using doc_ind'; cbn [dr].
  - apply bal_nothing.
  - apply bal_write.
  - now apply bal_then.
  - apply bal_slice. now apply Forall_map.
  - apply bal_if.
    + apply bal_then; [apply bal_when, bal_writes|]. apply bal_slice. now apply Forall_map.
    + destruct l; [apply bal_nothing|apply bal_write].
  - apply bal_guard; apply bal_write.
  - apply bal_then; [apply bal_slice; now apply Forall_map|].
    apply bal_then; [|apply bal_writes]. apply bal_if; [apply bal_when, bal_writes|apply bal_nothing].
Qed.

(** ** Texts *)

Lemma text_app a b : text (a ++ b) = text a ++ text b.
Proof. induction a as [|[s| |] a IH]; cbn; rewrite ?IH, ?app_assoc; reflexivity. Qed.

Definition txt (r : render) (st : N) : str := text (fst (r st)).

Lemma txt_write s st : txt (write s) st = s.
Proof. apply app_nil_r. Qed.
Lemma txt_writes s st : txt (writes s) st = of_string s.
Proof. apply txt_write. Qed.
Lemma txt_then a b st : balanced a -> txt (a >> b) st = txt a st ++ txt b st.
Proof.
  intros A. unfold txt, andthen. destruct (A st) as [E _]. destruct (a st) as [e1 st1]. cbn in E; subst.
  destruct (b st) as [e2 st2]. cbn. apply text_app.
Qed.
Lemma txt_guard a b st :
  txt (with_guard a b) st = if N.ltb 0 st then txt a (st - 1) else txt b st.
Proof.
  unfold txt, with_guard, can_recurse. destruct (N.ltb 0 st); [|reflexivity].
  destruct (a (st - 1)%N) as [e st']. cbn. rewrite text_app. apply app_nil_r.
Qed.
Lemma txt_if a b st : txt (if_can a b) st = if N.ltb 0 st then txt a st else txt b st.
Proof. unfold txt, if_can, can_recurse. now destruct (N.ltb 0 st). Qed.

Fixpoint join (sep : str) (l : list str) : str :=
  match l with
  | [] => []
  | [x] => x
  | x :: r => x ++ sep ++ join sep r
  end.

Lemma txt_items sep ds st :
  txt (items_render sep (map dr ds)) st = join sep (map (fun d => txt (dr d) st) ds).
Proof.
  induction ds as [|d ds IH]; [reflexivity|]. destruct ds as [|d' ds]; [reflexivity|].
  change (txt (dr d >> write sep >> items_render sep (map dr (d' :: ds))) st =
          txt (dr d) st ++ sep ++ join sep (map (fun d => txt (dr d) st) (d' :: ds))).
  rewrite txt_then by apply bal_doc. rewrite txt_then by apply bal_write.
  now rewrite txt_write, IH.
Qed.

Lemma txt_slice h sep tr ds st :
  txt (slice_render h sep tr (map dr ds)) st =
  of_string h ++
  (if N.ltb 0 st then join (of_string sep) (map (fun d => txt (dr d) (st - 1)) ds)
   else match ds with [] => [] | _ => [ellipsis] end) ++ of_string tr.
Proof.
  unfold slice_render. rewrite txt_then by apply bal_writes. rewrite txt_then.
  - rewrite !txt_writes, txt_guard, txt_items. destruct ds; destruct (N.ltb 0 st); reflexivity.
  - apply bal_guard.
    + apply bal_items, Forall_map. clear. induction ds; constructor; auto using bal_doc.
    + destruct ds; [apply bal_nothing|apply bal_write].
Qed.

Lemma bal_slice_docs h sep tr ds : balanced (slice_render h sep tr (map dr ds)).
Proof. apply bal_slice, Forall_map. induction ds; constructor; auto using bal_doc. Qed.

(** ** Stability: nothing changes beyond the recursion depth *)

Lemma slice_depth_in d ds : In d ds -> (dd d + 1 <= slice_depth (map dd ds))%N.
Proof.
  induction ds as [|x ds IH]; [easy|]. cbn. intros [->|H]; [lia|]. specialize (IH H).
  unfold slice_depth in *. lia.
Qed.

(** margin: 0 if well counted, else 1 *)
Lemma doc_stable (m : N) d :
  (m = 0%N -> counted d = true) -> (m = 0 \/ m = 1)%N ->
  forall st st', (dd d + m <= st)%N -> (dd d + m <= st')%N -> txt (dr d) st = txt (dr d) st'.
Proof.
  intros Hc Hm.
  induction d as [| | a b IHa IHb |h sep tr l IH|r l IH|y n|l v IH] using doc_ind';
    intros st st' H1 H2; cbn [dr dd counted] in *.
  - reflexivity.
  - now rewrite !txt_write.
  - rewrite !txt_then by apply bal_doc.
    assert (Hab : m = 0%N -> counted a = true /\ counted b = true)
      by (intros E; now apply andb_true_iff, Hc).
    rewrite (IHa (fun E => proj1 (Hab E)) st st'), (IHb (fun E => proj2 (Hab E)) st st') by lia.
    reflexivity.
  - rewrite !txt_slice. destruct l as [|x l].
    { destruct (N.ltb 0 st), (N.ltb 0 st'); reflexivity. }
    assert (P : (1 <= slice_depth (map dd (x :: l)))%N) by (cbn; lia).
    replace (N.ltb 0 st) with true by (symmetry; apply N.ltb_lt; lia).
    replace (N.ltb 0 st') with true by (symmetry; apply N.ltb_lt; lia).
    do 3 f_equal. apply map_ext_in. intros d Hd.
    rewrite Forall_forall in IH. apply IH; auto.
    + intros E. eapply forallb_forall; [apply Hc; exact E|exact Hd].
    + pose proof (slice_depth_in _ _ Hd). lia.
    + pose proof (slice_depth_in _ _ Hd). lia.
  - rewrite !txt_if. destruct l as [|x l].
    { assert (Hr : m = 0%N -> r = false).
      { intros E. specialize (Hc E). cbn in Hc. now destruct r. }
      destruct Hm as [-> | ->].
      - rewrite (Hr eq_refl). destruct (N.ltb 0 st), (N.ltb 0 st'); cbn [when];
          rewrite ?txt_then by apply bal_nothing; rewrite ?txt_slice; cbn;
          repeat match goal with |- context [if ?b then _ else _] => destruct b end; reflexivity.
      - cbn in H1, H2.
        replace (N.ltb 0 st) with true by (symmetry; apply N.ltb_lt; lia).
        replace (N.ltb 0 st') with true by (symmetry; apply N.ltb_lt; lia).
        rewrite !txt_then by (apply bal_when, bal_writes). rewrite !txt_slice.
        destruct r; cbn [when map join]; rewrite ?txt_writes;
          destruct (N.ltb 0 st), (N.ltb 0 st'); reflexivity. }
    assert (P : (1 <= slice_depth (map dd (x :: l)))%N) by (cbn; lia).
    replace (N.ltb 0 st) with true by (symmetry; apply N.ltb_lt; lia).
    replace (N.ltb 0 st') with true by (symmetry; apply N.ltb_lt; lia).
    rewrite !txt_then by (apply bal_when, bal_writes). rewrite !txt_slice.
    replace (N.ltb 0 st) with true by (symmetry; apply N.ltb_lt; lia).
    replace (N.ltb 0 st') with true by (symmetry; apply N.ltb_lt; lia).
    f_equal; [destruct r; reflexivity|]. do 3 f_equal. apply map_ext_in. intros d Hd.
    rewrite Forall_forall in IH. apply IH; auto.
    + intros E. specialize (Hc E). cbn [andb] in Hc. eapply forallb_forall; [exact Hc|exact Hd].
    + pose proof (slice_depth_in _ _ Hd). lia.
    + pose proof (slice_depth_in _ _ Hd). lia.
  - rewrite !txt_guard, !txt_write.
    replace (N.ltb 0 st) with true by (symmetry; apply N.ltb_lt; lia).
    replace (N.ltb 0 st') with true by (symmetry; apply N.ltb_lt; lia). reflexivity.
  - rewrite !txt_then by (apply bal_slice_docs || (apply bal_if; [apply bal_when, bal_writes|apply bal_nothing])).
    rewrite !txt_slice, !txt_if, !txt_writes. destruct l as [|x l].
    { destruct Hm as [-> | ->].
      - assert (Hr : v = false) by (specialize (Hc eq_refl); cbn in Hc; now destruct v).
        subst. destruct (N.ltb 0 st), (N.ltb 0 st'); reflexivity.
      - cbn in H1, H2.
        replace (N.ltb 0 st) with true by (symmetry; apply N.ltb_lt; lia).
        replace (N.ltb 0 st') with true by (symmetry; apply N.ltb_lt; lia).
        destruct v; reflexivity. }
    assert (P : (1 <= slice_depth (map dd (x :: l)))%N) by (cbn; lia).
    replace (N.ltb 0 st) with true by (symmetry; apply N.ltb_lt; lia).
    replace (N.ltb 0 st') with true by (symmetry; apply N.ltb_lt; lia).
    f_equal; [|destruct v; reflexivity].
    do 3 f_equal. apply map_ext_in. intros d Hd.
    rewrite Forall_forall in IH. apply IH; auto.
    + intros E. specialize (Hc E). cbn [andb] in Hc. eapply forallb_forall; [exact Hc|exact Hd].
    + pose proof (slice_depth_in _ _ Hd). lia.
    + pose proof (slice_depth_in _ _ Hd). lia.
Qed.

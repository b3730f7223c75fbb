(** Saved profiles, whole or cut short, and loading them. *)
From Coq Require Import QArith String.
From Verif Require Import Base.
From Verif Require Import Cmd_Model Cmd_Spec Cpp_Lex_Model Cpp_Lex_Spec Cpp_Lex_Proofs4.
From Verif Require Import Csv_Model Csv_Spec Csv_Proofs Csv_Proofs2.
Local Open Scope nat_scope.
Local Open Scope bool_scope.
Local Open Scope list_scope.
Local Notation length := List.length.

(** *** Printed numbers *)
Lemma positional_fold ds : forall acc,
  fold_left (fun v d => 10 * v + Z.of_N d)%Z ds acc =
  (acc * Z.of_N (10 ^ N.of_nat (length ds)) + Z.of_N (positional 10 ds))%Z.
Proof.
  induction ds as [|d ds IH]; intros acc.
  - cbn. lia.
  - cbn [fold_left List.length positional]. rewrite IH, Nat2N.inj_succ, N.pow_succ_r'. lia.
Qed.

Lemma show_number n : (n < 2 ^ 64)%N -> number_text (show_u64 n) n.
Proof.
  intros Hn. destruct (shown_digits n) as (ds & E & [Hne Hd] & Hv). split; [exact Hn|].
  exists [], (show_u64 n). split; [now left|]. left. split; [reflexivity|]. exists ds. split; [exact Hne|].
  unfold show_u64. rewrite E. split.
  - clear - Hd. induction Hd as [|d ds H Hs IH]; [constructor|]. cbn [digits_text map]. constructor; [now constructor|exact IH].
  - split; [intros d Hin; rewrite Forall_forall in Hd; now apply Hd|].
    unfold digits_value in Hv. rewrite positional_fold in Hv. lia.
Qed.

(** *** Rows *)
Definition header_row : list str := [file_key; max_rss_key; time_key].

Lemma de_three read p n t :
  de_row read header_row [p; n; t] =
  match de_u64 n with
  | None => None
  | Some n' => match de_time read t with None => None | Some t' => Some (mkRow (PText p) n' t') end
  end.
Proof.
  unfold de_row, header_row. cbn [List.length Nat.eqb combine]. cbn [de_cells].
  change (str_eqb file_key file_key) with true. change (str_eqb max_rss_key file_key) with false.
  change (str_eqb max_rss_key max_rss_key) with true. change (str_eqb time_key file_key) with false.
  change (str_eqb time_key max_rss_key) with false. change (str_eqb time_key time_key) with true.
  cbn iota. destruct (de_u64 n); [|reflexivity]. destruct (de_time read t); reflexivity.
Qed.

Lemma ser_row_inv show u row : ser_row show u = Some row ->
  exists p, r_path u = PText p /\
    row = [p; show_u64 (r_rss u); match r_time u with None => [] | Some x => show x end].
Proof.
  unfold ser_row. destruct (r_path u) as [p|b]; [|discriminate]. intros E. injection E as <-. now exists p.
Qed.

Lemma row_loads show read u row : prints_and_reads show read -> storable u -> ser_row show u = Some row ->
  exists v, de_row read header_row row = Some v /\ same_unit u v.
Proof.
  intros Hpr (_ & Hn & Hx) E. apply ser_row_inv in E as (p & Ep & ->). rewrite de_three.
  assert (En : de_u64 (show_u64 (r_rss u)) = Some (r_rss u)) by (apply de_u64_spec, show_number, Hn).
  rewrite En. unfold same_unit. destruct (r_time u) as [x|].
  - destruct (Hpr x (Hx x eq_refl)) as (Hne & y & Er & _ & Hs). unfold de_time.
    destruct (show x) as [|c t] eqn:E; [contradiction|]. rewrite Er. cbn [option_map].
    eexists. split; [reflexivity|]. cbn [r_path r_rss r_time]. now repeat split.
  - cbn [de_time]. eexists. split; [reflexivity|]. cbn [r_path r_rss r_time]. now repeat split.
Qed.

(** A cut row: what is left of the time is read *)
Lemma cut_row_loads show read u row k x v : (r_rss u < 2 ^ 64)%N -> ser_row show u = Some row -> k < 3 ->
  de_row read header_row (firstn k row ++ [x]) = Some v -> exists t, v = mkRow (r_path u) (r_rss u) t.
Proof.
  intros Hn E Hk H. apply ser_row_inv in E as (p & Ep & ->).
  destruct k as [|[|[|k]]]; [discriminate|discriminate| |lia].
  cbn [firstn app] in H. rewrite de_three in H.
  assert (En : de_u64 (show_u64 (r_rss u)) = Some (r_rss u)) by (apply de_u64_spec, show_number, Hn).
  rewrite En in H. destruct (de_time read x) as [t|]; [|discriminate]. injection H as <-. rewrite Ep. now exists t.
Qed.

Definition rows_of (show : f32 -> str) (us : list unit_row) (rows : list (list str)) : Prop :=
  Forall2 (fun u row => ser_row show u = Some row) us rows.

Lemma rows_load show read us rows : prints_and_reads show read -> Forall storable us -> rows_of show us rows ->
  exists vs, de_rows read header_row rows = Some vs /\ Forall2 same_unit us vs.
Proof.
  intros Hpr Hst H. induction H as [|u row us rows Hu Hus IH].
  - exists []. split; [reflexivity|constructor].
  - inversion Hst as [|? ? Hs Hst']; subst. destruct (IH Hst') as (vs & E & HF).
    destruct (row_loads show read u row Hpr Hs Hu) as (v & Ev & Hv).
    exists (v :: vs). split; [|now constructor]. cbn [de_rows]. now rewrite Ev, E.
Qed.

Lemma de_rows_app read h a b :
  de_rows read h (a ++ b) =
  match de_rows read h a with
  | None => None
  | Some us => option_map (app us) (de_rows read h b)
  end.
Proof.
  induction a as [|r a IH]; cbn [app de_rows].
  - destruct (de_rows read h b); reflexivity.
  - destruct (de_row read h r); [|reflexivity]. rewrite IH. destruct (de_rows read h a); [|reflexivity].
    cbn [option_map]. destruct (de_rows read h b); reflexivity.
Qed.

(** *** The text *)
Definition text_of (rows : list (list str)) : str := concat (map write_record rows).

Lemma ser_rows_text show us t : ser_rows show us = Some t -> exists rows, rows_of show us rows /\ t = text_of rows.
Proof.
  revert t. induction us as [|u us IH]; intros t H; cbn [ser_rows] in H.
  - injection H as <-. exists []. split; [constructor|reflexivity].
  - destruct (ser_row show u) as [row|] eqn:Eu; [|discriminate].
    destruct (ser_rows show us) as [t'|] eqn:Es; [|discriminate]. injection H as <-.
    destruct (IH t' eq_refl) as (rows & HF & ->). exists (row :: rows). split; [now constructor|reflexivity].
Qed.

Lemma save_text show us t : save show us = Some t ->
  us = [] /\ t = [] \/
  us <> [] /\ exists rows, rows_of show us rows /\ t = text_of (header_row :: rows).
Proof.
  intros H. destruct us as [|u us].
  - left. injection H as <-. now split.
  - right. split; [discriminate|]. unfold save in H. destruct (ser_rows show (u :: us)) as [t'|] eqn:E; [|discriminate].
    apply ser_rows_text in E as (rows & HF & ->). cbn [option_map] in H. injection H as <-. now exists rows.
Qed.

Definition wide (row : list str) : Prop := exists f g fs, row = f :: g :: fs.
Lemma rows_wide show us rows : rows_of show us rows -> Forall wide rows.
Proof.
  induction 1 as [|u row us rows Hu _ IH]; constructor; [|exact IH].
  apply ser_row_inv in Hu as (p & _ & ->). now eexists _, _, _.
Qed.

Lemma text_table rows : Forall wide rows -> table_text rows (text_of rows).
Proof.
  induction 1 as [|row rows (f & g & fs & ->) _ IH].
  - constructor.
  - unfold text_of. cbn [map concat]. unfold write_record at 1. rewrite <- app_assoc. cbn [app].
    apply tt_row; [apply write_fields_text|apply write_fields_ne|now right|exact IH].
Qed.

Lemma cut_table rows : Forall wide rows -> forall p, prefix_of p (text_of rows) ->
  (exists k, csv_read StartRecord [] [] p = firstn k rows) \/
  (exists k row j x, nth_error rows k = Some row /\ j < length row /\
     csv_read StartRecord [] [] p = firstn k rows ++ [firstn j row ++ [x]]).
Proof.
  induction 1 as [|row rows (f & g & fs & ->) Hw IH]; intros p Hp.
  - left. exists 0. destruct Hp as [q Hp]. symmetry in Hp. apply app_eq_nil in Hp as [-> _]. reflexivity.
  - unfold text_of in Hp. cbn [map concat] in Hp. fold (text_of rows) in Hp. set (row := f :: g :: fs) in *.
    pose proof (write_fields_text f (g :: fs)) as Ht. fold row in Ht.
    pose proof (write_fields_ne f g fs) as Hne. fold row in Hne.
    unfold write_record in Hp. rewrite <- app_assoc in Hp. apply prefix_app in Hp as [Hp|(q & -> & Hq)].
    + destruct (cut_row row _ p Ht Hp) as [E|(j & x & Hj & E)].
      * left. exists 0. exact E.
      * right. exists 0, row, j, x. split; [reflexivity|]. split; [exact Hj|exact E].
    + destruct q as [|c q].
      * left. exists 1. rewrite (row_read row _ [] Ht Hne) by discriminate. cbn [firstn]. reflexivity.
      * destruct Hq as [q' Hq]. injection Hq as <- Hq.
        rewrite (row_read row _ (c_lf :: q) Ht Hne).
        2:{ intros c s E. injection E as <- _. now right. }
        destruct (IH q (ex_intro _ q' Hq)) as [[k E]|(k & row' & j & x & Hk & Hj & E)]; rewrite E.
        -- left. exists (S k). reflexivity.
        -- right. exists (S k), row', j, x. split; [exact Hk|]. split; [exact Hj|reflexivity].
Qed.

Lemma text_no_bom rows p : prefix_of p (text_of (header_row :: rows)) -> strip_bom p = p.
Proof.
  intros [q Hq]. destruct p as [|c p]; [reflexivity|]. cbn in Hq. injection Hq as <- _. reflexivity.
Qed.

Lemma rows_firstn show us rows k : rows_of show us rows -> rows_of show (firstn k us) (firstn k rows).
Proof.
  intros H. revert k. induction H as [|u row us rows Hu _ IH]; intros [|k]; try constructor; [exact Hu|apply IH].
Qed.
Lemma rows_nth show us rows k row : rows_of show us rows -> nth_error rows k = Some row ->
  exists u, nth_error us k = Some u /\ ser_row show u = Some row.
Proof.
  intros H. revert k. induction H as [|u r us rows Hu _ IH]; intros [|k] E; try discriminate.
  - injection E as <-. now exists u.
  - exact (IH k E).
Qed.
Lemma forall_firstn {A} (P : A -> Prop) l k : Forall P l -> Forall P (firstn k l).
Proof. intros H. revert k. induction H; intros [|k]; constructor; auto. Qed.

(** *** Theorems *)
Theorem save_load show read us text : prints_and_reads show read -> Forall storable us ->
  save show us = Some text -> exists vs, load read (Some text) = inl vs /\ Forall2 same_unit us vs.
Proof.
  intros Hpr Hst H. apply save_text in H as [[-> ->]|[_ (rows & HF & ->)]].
  - exists []. split; [reflexivity|constructor].
  - destruct (rows_load show read us rows Hpr Hst HF) as (vs & E & HS). exists vs. split; [|exact HS].
    unfold load. rewrite (text_no_bom rows) by (exists []; now rewrite app_nil_r).
    rewrite (table_read (header_row :: rows)).
    + now rewrite E.
    + apply text_table. constructor; [now eexists _, _, _|]. exact (rows_wide _ _ _ HF).
Qed.

Theorem save_ok show us : (exists text, save show us = Some text) <-> Forall (fun u => exists p, r_path u = PText p) us.
Proof.
  assert (G : (exists t, ser_rows show us = Some t) <-> Forall (fun u => exists p, r_path u = PText p) us).
  { induction us as [|u us IH]; cbn [ser_rows].
    - split; [constructor|]. intros _. now eexists.
    - split.
      + intros [t H]. destruct (ser_row show u) as [row|] eqn:E; [|discriminate].
        destruct (ser_rows show us) as [t'|] eqn:E'; [|discriminate].
        constructor; [apply ser_row_inv in E as (p & Ep & _); now exists p|]. apply IH. now exists t'.
      + intros H. inversion H as [|? ? [p Ep] Hs]; subst. apply IH in Hs as [t Ht]. rewrite Ht.
        unfold ser_row. rewrite Ep. now eexists. }
  rewrite <- G. destruct us as [|u us].
  - cbn. split; intros _; now eexists.
  - unfold save. destruct (ser_rows show (u :: us)) as [t|]; cbn [option_map]; split; intros [x H]; try discriminate; now eexists.
Qed.

Theorem save_cut show read us text p : prints_and_reads show read -> Forall storable us ->
  save show us = Some text -> (exists q, text = p ++ q) ->
  load read (Some p) = inr ParseError \/
  exists k vs, load read (Some p) = inl vs /\
    (Forall2 same_unit (firstn k us) vs \/
     exists u t vs', nth_error us k = Some u /\ Forall2 same_unit (firstn k us) vs' /\
       vs = vs' ++ [mkRow (r_path u) (r_rss u) t]).
Proof.
  intros Hpr Hst H Hp. apply save_text in H as [[-> ->]|[_ (rows & HF & ->)]].
  - destruct Hp as [q Hq]. symmetry in Hq. apply app_eq_nil in Hq as [-> _].
    right. exists 0, []. split; [reflexivity|]. left. constructor.
  - unfold load. rewrite (text_no_bom rows p Hp).
    assert (Hw : Forall wide (header_row :: rows)) by (constructor; [now eexists _, _, _|exact (rows_wide _ _ _ HF)]).
    assert (Hk : forall k, exists vs, de_rows read header_row (firstn k rows) = Some vs /\
                   Forall2 same_unit (firstn k us) vs).
    { intros k. apply (rows_load show read); [exact Hpr|now apply forall_firstn|now apply rows_firstn]. }
    destruct (cut_table _ Hw p Hp) as [[[|k] E]|([|k] & row & j & x & Hn & Hj & E)]; rewrite E.
    + right. exists 0, []. split; [reflexivity|]. left. constructor.
    + cbn [firstn]. destruct (Hk k) as (vs & Ev & HS). rewrite Ev. right. exists k, vs. split; [reflexivity|]. now left.
    + cbn [firstn app de_rows]. right. exists 0, []. split; [reflexivity|]. left. constructor.
    + cbn [firstn app]. rewrite de_rows_app. destruct (Hk k) as (vs & Ev & HS). rewrite Ev.
      cbn [nth_error] in Hn. destruct (rows_nth _ _ _ _ _ HF Hn) as (u & Hu & Er).
      cbn [de_rows]. destruct (de_row read header_row (firstn j row ++ [x])) as [v|] eqn:Ed; [|now left].
      right. exists k, (vs ++ [v]). split; [reflexivity|]. right.
      assert (Hsu : storable u) by (rewrite Forall_forall in Hst; apply Hst; now apply nth_error_In in Hu).
      assert (Hj3 : j < 3) by (apply ser_row_inv in Er as (? & _ & ->); exact Hj).
      destruct (cut_row_loads show read u row j x v (proj1 (proj2 Hsu)) Er Hj3 Ed) as [t ->].
      exists u, t, vs. split; [exact Hu|]. split; [exact HS|reflexivity].
Qed.

(** What has been written after the first units *)
Theorem save_firstn show us text k : save show us = Some text -> exists p q, save show (firstn k us) = Some p /\ text = p ++ q.
Proof.
  intros H. assert (G : forall t, ser_rows show us = Some t ->
    exists p q, ser_rows show (firstn k us) = Some p /\ t = p ++ q).
  { clear. revert k. induction us as [|u us IH]; intros [|k] t E.
    - exists [], t. now split.
    - exists [], t. now split.
    - exists [], t. now split.
    - cbn [ser_rows firstn] in *. destruct (ser_row show u) as [row|]; [|discriminate].
      destruct (ser_rows show us) as [t'|] eqn:E'; [|discriminate]. injection E as <-.
      destruct (IH k t' eq_refl) as (p & q & -> & ->). exists (write_record row ++ p), q. split; [reflexivity|].
      apply app_assoc. }
  destruct us as [|u us].
  - exists [], text. split; [destruct k; reflexivity|reflexivity].
  - destruct k as [|k]; [exists [], text; now split|].
    unfold save in H. destruct (ser_rows show (u :: us)) as [t|] eqn:E; [|discriminate]. cbn [option_map] in H. injection H as <-.
    destruct (G t eq_refl) as (p & q & Ep & ->). exists (write_record [file_key; max_rss_key; time_key] ++ p), q.
    split; [|rewrite <- app_assoc; reflexivity]. change (firstn (S k) (u :: us)) with (u :: firstn k us) in *. unfold save.
    rewrite Ep. reflexivity.
Qed.

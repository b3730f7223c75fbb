(** * The non-interactive report: C71.  See Stdio_Spec.v for the vocabulary. *)
From Coq Require Import String QArith.
From Verif Require Import Base Tree_Model Tree_Spec UI_Model UI_Spec UI_Properties
  Stdio_Model Stdio_Spec Stdio_Proofs2 Stdio_Proofs3.
Local Open Scope nat_scope.
Local Open Scope bool_scope.
Local Open Scope list_scope.
Local Notation "' s" := (of_string s) (at level 0, s at level 0).

(** With at least three columns, a trace that took time and has one root activity is reported
    in full: metadata, breakdown by type, flat profile, hierarchical profile. *)
Theorem C71_report :
  forall w graphemes rfc3339 debug_str round2 two_decimals sort_desc,
  widths w -> splits graphemes -> rounds round2 -> sorts sort_desc ->
  (forall us, ~ In newline (rfc3339 us)) -> (forall s, ~ In newline (debug_str s)) ->
  forall tr xs terminal_width cols self_percent hier_percent root total,
  reportable w tr xs -> 3 <= columns terminal_width cols ->
  root_activities (tr_tree tr) = Ret [root] -> duration (tr_tree tr) root = Ret total ->
  (0 < total)%Z ->
  exists out tree,
    first_part w graphemes rfc3339 debug_str two_decimals tr xs total self_percent
      (columns terminal_width cols) out /\
    hierarchy w graphemes two_decimals (tr_tree tr) total hier_percent (columns terminal_width cols) root tree /\
    run w graphemes rfc3339 debug_str round2 two_decimals sort_desc terminal_width
      (mk_cli (Some (Ret (inr tr))) (Fin self_percent) (Fin hier_percent) cols)
    = (out ++ [Stdout (concat (map (fun l => l ++ [newline]) (render_tree tree)))], Ret tt).
Proof.
  intros w gr rf db r2 td sd Hw Hg Hr Hs H1 H2 tr xs tw cols p q root total Hrp Hm Hroot Hd Hpos.
  destruct (run_ok w gr rf db r2 td sd Hw Hg Hr Hs H1 H2 tr xs tw cols p q [root] total Hrp Hm Hroot)
    as (out & Hout & tree & Htree & E); [cbn [osum]; rewrite Hd; cbn [obind]; f_equal; lia|exact Hpos|].
  exists out, tree. split; [exact Hout|]. split; [exact Htree|exact E].
Qed.
Print Assumptions C71_report.

(** With several root activities, the program panics after the flat profile. *)
Theorem C71_several_roots_panic :
  forall w graphemes rfc3339 debug_str round2 two_decimals sort_desc,
  widths w -> splits graphemes -> rounds round2 -> sorts sort_desc ->
  (forall us, ~ In newline (rfc3339 us)) -> (forall s, ~ In newline (debug_str s)) ->
  forall tr xs terminal_width cols self_percent hier_percent roots total,
  reportable w tr xs -> 3 <= columns terminal_width cols ->
  root_activities (tr_tree tr) = Ret roots -> 2 <= length roots ->
  osum (duration (tr_tree tr)) roots = Ret total -> (0 < total)%Z ->
  exists out,
    first_part w graphemes rfc3339 debug_str two_decimals tr xs total self_percent
      (columns terminal_width cols) out /\
    run w graphemes rfc3339 debug_str round2 two_decimals sort_desc terminal_width
      (mk_cli (Some (Ret (inr tr))) (Fin self_percent) (Fin hier_percent) cols) = (out, Panic).
Proof.
  intros w gr rf db r2 td sd Hw Hg Hr Hs H1 H2 tr xs tw cols p q roots total Hrp Hm Hroot Hl Hd Hpos.
  destruct (run_ok w gr rf db r2 td sd Hw Hg Hr Hs H1 H2 tr xs tw cols p q roots total Hrp Hm Hroot Hd Hpos)
    as (out & Hout & E).
  exists out. split; [exact Hout|]. destruct roots as [|r [|r' roots]]; simpl in Hl; [lia|lia|exact E].
Qed.
Print Assumptions C71_several_roots_panic.

(** The activity lines of both profiles fit (only the last line of the flat profile may not). *)
Theorem C71_profile_lines_fit :
  forall w graphemes two_decimals, widths w ->
  (forall activities total p max ls, 3 <= max -> flat_section w graphemes two_decimals activities total p max ls ->
     exists texts last, ls = texts ++ last /\ length last <= 1 /\ Forall (fun l => w l <= max) texts) /\
  (forall t total p max id tree, 1 <= max -> hierarchy w graphemes two_decimals t total p max id tree ->
     Forall (fun l => w l <= max) (render_tree tree)).
Proof.
  intros w gr td Hw. split.
  - exact (flat_lines_fit w gr td Hw).
  - intros t. exact (hierarchy_lines_fit w gr td Hw t).
Qed.
Print Assumptions C71_profile_lines_fit.

(** Nothing goes to the standard output if there is no trace to report. *)
Theorem C71_no_trace_no_output :
  forall w graphemes rfc3339 debug_str round2 two_decimals sort_desc terminal_width args,
  (forall tr, c_input args <> Some (Ret (inr tr))) ->
  Forall (fun l => exists s, l = Stderr s)
    (fst (run w graphemes rfc3339 debug_str round2 two_decimals sort_desc terminal_width args)).
Proof. exact run_quiet. Qed.
Print Assumptions C71_no_trace_no_output.

(** Without a trace to report, the user is told why, on the standard error, and nothing else happens. *)
Theorem C71_failures_are_explained :
  forall w graphemes rfc3339 debug_str round2 two_decimals sort_desc terminal_width self hier cols,
  let report input :=
    run w graphemes rfc3339 debug_str round2 two_decimals sort_desc terminal_width (mk_cli input self hier cols) in
  report None =
    ([Stderr (' "Full-build profiling requires user interaction, so it is not supported by the non-interactive stdio user interface."
              ++ [10%N] ++
              ' "Please switch to the interactive textual user interface or re-run me on an input file emitted by clang++ -ftime-trace.")],
     Ret tt) /\
  (forall message, report (Some (Ret (inl message))) =
     ([Stderr ' "Processing input data..."; Stderr (' "Failed to process input: " ++ message)], Ret tt)).
Proof. intros. split; intros; reflexivity. Qed.
Print Assumptions C71_failures_are_explained.

(** ** Examples and refutations *)
Definition demo_two (n : number) : str :=
  match n with
  | NaN => ' "NaN"
  | MInf => ' "-inf"
  | PInf => ' "inf"
  | Fin q => fixed2 (half_up (Qnum q) (Zpos (Qden q)))
  end.
Definition demo_run : option nat -> cli -> prog unit :=
  run demo_w demo_gr (fun _ => []) demo_debug half_up demo_two isort.

Definition act (name : str) (arg : option argument) : activity := mk_activity name None (Ret arg).
Definition demo_report_stats : list (stat activity) :=
  [mk_stat (act ' "Frontend" (Some ANothing)) 0 300; mk_stat (act ' "RunPass" (Some (AString ' "inline"))) 310 50;
   mk_stat (act ' "Backend" (Some ANothing)) 300 600; mk_stat (act ' "Idle" (Some ANothing)) 950 1;
   mk_stat (act ' "ExecuteCompiler" (Some ANothing)) 0 1000]%Z.
Definition tree_from (xs : list (stat activity)) : tree activity :=
  match build (snd (insert_all b_new xs)) with Ret t => t | Panic => mk_tree [] [] 0 end.
Definition demo_of (xs : list (stat activity)) : trace :=
  mk_trace (tree_from xs) ' "clang" (Some 7%Z) None None.
Definition demo_cli (xs : list (stat activity)) (cols : nat) : cli :=
  mk_cli (Some (Ret (inr (demo_of xs)))) (Fin 5) (Fin 10) cols.

Lemma demo_reportable xs :
  tree_of xs (tree_from xs) ->
  Forall (fun s => (exists arg, a_parse (s_act s) = Ret (Some arg) /\ arg_ok arg /\ cpp_fits demo_w arg)
                   /\ 1 <= demo_w (a_name (s_act s)) /\ (0 <= s_dur s)%Z) xs ->
  reportable demo_w (demo_of xs) xs.
Proof.
  intros Ht H. constructor; try easy.
  - eapply Forall_impl; [|exact H]. intros s ((arg & E & H1 & H2) & H3 & _). split; [exact H3|].
    exists arg. split; [left; exact E|easy].
  - eapply Forall_impl; [|exact H]. intros s (_ & _ & H3). exact H3.
  - simpl. intros [X|[X|[X|[X|[X|[]]]]]]; discriminate.
Qed.

Example C71_witness :
  reportable demo_w (demo_of demo_report_stats) demo_report_stats /\
  root_activities (tree_from demo_report_stats) = Ret [4] /\
  columns (Some 30) 80 = 30 /\
  demo_run (Some 30) (demo_cli demo_report_stats 80) =
  ([Stderr ' "Processing input data...";
    Stdout (newline :: ' "Data from clang, pid 7.");
    Stdout (newline :: ' "Self-duration breakdown by activity type:");
    Stdout (' "- Backend [550" ++ [181%N] ++ ' "s, 55.00%]");
    Stdout (' "- Frontend [300" ++ [181%N] ++ ' "s, 30.00%]");
    Stdout (' "- ExecuteCompiler [99" ++ [181%N] ++ ' "s, 9.90%]");
    Stdout (' "- RunPass [50" ++ [181%N] ++ ' "s, 5.00%]");
    Stdout ' "- ... and 1 other activity types below 5.00% ...";
    Stdout (newline :: ' "Hottest activities by self-duration:");
    Stdout (' "- Backend [550" ++ [181%N] ++ ' "s, 55.00%]");
    Stdout (' "- Frontend [300" ++ [181%N] ++ ' "s, 30.00%]");
    Stdout ' "- ExecuteCompiler";
    Stdout (' "- RunPass(in" ++ [ellipsis] ++ ' "ne) [50" ++ [181%N] ++ ' "s, 5.00%]");
    Stdout ' "- ... and 1 other activities below 5.00% ...";
    Stdout (newline :: ' "Hierarchical profile:");
    Stdout (concat (map (fun l => l ++ [newline])
      [' "ExecuteCompiler";
       [middle_item; item_indent] ++ ' "Backend [600" ++ [181%N] ++ ' "s, 60.00%]";
       [middle_skip; space; last_item; item_indent; ellipsis] ++ ' "1 callee(s) below 10.00%" ++ [ellipsis];
       [middle_item; item_indent] ++ ' "Frontend [300" ++ [181%N] ++ ' "s, 30.00%]";
       [last_item; item_indent] ++ [ellipsis] ++ ' "1 callee(s) below 10.00%" ++ [ellipsis]]))],
   Ret tt).
Proof.
  split; [|split; [|split]].
  - apply demo_reportable; [eexists; split; vm_compute; reflexivity|].
    repeat (apply Forall_cons; [split; [eexists; split; [reflexivity|split; [|exact I]]|split; [vm_compute; lia|vm_compute; discriminate]]; try exact I|]).
    + simpl. intuition discriminate.
    + apply Forall_nil.
  - vm_compute; reflexivity.
  - vm_compute; reflexivity.
  - vm_compute; reflexivity.
Qed.

(** A trace that loads cannot always be reported: here two root activities. *)
Definition two_roots : list (stat activity) :=
  [mk_stat (act ' "A" (Some ANothing)) 0 10; mk_stat (act ' "B" (Some ANothing)) 10 10]%Z.
Theorem C71_every_trace_refuted :
  ~ (forall w graphemes rfc3339 debug_str round2 two_decimals sort_desc,
     widths w -> splits graphemes -> rounds round2 -> sorts sort_desc ->
     forall tr xs terminal_width cols p q, reportable w tr xs -> 3 <= columns terminal_width cols ->
     snd (run w graphemes rfc3339 debug_str round2 two_decimals sort_desc terminal_width
            (mk_cli (Some (Ret (inr tr))) (Fin p) (Fin q) cols)) = Ret tt).
Proof.
  intros H. destruct widths_witness as (H1 & _ & H3).
  assert (E : snd (demo_run None (demo_cli two_roots 80)) = Ret tt).
  { apply (H demo_w demo_gr (fun _ => []) demo_debug half_up demo_two isort H1 H3
             (proj1 C39_witness) sorts_witness (demo_of two_roots) two_roots None 80); [|vm_compute; lia].
    apply demo_reportable; [eexists; split; vm_compute; reflexivity|].
    repeat (apply Forall_cons; [split; [eexists; split; [reflexivity|split; exact I]|split; [vm_compute; lia|vm_compute; discriminate]]|]).
    apply Forall_nil. }
  vm_compute in E. discriminate.
Qed.
Print Assumptions C71_every_trace_refuted.

(** Two columns are not enough: the report panics on the first hot activity. *)
Definition one_root : list (stat activity) := [mk_stat (act ' "ExecuteCompiler" (Some ANothing)) 0 1000]%Z.
Lemma one_root_reportable : reportable demo_w (demo_of one_root) one_root.
Proof.
  apply demo_reportable; [eexists; split; vm_compute; reflexivity|].
  repeat (apply Forall_cons; [split; [eexists; split; [reflexivity|split; exact I]|split; [vm_compute; lia|vm_compute; discriminate]]|]).
  apply Forall_nil.
Qed.
Theorem C71_any_width_refuted :
  ~ (forall w graphemes rfc3339 debug_str round2 two_decimals sort_desc,
     widths w -> splits graphemes -> rounds round2 -> sorts sort_desc ->
     forall tr xs terminal_width cols p q root, reportable w tr xs ->
     root_activities (tr_tree tr) = Ret [root] -> 1 <= columns terminal_width cols ->
     snd (run w graphemes rfc3339 debug_str round2 two_decimals sort_desc terminal_width
            (mk_cli (Some (Ret (inr tr))) (Fin p) (Fin q) cols)) = Ret tt).
Proof.
  intros H. destruct widths_witness as (H1 & _ & H3).
  assert (E : snd (demo_run None (demo_cli one_root 2)) = Ret tt).
  { apply (H demo_w demo_gr (fun _ => []) demo_debug half_up demo_two isort H1 H3
             (proj1 C39_witness) sorts_witness (demo_of one_root) one_root None 2 _ _ 0);
      [exact one_root_reportable|vm_compute; reflexivity|vm_compute; lia]. }
  vm_compute in E. discriminate.
Qed.
Print Assumptions C71_any_width_refuted.

(** The column budget only applies to the metadata and to the activities: the breakdown by
    type ignores it. *)
Theorem C71_whole_report_fits_refuted :
  ~ (forall w graphemes rfc3339 debug_str round2 two_decimals sort_desc,
     widths w -> splits graphemes -> rounds round2 -> sorts sort_desc ->
     forall tr xs terminal_width cols p q s, reportable w tr xs -> 3 <= columns terminal_width cols ->
     In (Stdout s) (fst (run w graphemes rfc3339 debug_str round2 two_decimals sort_desc terminal_width
            (mk_cli (Some (Ret (inr tr))) (Fin p) (Fin q) cols))) ->
     Forall (fun l => w l <= columns terminal_width cols) (lines s)).
Proof.
  intros H. destruct widths_witness as (H1 & _ & H3).
  specialize (H demo_w demo_gr (fun _ => []) demo_debug half_up demo_two isort H1 H3
             (proj1 C39_witness) sorts_witness (demo_of one_root) one_root None 30 5%Q 10%Q
             (' "- ExecuteCompiler [1.00ms, 100.00%]") one_root_reportable ltac:(vm_compute; lia)).
  assert (E : In (Stdout ' "- ExecuteCompiler [1.00ms, 100.00%]") (fst (demo_run None (demo_cli one_root 30)))).
  { vm_compute. do 3 right. left. reflexivity. }
  specialize (H E). vm_compute in H. inversion H as [|? ? X _]; subst. lia.
Qed.
Print Assumptions C71_whole_report_fits_refuted.

(** When the whole compilation took less than the resolution of the clock, the breakdown by
    type hides nothing and the profiles hide everything: what is hidden does not take less than
    the threshold, there is no percentage. *)
Definition no_time : list (stat activity) := [mk_stat (act ' "ExecuteCompiler" (Some ANothing)) 0 0]%Z.
Theorem C71_hidden_below_threshold_refuted :
  exists xs, reportable demo_w (demo_of xs) xs /\ length xs = 1 /\
    let out := fst (demo_run None (demo_cli xs 80)) in
    In (Stdout (' "- ExecuteCompiler [0" ++ [181%N] ++ ' "s, NaN%]")) out /\
    In (Stdout ' "- ... and 1 other activities below 5.00% ...") out.
Proof.
  exists no_time. split; [|split; [reflexivity|]].
  - apply demo_reportable; [eexists; split; vm_compute; reflexivity|].
    repeat (apply Forall_cons; [split; [eexists; split; [reflexivity|split; exact I]|split; [vm_compute; lia|vm_compute; discriminate]]|]).
    apply Forall_nil.
  - split; vm_compute; [do 3 right; left; reflexivity|do 5 right; left; reflexivity].
Qed.
Print Assumptions C71_hidden_below_threshold_refuted.

(** So it goes with every trace without time, whatever the threshold: the flat profile shows
    nothing, and counts every activity as below the threshold, be it 0%. *)
Theorem C71_no_time_no_hot_activity :
  forall w graphemes round2 two_decimals sort_desc, sorts sort_desc ->
  forall (t : tree activity) threshold max_cols,
  Forall (fun n => n_self n = 0%Z) (t_acts t) -> t_acts t <> [] ->
  print_flat_profile w graphemes round2 two_decimals sort_desc t 0 threshold max_cols =
  ([Stdout (newline :: ' "Hottest activities by self-duration:");
    Stdout (' "- ... and " ++ digits (Z.of_nat (length (t_acts t))) ++ ' " other activities below " ++
            two_decimals (times100 threshold) ++ ' "% ...")], Ret tt).
Proof.
  intros w gr r2 td sd Hs t threshold max H Hne. unfold print_flat_profile.
  set (items := combine (seq 0 (length (t_acts t))) (map n_self (t_acts t))).
  assert (Hl : length items = length (t_acts t)).
  { unfold items. rewrite combine_length, seq_length, map_length. apply Nat.min_id. }
  assert (Hz : forall e, In e items -> snd e = 0%Z).
  { intros [i d] He. apply in_combine_r in He. apply in_map_iff in He as (n & <- & Hn).
    rewrite Forall_forall in H. exact (H n Hn). }
  assert (Hh : hottest sd items snd 0 threshold = []).
  { unfold hottest. replace (filter _ items) with (@nil (nat * Z)).
    - destruct (Hs _ (fun a : nat * Z => order_key 0 (snd a)) []) as [Hp _]. now apply Permutation.Permutation_nil.
    - clearbody items. clear Hl. induction items as [|e items IH]; [reflexivity|]. cbn [filter].
      rewrite (Hz e (or_introl eq_refl)). cbn [relative Z.eqb num_ge]. apply IH. intros e' He. apply Hz. now right. }
  rewrite Hh. cbn [map flat_lines length]. rewrite Hl, Nat.sub_0_r.
  destruct (t_acts t) as [|n l]; [now elim Hne|]. reflexivity.
Qed.
Print Assumptions C71_no_time_no_hot_activity.
Example C71_no_time_witness :
  Forall (fun n => n_self n = 0%Z) (t_acts (tr_tree (demo_of no_time))) /\ length (t_acts (tr_tree (demo_of no_time))) = 1.
Proof. split; [|vm_compute; reflexivity]. vm_compute. repeat (apply Forall_cons; [reflexivity|]). apply Forall_nil. Qed.

(** Thresholds that are not numbers: -inf% hides nothing, inf% and NaN% hide everything that
    took a share of some time; and what took time out of none reaches all but NaN%. *)
Theorem C71_odd_thresholds :
  forall sort_desc, sorts sort_desc ->
  forall A (items : list A) (dur : A -> Z) total, (0 < total)%Z ->
  Permutation.Permutation items (hottest sort_desc items dur total (over100 MInf)) /\
  hottest sort_desc items dur total (over100 PInf) = [] /\
  hottest sort_desc items dur total (over100 NaN) = [] /\
  ((forall a, In a items -> (0 < dur a)%Z) -> forall threshold, threshold <> NaN ->
   Permutation.Permutation items (hottest sort_desc items dur 0 (over100 threshold))).
Proof.
  intros sd Hs A items dur total Ht.
  assert (R : forall d, exists q, relative total d = Fin q).
  { intros d. unfold relative. destruct (Z.eqb_spec total 0); [lia|eauto]. }
  assert (N : forall k, sd A k [] = []).
  { intros k. destruct (Hs A k []) as [Hp _]. now apply Permutation.Permutation_nil. }
  assert (F : forall f : A -> bool, (forall a, In a items -> f a = false) -> filter f items = []).
  { intros f H. induction items as [|a l IH]; [reflexivity|]. cbn [filter]. rewrite (H a (or_introl eq_refl)).
    apply IH. intros b Hb. apply H. now right. }
  assert (T : forall f : A -> bool, (forall a, In a items -> f a = true) -> filter f items = items).
  { intros f H. clear F. induction items as [|a l IH]; [reflexivity|]. cbn [filter]. rewrite (H a (or_introl eq_refl)).
    f_equal. apply IH. intros b Hb. apply H. now right. }
  unfold hottest, over100. split; [|split; [|split]].
  - rewrite T; [apply Hs|]. intros a _. destruct (R (dur a)) as [q ->]. reflexivity.
  - rewrite F; [apply N|]. intros a _. destruct (R (dur a)) as [q ->]. reflexivity.
  - rewrite F; [apply N|]. intros a _. destruct (R (dur a)) as [q ->]. reflexivity.
  - intros Hpos threshold Hn. rewrite T; [apply Hs|]. intros a Ha. specialize (Hpos a Ha). unfold relative.
    cbn [Z.eqb]. destruct (Z.eqb_spec (dur a) 0); [lia|]. destruct (Z.ltb_spec 0 (dur a)); [|lia].
    destruct threshold; try reflexivity. now elim Hn.
Qed.
Print Assumptions C71_odd_thresholds.

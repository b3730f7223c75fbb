(** Proofs about the non-interactive report: the whole run. *)
From Coq Require Import String QArith Permutation.
From Verif Require Import Base Tree_Model Tree_Spec Tree_Proofs Tree_Proofs2 UI_Model UI_Spec
  UI_Proofs UI_Proofs2 UI_Proofs3 UI_Proofs4 Stdio_Model Stdio_Spec Stdio_Proofs Stdio_Proofs2.
Local Open Scope nat_scope.
Local Open Scope bool_scope.
Local Open Scope list_scope.
Local Notation "' s" := (of_string s) (at level 0, s at level 0).

Section Run.
  Variable w : str -> nat.
  Variable graphemes : str -> list str.
  Variable rfc3339 : Z -> str.
  Variable debug_str : str -> str.
  Variable round2 : Z -> Z -> Z.
  Variable two_decimals : number -> str.
  Variable sort_desc : forall A : Type, (A -> Z) -> list A -> list A.
  Context (Hw : widths w) (Hg : splits graphemes) (Hr : rounds round2) (Hs : sorts sort_desc).
  Context (H3339 : forall us, ~ In newline (rfc3339 us)) (Hdebug : forall s, ~ In newline (debug_str s)).

  Lemma with_self_acts xs t : tree_of xs t ->
    with_self t xs (map (fun n => (s_act (n_stat n), n_self n)) (t_acts t)).
  Proof.
    intros Ht. unfold with_self. rewrite <- (acts_length xs t Ht).
    set (l := t_acts t).
    assert (G : forall r k, (forall i, nth_error r i = nth_error l (k + i)) ->
      Forall2 (fun i (e : activity * Z) => (exists s, reported xs i s /\ s_act s = fst e) /\ self_duration t i = Ret (snd e))
        (seq k (length r)) (map (fun n => (s_act (n_stat n), n_self n)) r)).
    { induction r as [|n r IH]; intros k H; simpl; [constructor|].
      pose proof (H 0) as H0. rewrite Nat.add_0_r in H0. simpl in H0. symmetry in H0. constructor.
      - cbn [fst snd]. split.
        + exists (n_stat n). split; [|reflexivity]. unfold reported.
          rewrite <- (acts_stats xs t Ht). apply map_nth_error. exact H0.
        + unfold self_duration, activity_trace. fold l. rewrite H0. reflexivity.
      - apply IH. intros i. rewrite Nat.add_succ_comm. exact (H (S i)). }
    apply G. reflexivity.
  Qed.

  Lemma sum_osum t ids : sum_durations t ids = osum (duration t) ids.
  Proof. induction ids as [|i r IH]; [reflexivity|]. cbn [sum_durations osum]. rewrite IH. reflexivity. Qed.

  Lemma columns_eq tw asked :
    match tw with Some width => Nat.min width asked | None => asked end = columns tw asked.
  Proof. destruct tw as [v|]; [|reflexivity]. unfold columns. destruct (Nat.leb_spec v asked); lia. Qed.

  Lemma run_ok tr xs tw cols p q roots total :
    reportable w tr xs -> 3 <= columns tw cols ->
    root_activities (tr_tree tr) = Ret roots -> osum (duration (tr_tree tr)) roots = Ret total ->
    (0 < total)%Z ->
    exists out,
      first_part w graphemes rfc3339 debug_str two_decimals tr xs total p (columns tw cols) out /\
      match roots with
      | [root] => exists tree, hierarchy w graphemes two_decimals (tr_tree tr) total q (columns tw cols) root tree /\
          run w graphemes rfc3339 debug_str round2 two_decimals sort_desc tw
            (mk_cli (Some (Ret (inr tr))) (Fin p) (Fin q) cols)
          = (out ++ [Stdout (concat (map (fun l => l ++ [newline]) (render_tree tree)))], Ret tt)
      | _ =>
          run w graphemes rfc3339 debug_str round2 two_decimals sort_desc tw
            (mk_cli (Some (Ret (inr tr))) (Fin p) (Fin q) cols) = (out, Panic)
      end.
  Proof.
    intros [Ht Hd Hn Hname Hdate] Hm Hroots Htot Hpos.
    set (max := columns tw cols) in *.
    destruct (metadata_ok w rfc3339 debug_str Hw H3339 Hdebug (tr_process tr) (tr_pid tr) (tr_thread tr)
                (tr_bot tr) max ltac:(lia) Hname Hdate) as (meta & Emeta & _).
    assert (Hself : Forall (fun n => (0 <= n_self n)%Z) (t_acts (tr_tree tr))).
    { apply Forall_forall. intros n Hin. apply In_nth_error in Hin. destruct Hin as (i & E).
      apply (node_facts w xs (tr_tree tr) Ht Hd Hn i n E). }
    destruct (type_profile_ok round2 two_decimals sort_desc Hr Hs (tr_tree tr) total p Hpos Hself)
      as (types & Htypes & Etypes).
    destruct (flat_ok w graphemes round2 two_decimals sort_desc Hw Hg Hr Hs xs (tr_tree tr) Ht Hd Hn
                total p max Hpos Hm) as (flat & Hflat & Eflat).
    set (out := Stderr ' "Processing input data..." :: map Stdout (
            [newline :: meta] ++
            [newline :: ' "Self-duration breakdown by activity type:"] ++ types ++
            [newline :: ' "Hottest activities by self-duration:"] ++ flat ++
            [newline :: ' "Hierarchical profile:"])).
    exists out. split.
    { exists meta, (map (fun n => (s_act (n_stat n), n_self n)) (t_acts (tr_tree tr))), types, flat.
      split; [exact Emeta|]. split; [apply with_self_acts; exact Ht|].
      split; [rewrite map_map; exact Htypes|]. split; [exact Hflat|reflexivity]. }
    assert (G : forall rest r,
      bind (lift (root_activities (tr_tree tr))) (fun roots =>
        match roots with
        | [root] =>
            bind (lift (activity_tree w graphemes round2 two_decimals sort_desc (S max) (tr_tree tr) total
                          (over100 (Fin q)) root max)) (fun tree => println (tree_text tree))
        | _ => lift Panic
        end) = (rest, r) ->
      run w graphemes rfc3339 debug_str round2 two_decimals sort_desc tw
        (mk_cli (Some (Ret (inr tr))) (Fin p) (Fin q) cols) = (out ++ rest, r)).
    { intros rest r E. unfold run. cbn [c_input c_self c_hier c_cols]. rewrite columns_eq. fold max.
      unfold eprintln. erewrite bind_out; [|
        rewrite bind_lift, Emeta, bind_lift; unfold println at 1; apply bind_out;
        rewrite Hroots; cbn [obind]; rewrite sum_osum, Htot, bind_lift, Etypes; apply bind_out;
        rewrite Eflat; apply bind_out; unfold print_hierarchical_profile; unfold println at 1;
        apply bind_out; exact E].
      unfold out. cbn [map app]. rewrite !map_app. cbn [map app]. rewrite !map_app. cbn [map app].
      rewrite <- !app_assoc. cbn [app]. rewrite <- !app_assoc. reflexivity. }
    rewrite Hroots, bind_lift in G.
    destruct roots as [|root [|r2 roots]].
    - rewrite (G [] Panic eq_refl), app_nil_r. reflexivity.
    - assert (Hlt : root < length xs).
      { destruct (roots_iff _ xs (tr_tree tr) Ht) as (l & E & H). rewrite Hroots in E. injection E as <-.
        apply H. left. reflexivity. }
      destruct (node_at xs (tr_tree tr) Ht root Hlt) as (n & En).
      destruct (activity_tree_ok w graphemes round2 two_decimals sort_desc Hw Hg Hr Hs xs (tr_tree tr) Ht Hd Hn
                  total q Hpos (S max) root n max ltac:(lia) ltac:(lia) En) as (tree & Etree & Htree).
      exists tree. split; [exact Htree|]. apply G. rewrite Etree, bind_lift. reflexivity.
    - rewrite (G [] Panic eq_refl), app_nil_r. reflexivity.
  Qed.

  Lemma run_quiet tw args :
    (forall tr, c_input args <> Some (Ret (inr tr))) ->
    Forall (fun l => exists s, l = Stderr s)
      (fst (run w graphemes rfc3339 debug_str round2 two_decimals sort_desc tw args)).
  Proof.
    intros H. unfold run. destruct (c_input args) as [[[msg|tr]|]|] eqn:E.
    - rewrite bind_lift. cbn. repeat constructor; eexists; reflexivity.
    - exfalso. apply (H tr). reflexivity.
    - cbn. repeat constructor; eexists; reflexivity.
    - cbn [fst eprintln]. repeat constructor. eexists; reflexivity.
  Qed.

  Lemma flat_lines_fit activities total p max ls : 3 <= max ->
    flat_section w graphemes two_decimals activities total p max ls ->
    exists texts last, ls = texts ++ last /\ length last <= 1 /\ Forall (fun l => w l <= max) texts.
  Proof.
    intros Hm (shown & hidden & texts & last & _ & _ & _ & _ & T & O & ->).
    exists texts, last. split; [reflexivity|]. split.
    - destruct O as [[_ ->]|(_ & q & _ & ->)]; simpl; lia.
    - clear -T Hw Hm. induction T as [|e text l1 l2 (desc & Hd & ->) _ IH]; [constructor|].
      constructor; [|exact IH]. apply activity_text_fits in Hd; [|exact Hw].
      set (c1 := @cons chr 45%N (@nil chr)). set (c2 := @cons chr 32%N (@nil chr)).
      change (' "- " ++ desc) with (c1 ++ c2 ++ desc).
      pose proof (w_app w Hw c1 (c2 ++ desc)) as W1. pose proof (w_app w Hw c2 desc) as W2.
      assert (E1 : w c1 = 1) by (apply (w_one w Hw 45%N); left; lia).
      assert (E2 : w c2 = 1) by (apply (w_one w Hw 32%N); left; lia). lia.
  Qed.
End Run.

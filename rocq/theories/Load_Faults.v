(** What the errors about complete events say about them. *)
From Coq Require Import String Permutation.
From Verif Require Import Base Asylum_Model Tree_Model Load_Model Load_Spec Load_Proofs.
Local Open Scope list_scope.

Lemma in_remove_key {V} k (l : list (str * V)) k' v :
  In (k', v) (remove_key k l) <-> In (k', v) l /\ k' <> k.
Proof.
  unfold remove_key. rewrite filter_In. cbn [fst]. destruct (str_eqb_spec k' k) as [->|Hn]; cbn; intuition congruence.
Qed.
Lemma nodup_sub {V} (f : str * V -> bool) l : NoDup (map fst l) -> NoDup (map fst (filter f l)).
Proof.
  induction l as [|[k v] l IH]; cbn; intros H; [constructor|]. inversion H as [|? ? Hn H']; subst.
  destruct (f (k, v)); cbn; [|auto]. constructor; [|auto].
  intros Hin. apply Hn. apply in_map_iff in Hin. destruct Hin as ([k2 v2] & E & Hin). cbn in E. subst k2.
  apply filter_In in Hin. apply in_map_iff. exists (k, v2). tauto.
Qed.
Lemma nodup_app_r {V} (a b : list V) : NoDup (a ++ b) -> NoDup b.
Proof. induction a as [|x a IH]; cbn; intros H; [exact H|]. inversion H; auto. Qed.
Lemma nodup_rot {V} (l : list (str * V)) kv : distinct_keys (kv :: l) -> distinct_keys (l ++ [kv]).
Proof.
  unfold distinct_keys. intros H. eapply Permutation_NoDup; [|exact H].
  apply Permutation_map. apply Permutation_cons_append.
Qed.

Notation is_text := (fun (_ : str) (v : json) => exists s, v = JStr s).
Lemma empty_args_fault a e : distinct_keys (match a with Some a => a | None => [] end) ->
  parse_empty_args a = Err e ->
  faulty_arguments is_text [] (match a with Some a => a | None => [] end) e.
Proof.
  destruct a as [[|kv l]|]; cbn [parse_empty_args]; try discriminate.
  intros Hd [= <-]. cbn [faulty_arguments]. split; [discriminate|]. split; [exact Hd|].
  intros k v. cbn. tauto.
Qed.
Lemma detail_arg_fault a e : distinct_keys (match a with Some a => a | None => [] end) ->
  parse_detail_arg a = Err e ->
  faulty_arguments is_text [of_string "detail"] (match a with Some a => a | None => [] end) e.
Proof.
  assert (Hun : forall (pre : args) rest kv, distinct_keys (pre ++ kv :: rest) ->
            fst kv <> k_detail -> (forall k v, In (k, v) pre -> k = k_detail) ->
            faulty_arguments is_text [k_detail] (pre ++ kv :: rest) (UnexpectedKeys (bad_args rest kv))).
  { intros pre rest [k0 v0] Hd Hk Hpre. cbn [faulty_arguments]. cbn [fst] in Hk.
    assert (Hin : forall k v, In (k, v) (bad_args rest (k0, v0)) <-> In (k, v) (pre ++ (k0, v0) :: rest) /\ ~ In k [k_detail]).
    { intros k v. unfold bad_args. rewrite in_remove_key, !in_app_iff. cbn [In]. split.
      - intros [[H|[H|[]]] Hn]; split; auto; intros [E|[]]; congruence.
      - intros [[H|[H|H]] Hn]; (split; [|intros ->; apply Hn; auto]); auto.
        apply Hpre in H. subst. exfalso. apply Hn. auto. }
    split; [|split; [|exact Hin]].
    - intros E. assert (In (k0, v0) (bad_args rest (k0, v0))) as H; [|rewrite E in H; destruct H].
      apply Hin. split; [apply in_or_app; right; left; reflexivity|]. intros [E'|[]]. congruence.
    - unfold bad_args. apply nodup_sub. apply nodup_rot.
      unfold distinct_keys in *. rewrite map_app in Hd. apply nodup_app_r in Hd. exact Hd. }
  change (of_string "detail") with k_detail.
  destruct a as [[|[k v] rest]|]; cbn [parse_detail_arg]; intros Hd.
  - intros [= <-]. split; [left; reflexivity|]. intros v [].
  - destruct (str_eqb_spec k k_detail) as [->|Hne].
    + assert (Hv : (exists s, v = JStr s) \/ ~ exists s, v = JStr s).
      { destruct v; eauto; right; intros [? ?]; discriminate. }
      destruct Hv as [[s ->]|Hv].
      * destruct rest as [|kv rest]; [discriminate|]. intros [= <-].
        apply (Hun [(k_detail, JStr s)]); [exact Hd| |].
        -- inversion Hd as [|? ? Hn Hd']; subst. intros E. apply Hn. rewrite <- E. left. reflexivity.
        -- intros k v [[= <- <-]|[]]. reflexivity.
      * intros H. assert (e = UnexpectedValue k_detail v) as -> by (destruct v; try congruence; exfalso; apply Hv; eauto).
        cbn [faulty_arguments]. split; [left; reflexivity|]. split; [left; reflexivity|]. exact Hv.
    + intros [= <-]. apply (Hun []); [exact Hd|exact Hne|intros ? ? []].
  - intros [= <-]. split; [left; reflexivity|]. intros v [].
Qed.

Section Load.
  Variables up al : chr -> bool.
  Lemma activity_parse_err name a e : distinct_keys (match a with Some a => a | None => [] end) ->
    activity_parse up al name a = Err e ->
    exists id err expected, e = ABadArguments id err /\ names id name /\
      (In name (known_names TyNothing) /\ expected = [] \/
       ~ In name (known_names TyNothing) /\ expected = [of_string "detail"]) /\
      faulty_arguments is_text expected (match a with Some a => a | None => [] end) err.
  Proof.
    intros Hd. unfold activity_parse.
    destruct (find_activity 0 name activities) as [[i ty]|] eqn:Ef.
    - pose proof Ef as Ef'. apply find_known in Ef'.
      assert (Hn : names (KnownActivity i) name) by (exists ty; exact Ef').
      assert (Hin : In (name, ty) activities) by (eapply nth_error_In; exact Ef').
      intros H.
      assert (Hgen : forall err, ty <> TyNothing -> parse_detail_arg a = Err err ->
        exists id err' expected, ABadArguments (KnownActivity i) err = ABadArguments id err' /\ names id name /\
        (In name (known_names TyNothing) /\ expected = [] \/
         ~ In name (known_names TyNothing) /\ expected = [of_string "detail"]) /\
        faulty_arguments is_text expected (match a with Some a => a | None => [] end) err').
      { intros err Hty Hp. exists (KnownActivity i), err, [of_string "detail"].
        split; [reflexivity|]. split; [exact Hn|]. split; [|apply detail_arg_fault; assumption].
        right. split; [|reflexivity]. intros Hc. apply known_names_spec in Hc. apply Hty.
        eapply known_unique; eassumption. }
      destruct ty; try (destruct (parse_detail_arg a) as [d|err|] eqn:Ep; cbn [rbind rtry] in H;
        [destruct (infer_from_detail up al d); discriminate
        |injection H as <-; apply Hgen; [discriminate|reflexivity]
        |discriminate]).
      + destruct (parse_empty_args a) as [u|err|] eqn:Ep; cbn [rbind rtry] in H; try discriminate.
        injection H as <-. exists (KnownActivity i), err, []. split; [reflexivity|]. split; [exact Hn|].
        split; [left; split; [apply known_names_spec; exact Hin|reflexivity]|].
        apply empty_args_fault; assumption.
      + destruct (parse_detail_arg a) as [d|err|] eqn:Ep; cbn [rtry] in H; try discriminate.
        destruct err as [m|k|k v]; cbn [rtry] in H.
        * injection H as <-. apply Hgen; [discriminate|reflexivity].
        * destruct (str_eqb k k_detail); cbn [rtry] in H; [discriminate|].
          injection H as <-. apply Hgen; [discriminate|reflexivity].
        * injection H as <-. apply Hgen; [discriminate|reflexivity].
      + destruct (parse_detail_arg a) as [d|err|] eqn:Ep; cbn [rtry] in H; try discriminate.
        destruct err as [m|k|k v]; cbn [rtry] in H.
        * injection H as <-. apply Hgen; [discriminate|reflexivity].
        * destruct (str_eqb k k_detail); cbn [rtry] in H; [discriminate|].
          injection H as <-. apply Hgen; [discriminate|reflexivity].
        * injection H as <-. apply Hgen; [discriminate|reflexivity].
    - intros H.
      assert (Hgen : forall err, parse_detail_arg a = Err err ->
        exists id err' expected, ABadArguments (UnknownActivity name) err = ABadArguments id err' /\ names id name /\
        (In name (known_names TyNothing) /\ expected = [] \/
         ~ In name (known_names TyNothing) /\ expected = [of_string "detail"]) /\
        faulty_arguments is_text expected (match a with Some a => a | None => [] end) err').
      { intros err Hp. exists (UnknownActivity name), err, [of_string "detail"].
        split; [reflexivity|]. split; [|split; [|apply detail_arg_fault; assumption]].
        - split; [reflexivity|]. intros t. exact (find_activity_none _ _ _ Ef t).
        - right. split; [|reflexivity]. intros Hc. apply known_names_spec in Hc.
          exact (find_activity_none _ _ _ Ef _ Hc). }
      destruct (parse_detail_arg a) as [d|err|] eqn:Ep; cbn [rtry] in H; try discriminate.
      + destruct (infer_from_detail up al d); discriminate.
      + destruct err as [m|k|k v]; cbn [rtry] in H.
        * injection H as <-. apply Hgen; reflexivity.
        * destruct (str_eqb k k_detail); cbn [rtry] in H; [discriminate|].
          injection H as <-. apply Hgen; reflexivity.
        * injection H as <-. apply Hgen; reflexivity.
  Qed.

  Lemma activity_stat_err ev e : distinct_event ev ->
    activity_stat_parse up al ev = Err e -> activity_fault ev e.
  Proof.
    intros Hd. unfold activity_stat_parse.
    assert (Hno : ~ activity_shaped ev -> SUnexpectedInput ev = e -> activity_fault ev e).
    { intros Hs <-. split; [reflexivity|exact Hs]. }
    destruct ev as [d|d|[pid tid ts nm ct tts a stk] dur tdur es|m];
      try (intros [= <-]; apply Hno; [|reflexivity]; intros (? & ? & ? & ? & ? & ? & [=] & _)).
    destruct nm as [name|], ct, tts, stk, tdur, es;
      try (intros [= <-]; apply Hno; [|reflexivity]; intros (? & ? & ? & ? & ? & ? & [=] & _)).
    destruct ((Z.eqb pid 1 && Z.eqb tid 0) || Z.eqb tid pid)%bool eqn:E.
    - destruct (activity_parse up al name a) as [act|err|] eqn:Ea; cbn [rtry]; try discriminate.
      intros [= <-]. apply activity_parse_err in Ea.
      + destruct Ea as (id & err' & ex & -> & Hn & Hex & Hf). cbn [activity_fault]. split.
        * exists pid, tid, ts, name, a, dur. split; [reflexivity|]. apply pid_tid. exact E.
        * eexists _, dur, None, None, name, ex. split; [reflexivity|]. split; [reflexivity|].
          split; [exact Hn|]. split; [exact Hex|]. exact Hf.
      + cbn in Hd. destruct a; [exact Hd|constructor].
    - intros [= <-]. apply Hno; [|reflexivity].
      intros (? & ? & ? & ? & ? & ? & [= <- <- <- <- <- <-] & Hp). apply pid_tid in Hp. congruence.
  Qed.
End Load.

Lemma gargs_fault l : forall pre c f e, distinct_keys (pre ++ l) ->
  (forall k v, In (k, v) pre -> k = k_count \/ k = k_avg_ms) ->
  (c = None -> ~ In k_count (map fst pre)) -> (f = None -> ~ In k_avg_ms (map fst pre)) ->
  gargs_loop c f l = Err e ->
  faulty_arguments (fun k v => (k = of_string "count" /\ as_u64 v <> None) \/
                               (k = of_string "avg ms" /\ as_f64 v <> None))
    [of_string "count"; of_string "avg ms"] (pre ++ l) e.
Proof.
  change (of_string "count") with k_count. change (of_string "avg ms") with k_avg_ms.
  pose proof count_ne_avg as Hne.
  induction l as [|[k v] l IH]; intros pre c f e Hd Hpre Hc Hf; cbn [gargs_loop].
  - rewrite app_nil_r in *.
    destruct c as [c|]; [destruct f as [f|]; [discriminate|]|]; intros [= <-]; cbn [faulty_arguments].
    + split; [right; left; reflexivity|]. intros v Hin. apply Hf; [reflexivity|].
      apply in_map_iff. exists (k_avg_ms, v). auto.
    + split; [left; reflexivity|]. intros v Hin. apply Hc; [reflexivity|].
      apply in_map_iff. exists (k_count, v). auto.
  - assert (Happ : pre ++ (k, v) :: l = (pre ++ [(k, v)]) ++ l) by (rewrite <- app_assoc; reflexivity).
    destruct (str_eqb_spec k k_count) as [->|Hk1]; [|destruct (str_eqb_spec k k_avg_ms) as [->|Hk2]].
    + destruct (as_u64 v) as [n|] eqn:Ev.
      * rewrite Happ in *. apply IH; auto.
        -- intros k' v' Hin. apply in_app_or in Hin. destruct Hin as [Hin|[[= <- <-]|[]]]; eauto.
        -- discriminate.
        -- intros Hx. rewrite map_app, in_app_iff. intros [H|[H|[]]]; [now apply Hf|]. cbn in H. congruence.
      * intros [= <-]. cbn [faulty_arguments]. split; [left; reflexivity|].
        split; [apply in_or_app; right; left; reflexivity|]. intros [[_ H]|[H _]]; congruence.
    + destruct (as_f64 v) as [n|] eqn:Ev.
      * rewrite Happ in *. apply IH; auto.
        -- intros k' v' Hin. apply in_app_or in Hin. destruct Hin as [Hin|[[= <- <-]|[]]]; eauto.
        -- intros Hx. rewrite map_app, in_app_iff. intros [H|[H|[]]]; [now apply Hc|]. cbn in H. congruence.
        -- discriminate.
      * intros [= <-]. cbn [faulty_arguments]. split; [right; left; reflexivity|].
        split; [apply in_or_app; right; left; reflexivity|]. intros [[H _]|[_ H]]; congruence.
    + intros [= <-]. cbn [faulty_arguments].
      set (m := remove_key k_avg_ms (remove_key k_count (l ++ [(k, v)]))).
      assert (Hin : forall k' v', In (k', v') m <-> In (k', v') (pre ++ (k, v) :: l) /\ ~ In k' [k_count; k_avg_ms]).
      { intros k' v'. unfold m. rewrite !in_remove_key, !in_app_iff. cbn [In]. split.
        - intros [[[H|[H|[]]] H1] H2]; (split; [tauto|]); intros [E|[E|[]]]; congruence.
        - intros [H Hn]. assert (k' <> k_count /\ k' <> k_avg_ms) as [N1 N2] by (split; intros E; apply Hn; rewrite E; auto).
          split; [split; [|exact N1]|exact N2]. destruct H as [H|[H|H]]; auto.
          apply Hpre in H. tauto. }
      split; [|split; [|exact Hin]].
      * intros E. assert (In (k, v) m) as H; [|rewrite E in H; destruct H].
        apply Hin. split; [apply in_or_app; right; left; reflexivity|]. intros [E'|[E'|[]]]; congruence.
      * unfold m, remove_key, distinct_keys in *. apply nodup_sub, nodup_sub. apply nodup_rot.
        rewrite map_app in Hd. apply nodup_app_r in Hd. exact Hd.
Qed.

Lemma gstat_err ev e : distinct_event ev -> gstat_parse ev = Err e -> total_fault ev e.
Proof.
  intros Hd. unfold gstat_parse.
  assert (Hno : ~ total_shaped ev -> GUnexpectedInput ev = e -> total_fault ev e).
  { intros Hs <-. split; [reflexivity|exact Hs]. }
  destruct ev as [d|d|[pid tid ts nm ct tts a stk] dur tdur es|m];
    try (intros [= <-]; apply Hno; [|reflexivity]; intros (? & ? & ? & ? & ? & [=] & _)).
  destruct nm as [name|], ct, tts, a as [a|], stk, tdur, es;
    try (intros [= <-]; apply Hno; [|reflexivity]; intros (? & ? & ? & ? & ? & [=] & _)).
  destruct (Z.eqb_spec tid 0) as [->|Ht]; cbn [negb andb].
  { intros [= <-]. apply Hno; [|reflexivity]. intros (? & ? & ? & ? & ? & [=] & Hx). congruence. }
  destruct (Z.eqb_spec ts 0) as [->|Hs].
  2:{ intros [= <-]. apply Hno; [|reflexivity]. intros (? & ? & ? & ? & ? & [=] & Hx). congruence. }
  assert (Hsh : total_shaped (EvX (mk_de pid tid 0 (Some name) None None (Some a) None) dur None None)).
  { exists pid, tid, name, a, dur. auto. }
  destruct (strip_prefix k_total name) as [r|] eqn:Es.
  - apply strip_prefix_spec in Es. subst name.
    destruct (gargs_parse a) as [c|err|] eqn:Eg; cbn [rtry]; try discriminate.
    intros [= <-]. cbn [total_fault]. split; [exact Hsh|].
    eexists _, dur, None, None, a, r. split; [reflexivity|]. split; [reflexivity|]. split; [reflexivity|].
    apply (gargs_fault a [] None None); auto. intros ? ? [].
  - intros [= <-]. cbn [total_fault]. split; [exact Hsh|].
    eexists _, dur, None, None. split; [reflexivity|]. split; [reflexivity|].
    intros r ->. assert (strip_prefix k_total (k_total ++ r) = Some r) by (apply strip_prefix_spec; reflexivity).
    change (of_string "Total ") with k_total in Es. congruence.
Qed.

From Coq Require Import String Permutation.
From Verif Require Import Base Asylum_Model Tree_Model Tree_Spec Tree_Proofs Tree_Proofs2 Load_Model Load_Spec.
Local Open Scope list_scope.

(** ** Strings, maps *)
Lemma strip_prefix_spec p : forall s r, strip_prefix p s = Some r <-> s = p ++ r.
Proof.
  induction p as [|x p IH]; intros s r; simpl.
  - split; [congruence|intros ->; reflexivity].
  - destruct s as [|y s]; [split; discriminate|].
    destruct (N.eqb_spec x y) as [->|Hne].
    + rewrite IH. split; [intros ->; reflexivity|congruence].
    + split; [discriminate|congruence].
Qed.

Lemma lookup_In {V} k (l : list (str * V)) v : lookup k l = Some v -> In (k, v) l.
Proof.
  induction l as [|[k' v'] l IH]; simpl; [discriminate|].
  destruct (str_eqb_spec k' k) as [->|Hne]; [intros [= ->]; auto|auto].
Qed.
Lemma lookup_None {V} k (l : list (str * V)) : lookup k l = None <-> ~ In k (map fst l).
Proof.
  induction l as [|[k' v'] l IH]; simpl; [tauto|].
  destruct (str_eqb_spec k' k) as [->|Hne].
  - split; [discriminate|tauto].
  - rewrite IH. split; [intros H [H'|H']; auto|tauto].
Qed.
Lemma lookup_iff {V} k (l : list (str * V)) v : NoDup (map fst l) ->
  (lookup k l = Some v <-> In (k, v) l).
Proof.
  intros Hnd. split; [apply lookup_In|].
  induction l as [|[k' v'] l IH]; simpl; [tauto|].
  simpl in Hnd. inversion Hnd as [|? ? Hni Hnd']; subst.
  destruct (str_eqb_spec k' k) as [->|Hne].
  - intros [[= ->]|Hin]; [reflexivity|]. destruct Hni. apply in_map_iff. exists (k, v). auto.
  - intros [[= -> ->]|Hin]; [congruence|auto].
Qed.
Lemma lookup_perm {V} k (l m : list (str * V)) : NoDup (map fst l) -> Permutation l m ->
  lookup k l = lookup k m.
Proof.
  intros Hnd Hp.
  assert (Hnd' : NoDup (map fst m)) by (eapply Permutation_NoDup; [apply Permutation_map, Hp|exact Hnd]).
  destruct (lookup k l) as [v|] eqn:E; symmetry.
  - apply lookup_iff; [exact Hnd'|]. apply (Permutation_in _ Hp). apply lookup_In; exact E.
  - apply lookup_None. apply lookup_None in E. intros H. apply E.
    apply (Permutation_in _ (Permutation_sym (Permutation_map fst Hp))). exact H.
Qed.

(** ** The activity table *)
Fixpoint nodupb (l : list str) : bool :=
  match l with [] => true | x :: l' => negb (existsb (str_eqb x) l') && nodupb l' end.
Lemma nodupb_ok l : nodupb l = true -> NoDup l.
Proof.
  induction l as [|x l IH]; simpl; [constructor|].
  intros H. apply andb_prop in H. destruct H as [H1 H2]. constructor; [|auto].
  intros Hin. apply negb_true_iff in H1.
  assert (existsb (str_eqb x) l = true) by (apply existsb_exists; exists x; split; [auto|apply str_eqb_refl]).
  congruence.
Qed.
Lemma activities_distinct : NoDup (map fst activities).
Proof. apply nodupb_ok. vm_compute. reflexivity. Qed.

Lemma find_activity_sound l : forall k name i t,
  find_activity k name l = Some (i, t) -> exists j, i = k + j /\ nth_error l j = Some (name, t).
Proof.
  induction l as [|[n t'] l IH]; intros k name i t; simpl; [discriminate|].
  destruct (str_eqb_spec n name) as [->|Hne].
  - intros [= <- <-]. exists 0. simpl. split; [lia|reflexivity].
  - intros H. apply IH in H. destruct H as [j [-> Hj]]. exists (S j). split; [lia|exact Hj].
Qed.
Lemma find_activity_none l : forall k name,
  find_activity k name l = None -> forall t, ~ In (name, t) l.
Proof.
  induction l as [|[n t'] l IH]; intros k name; simpl; [tauto|].
  destruct (str_eqb_spec n name) as [->|Hne]; [discriminate|].
  intros H t [[= -> ->]|Hin]; [congruence|]. eapply IH; eauto.
Qed.
Lemma find_known name i t :
  find_activity 0 name activities = Some (i, t) <-> nth_error activities i = Some (name, t).
Proof.
  split.
  - intros H. apply find_activity_sound in H. destruct H as [j [-> Hj]]. exact Hj.
  - intros H. destruct (find_activity 0 name activities) as [[i' t']|] eqn:E.
    + apply find_activity_sound in E. destruct E as [j [-> Hj]]. simpl.
      assert (j = i).
      { pose proof activities_distinct as Hnd. rewrite NoDup_nth_error in Hnd. apply Hnd.
        - rewrite map_length. apply nth_error_Some. congruence.
        - rewrite (map_nth_error fst _ _ Hj), (map_nth_error fst _ _ H). reflexivity. }
      subst j. rewrite H in Hj. congruence.
    + exfalso. apply (find_activity_none _ _ _ E t). eapply nth_error_In; exact H.
Qed.
Definition known_pair (name : str) (t : arg_type) : bool :=
  existsb (fun e => str_eqb (fst e) name && if arg_type_eq_dec (snd e) t then true else false) activities.
Lemma known_pair_spec name t : known_pair name t = true <-> In (name, t) activities.
Proof.
  unfold known_pair. rewrite existsb_exists. split.
  - intros [[n u] [Hi H]]. cbn [fst snd] in H. apply andb_true_iff in H as [H1 H2]. apply str_eqb_eq in H1.
    destruct (arg_type_eq_dec u t); [subst; exact Hi|discriminate].
  - intros H. exists (name, t). split; [exact H|]. cbn [fst snd]. apply andb_true_iff. split; [now apply str_eqb_eq|].
    destruct (arg_type_eq_dec t t); congruence.
Qed.
Lemma known_names_spec name t : In (name, t) activities <-> In name (known_names t).
Proof.
  assert (H1 : forallb (fun e => existsb (str_eqb (fst e)) (known_names (snd e))) activities = true)
    by (vm_compute; reflexivity).
  assert (H2 : forall t, forallb (fun n => known_pair n t) (known_names t) = true)
    by (intros []; vm_compute; reflexivity).
  split; intros H.
  - rewrite forallb_forall in H1. specialize (H1 _ H). cbn [fst snd] in H1. apply existsb_exists in H1.
    destruct H1 as (n & Hn & E). apply str_eqb_eq in E. now subst.
  - specialize (H2 t). rewrite forallb_forall in H2. now apply known_pair_spec, H2.
Qed.

Lemma known_unique name t t' : In (name, t) activities -> In (name, t') activities -> t = t'.
Proof.
  intros H H'. apply In_nth_error in H, H'. destruct H as [i H], H' as [j H'].
  apply find_known in H, H'. congruence.
Qed.

(** ** Arguments *)
Lemma empty_args_ok a : parse_empty_args a = Ok tt <-> no_args a.
Proof.
  unfold no_args. destruct a as [[|e l]|]; simpl; split; auto; try discriminate.
  intros [H|H]; discriminate.
Qed.
Lemma empty_args_no_boom a : parse_empty_args a <> Boom.
Proof. destruct a as [[|e l]|]; discriminate. Qed.
Lemma detail_arg_ok a d : parse_detail_arg a = Ok d <-> only_detail a d.
Proof.
  unfold only_detail. split.
  - destruct a as [[|[k v] [|kv rest]]|]; simpl; try discriminate;
      destruct (str_eqb_spec k k_detail) as [->|Hne]; try discriminate; destruct v; try discriminate.
    intros [= ->]. reflexivity.
  - intros ->. reflexivity.
Qed.
Lemma detail_arg_missing a k : parse_detail_arg a = Err (MissingKey k) <-> no_args a /\ k = k_detail.
Proof.
  unfold no_args. split.
  - destruct a as [[|[k' v] [|kv rest]]|]; simpl; try discriminate.
    + intros [= <-]. auto.
    + destruct (str_eqb_spec k' k_detail) as [->|Hne]; [|discriminate]. destruct v; discriminate.
    + destruct (str_eqb_spec k' k_detail) as [->|Hne]; [|discriminate]. destruct v; discriminate.
    + intros [= <-]. auto.
  - intros [[->| ->] ->]; reflexivity.
Qed.
Lemma detail_arg_no_boom a : parse_detail_arg a <> Boom.
Proof.
  destruct a as [[|[k v] [|kv rest]]|]; simpl; try discriminate;
    destruct (str_eqb_spec k k_detail); try discriminate; destruct v; discriminate.
Qed.

Section Load.
  Variable us : Z.
  Variables up al : chr -> bool.
  Notation infer := (infer_from_detail up al).

  Lemma infer_none d : infer d = None <-> d = [].
  Proof.
    split; [|intros ->; reflexivity].
    destruct d as [|c d]; [reflexivity|]. unfold infer_from_detail.
    repeat match goal with |- context [if ?b then _ else _] => destruct b end; discriminate.
  Qed.
  Lemma infer_needs d t : infer d = Some t -> needs_detail t.
  Proof.
    destruct d as [|c d]; [discriminate|]. unfold infer_from_detail.
    repeat match goal with |- context [if ?b then _ else _] => destruct b end;
      intros [= <-]; exact I.
  Qed.

  (** ** Activities *)
  Lemma activity_parse_ok name a act :
    activity_parse up al name a = Ok act <->
    names (a_id act) name /\ argument_reads infer name a (a_arg act).
  Proof.
    unfold activity_parse. destruct (find_activity 0 name activities) as [[i ty]|] eqn:Ef.
    - apply find_known in Ef. pose proof (nth_error_In _ _ Ef) as Hin.
      split.
      + assert (Hn : names (KnownActivity i) name) by (exists ty; exact Ef).
        destruct ty; cbv beta iota.
        1: { destruct (parse_empty_args a) as [[]|e|] eqn:E; simpl; try discriminate.
             intros [= <-]. simpl. split; [exact Hn|]. apply empty_args_ok in E.
             constructor; auto. }
        1,2,3,4,6: (destruct (parse_detail_arg a) as [d|e|] eqn:E; simpl; try discriminate;
          destruct (infer d) eqn:Ei; simpl; try discriminate;
          intros [= <-]; simpl; split; [exact Hn|]; apply detail_arg_ok in E;
          constructor; auto; [exact I|]; intros ->; discriminate).
        1,2: (destruct (parse_detail_arg a) as [d|[m|k|k v]|] eqn:E; simpl; try discriminate;
          [ intros [= <-]; simpl; split; [exact Hn|]; apply detail_arg_ok in E;
            apply known_optional; auto; discriminate
          | apply detail_arg_missing in E; destruct E as [Ha ->]; rewrite str_eqb_refl; simpl;
            intros [= <-]; simpl; split; [exact Hn|]; constructor; auto ]).
      + destruct act as [id r]; simpl. intros [Hn Hr].
        assert (Hid : id = KnownActivity i).
        { destruct id as [n|j]; simpl in Hn.
          - destruct Hn as [_ Hn]. exfalso. eapply Hn; exact Hin.
          - destruct Hn as [t Hj]. apply find_known in Hj, Ef. congruence. }
        subst id.
        destruct Hr as [t Ht Hnd Ha|t d Ht Hnd Ha Hd|t d Ht Hnd Hac Ha|Ht Ha|d t Ht Ha Hd Hi].
        * pose proof (known_unique _ _ _ Hin Ht) as <-.
          destruct ty; simpl in Hnd; try tauto.
          -- apply empty_args_ok in Ha. rewrite Ha. reflexivity.
          -- assert (E : parse_detail_arg a = Err (MissingKey k_detail)) by (apply detail_arg_missing; auto).
             rewrite E. cbv beta iota. rewrite str_eqb_refl. reflexivity.
          -- assert (E : parse_detail_arg a = Err (MissingKey k_detail)) by (apply detail_arg_missing; auto).
             rewrite E. cbv beta iota. rewrite str_eqb_refl. reflexivity.
        * pose proof (known_unique _ _ _ Hin Ht) as <-.
          apply detail_arg_ok in Ha. rewrite Ha.
          destruct (infer d) as [t'|] eqn:Ei; [|apply infer_none in Ei; contradiction].
          destruct ty; simpl in Hnd; try tauto; simpl; rewrite Ei; reflexivity.
        * pose proof (known_unique _ _ _ Hin Ht) as <-.
          apply detail_arg_ok in Ha. rewrite Ha.
          destruct ty; simpl in Hnd; try tauto; try reflexivity. exfalso; apply Hac; reflexivity.
        * exfalso. eapply Ht; exact Hin.
        * exfalso. eapply Ht; exact Hin.
    - pose proof (find_activity_none _ _ _ Ef) as Hnone.
      split.
      + destruct (parse_detail_arg a) as [d|[m|k|k v]|] eqn:E; simpl; try discriminate.
        * destruct (infer d) as [ty|] eqn:Ei; simpl; [|discriminate].
          intros [= <-]; simpl. split; [split; [reflexivity|exact Hnone]|].
          apply detail_arg_ok in E. apply unknown_some; auto. intros ->; discriminate.
        * apply detail_arg_missing in E. destruct E as [Ha ->]. rewrite str_eqb_refl. simpl.
          intros [= <-]; simpl. split; [split; [reflexivity|exact Hnone]|].
          apply unknown_none; auto.
      + destruct act as [id r]; simpl. intros [Hn Hr].
        assert (Hid : id = UnknownActivity name).
        { destruct id as [n|j]; simpl in Hn; [destruct Hn as [-> _]; reflexivity|].
          destruct Hn as [t Hj]. exfalso. eapply Hnone, nth_error_In; exact Hj. }
        subst id.
        destruct Hr as [t Ht Hnd Ha|t d Ht Hnd Ha Hd|t d Ht Hnd Hac Ha|Ht Ha|d t Ht Ha Hd Hi];
          try (exfalso; eapply Hnone; eassumption).
        * assert (E : parse_detail_arg a = Err (MissingKey k_detail)) by (apply detail_arg_missing; auto).
          rewrite E. cbv beta iota. rewrite str_eqb_refl. reflexivity.
        * apply detail_arg_ok in Ha. rewrite Ha. cbv beta iota. rewrite Hi. reflexivity.
  Qed.

  Lemma activity_parse_boom name a :
    activity_parse up al name a = Boom <->
    only_detail a [] /\ forall t, In (name, t) activities -> needs_detail t.
  Proof.
    unfold activity_parse. destruct (find_activity 0 name activities) as [[i ty]|] eqn:Ef.
    - apply find_known in Ef. pose proof (nth_error_In _ _ Ef) as Hin.
      assert (Heq : (forall t, In (name, t) activities -> needs_detail t) <-> needs_detail ty).
      { split; [auto|]. intros H t Ht. rewrite (known_unique _ _ _ Ht Hin). exact H. }
      rewrite Heq. clear Heq.
      split.
      + destruct ty; cbv beta iota.
        1: { destruct (parse_empty_args a) as [[]|e|] eqn:E; simpl; try discriminate.
             intros _. destruct (empty_args_no_boom _ E). }
        1,2,3,4,6: (destruct (parse_detail_arg a) as [d|e|] eqn:E; simpl; try discriminate;
          [ destruct (infer d) eqn:Ei; simpl; try discriminate; intros _;
            apply infer_none in Ei; subst d; apply detail_arg_ok in E; split; [exact E|exact I]
          | intros _; destruct (detail_arg_no_boom _ E) ]).
        1,2: (destruct (parse_detail_arg a) as [d|[m|k|k v]|] eqn:E; simpl; try discriminate;
          [ destruct (str_eqb k k_detail); discriminate
          | intros _; destruct (detail_arg_no_boom _ E) ]).
      + intros [Ha Hnd]. apply detail_arg_ok in Ha. rewrite Ha.
        destruct ty; simpl in Hnd; try tauto; reflexivity.
    - pose proof (find_activity_none _ _ _ Ef) as Hnone.
      split.
      + destruct (parse_detail_arg a) as [d|[m|k|k v]|] eqn:E; simpl; try discriminate.
        * destruct (infer d) eqn:Ei; simpl; try discriminate. intros _.
          apply infer_none in Ei; subst d; apply detail_arg_ok in E. split; [exact E|].
          intros t Ht. exfalso; eapply Hnone; exact Ht.
        * destruct (str_eqb k k_detail); discriminate.
        * intros _; destruct (detail_arg_no_boom _ E).
      + intros [Ha _]. apply detail_arg_ok in Ha. rewrite Ha. reflexivity.
  Qed.

  Lemma argument_reads_wf name a r : argument_reads infer name a r -> well_formed_arg r.
  Proof.
    intros [t Ht Hnd Ha|t d Ht Hnd Ha Hd|t d Ht Hnd Hac Ha|Ht Ha|d t Ht Ha Hd Hi];
      unfold well_formed_arg; simpl; split; intros Hx; try discriminate; try congruence; auto.
    - intros ->. exact Hnd.
    - apply infer_needs in Hi. intros ->. exact Hi.
  Qed.

  Lemma pid_tid pid tid :
    ((Z.eqb pid 1 && Z.eqb tid 0) || Z.eqb tid pid)%bool = true <-> (tid = pid \/ (pid = 1 /\ tid = 0))%Z.
  Proof.
    destruct (Z.eqb_spec pid 1), (Z.eqb_spec tid 0), (Z.eqb_spec tid pid); simpl; split; intros; lia || auto.
  Qed.

  Lemma activity_stat_ok ev s : activity_stat_parse up al ev = Ok s <->
    exists pid tid ts name a dur act,
      ev = EvX (mk_de pid tid ts (Some name) None None a None) dur None None /\
      (tid = pid \/ (pid = 1 /\ tid = 0))%Z /\ names (a_id act) name /\
      argument_reads infer name a (a_arg act) /\ s = mk_stat act ts dur.
  Proof.
    split.
    - destruct ev as [d|d|[pid tid ts nm ct tts a stk] dur tdur es|m]; simpl; try discriminate.
      destruct nm as [name|], ct, tts, stk, tdur, es; try discriminate.
      destruct ((Z.eqb pid 1 && Z.eqb tid 0) || Z.eqb tid pid)%bool eqn:E; [|discriminate].
      apply pid_tid in E.
      destruct (activity_parse up al name a) as [act|e|] eqn:Ea; simpl; try discriminate.
      intros [= <-]. apply activity_parse_ok in Ea. destruct Ea as [H1 H2].
      exists pid, tid, ts, name, a, dur, act. auto.
    - intros (pid & tid & ts & name & a & dur & act & -> & Hp & Hn & Ha & ->). simpl.
      apply pid_tid in Hp. rewrite Hp.
      assert (E : activity_parse up al name a = Ok act) by (apply activity_parse_ok; auto).
      rewrite E. reflexivity.
  Qed.
  Lemma activity_stat_boom ev : activity_stat_parse up al ev = Boom ->
    exists d dur, ev = EvX d dur None None /\ only_detail (de_args d) [].
  Proof.
    destruct ev as [d|d|[pid tid ts nm ct tts a stk] dur tdur es|m]; simpl; try discriminate.
    destruct nm as [name|], ct, tts, stk, tdur, es; try discriminate.
    destruct ((Z.eqb pid 1 && Z.eqb tid 0) || Z.eqb tid pid)%bool eqn:E; [|discriminate].
    destruct (activity_parse up al name a) as [act|e|] eqn:Ea; simpl; try discriminate.
    intros _. apply activity_parse_boom in Ea. eexists; exists dur; split; [reflexivity|]. apply Ea.
  Qed.
End Load.

(** ** Global statistics *)
Lemma gargs_no_boom l : forall c f, gargs_loop c f l <> Boom.
Proof.
  induction l as [|[k v] l IH]; intros c f; simpl.
  - destruct c, f; discriminate.
  - destruct (str_eqb k k_count); [destruct (as_u64 v); [apply IH|discriminate]|].
    destruct (str_eqb k k_avg_ms); [destruct (as_f64 v); [apply IH|discriminate]|discriminate].
Qed.

Lemma perm2 {X} (a b : X) l : Permutation l [a; b] -> l = [a; b] \/ l = [b; a].
Proof.
  intros H. apply Permutation_sym in H. apply Permutation_length_2_inv in H. exact H.
Qed.

Lemma count_ne_avg : k_count <> k_avg_ms.
Proof. intros H. assert (str_eqb k_count k_avg_ms = true) by (rewrite H; apply str_eqb_refl). discriminate. Qed.

(** What the loop has seen so far: an accumulated entry is not among the remaining keys. *)
Lemma gargs_loop_ok l : forall c f r, distinct_keys l ->
  (c <> None -> ~ In k_count (map fst l)) -> (f <> None -> ~ In k_avg_ms (map fst l)) ->
  gargs_loop c f l = Ok r ->
  exists vc vf,
    Permutation l ((if c then [] else [(k_count, vc)]) ++ (if f then [] else [(k_avg_ms, vf)])) /\
    match c with Some x => fst r = x | None => as_u64 vc = Some (fst r) end /\
    match f with Some x => snd r = x | None => as_f64 vf = Some (snd r) end.
Proof.
  induction l as [|[k v] l IH]; intros c f r Hd Hc Hf; simpl.
  - destruct c as [c|], f as [f|]; try discriminate. intros [= <-]. exists JNull, JNull.
    simpl. repeat split. constructor.
  - unfold distinct_keys in Hd. simpl in Hd, Hc, Hf. inversion Hd as [|? ? Hni Hd']; subst.
    destruct (str_eqb_spec k k_count) as [->|Hk].
    + destruct c as [c|]; [exfalso; apply Hc; [discriminate|auto]|].
      destruct (as_u64 v) as [x|] eqn:Ev; [|discriminate].
      intros H. apply IH in H; [|exact Hd'| |].
      * destruct H as (vc & vf & Hp & H1 & H2). exists v, vf. simpl in *. repeat split.
        -- apply perm_skip. exact Hp.
        -- congruence.
        -- exact H2.
      * intros _. exact Hni.
      * intros Hx Hin. apply Hf; auto.
    + destruct (str_eqb_spec k k_avg_ms) as [->|Hk2]; [|discriminate].
      destruct f as [f|]; [exfalso; apply Hf; [discriminate|auto]|].
      destruct (as_f64 v) as [x|] eqn:Ev; [|discriminate].
      intros H. apply IH in H; [|exact Hd'| |].
      * destruct H as (vc & vf & Hp & H1 & H2). exists vc, v. simpl in *. repeat split.
        -- rewrite app_nil_r in Hp. destruct c as [c|].
           ++ simpl in *. apply perm_skip. exact Hp.
           ++ simpl in *. eapply perm_trans; [apply perm_skip; exact Hp|]. apply perm_swap.
        -- exact H1.
        -- congruence.
      * intros Hx Hin. apply Hc; auto.
      * intros _. exact Hni.
Qed.

Lemma gargs_ok l c : distinct_keys l ->
  ((exists f, gargs_parse l = Ok (c, f)) <->
   exists vc vf, as_u64 vc = Some c /\ as_f64 vf <> None /\
     Permutation l [(of_string "count", vc); (of_string "avg ms", vf)]).
Proof.
  intros Hd. split.
  - intros [f H]. apply gargs_loop_ok in H; auto; try congruence.
    destruct H as (vc & vf & Hp & H1 & H2). exists vc, vf. simpl in *.
    repeat split; [exact H1|congruence|exact Hp].
  - intros (vc & vf & H1 & H2 & Hp). destruct (as_f64 vf) as [f|] eqn:Ef; [|congruence].
    exists f. apply perm2 in Hp. unfold gargs_parse.
    destruct Hp as [-> | ->]; simpl; fold k_count k_avg_ms.
    + rewrite H1. simpl. rewrite Ef. reflexivity.
    + rewrite Ef. simpl. rewrite H1. reflexivity.
Qed.

Lemma gstat_ok ev name g : distinct_event ev ->
  (gstat_parse ev = Ok (name, g) <->
   exists pid tid cnt avg f a dur,
     ev = EvX (mk_de pid tid 0 (Some (of_string "Total " ++ name)) None None (Some a) None) dur None None /\
     tid <> 0%Z /\ as_u64 cnt = Some f /\ as_f64 avg <> None /\
     Permutation a [(of_string "count", cnt); (of_string "avg ms", avg)] /\ g = mk_gs dur f).
Proof.
  intros Hd. split.
  - destruct ev as [d|d|[pid tid ts nm ct tts a stk] dur tdur es|m]; cbn [gstat_parse]; try discriminate.
    destruct nm as [nm|], ct, tts, a as [a|], stk, tdur, es; try discriminate.
    destruct (Z.eqb_spec tid 0) as [|Ht]; cbn [negb andb]; [discriminate|].
    destruct (Z.eqb_spec ts 0) as [->|]; cbn [negb andb]; [|discriminate].
    destruct (strip_prefix k_total nm) as [r|] eqn:Es; [|discriminate].
    apply strip_prefix_spec in Es. subst nm.
    destruct (gargs_parse a) as [[c f]|e|] eqn:Eg; cbn [rtry fst]; try discriminate.
    intros [= <- <-].
    assert (H : exists f, gargs_parse a = Ok (c, f)) by (exists f; exact Eg).
    apply gargs_ok in H; [|exact Hd]. destruct H as (vc & vf & H1 & H2 & H3).
    exists pid, tid, vc, vf, c, a, dur. repeat split; auto.
  - intros (pid & tid & cnt & avg & f & a & dur & -> & Ht & H1 & H2 & H3 & ->).
    simpl in Hd.
    assert (H : exists x, gargs_parse a = Ok (f, x)) by (apply gargs_ok; [exact Hd|]; exists cnt, avg; auto).
    destruct H as [x H].
    change (gstat_parse (EvX (mk_de pid tid 0 (Some (k_total ++ name)) None None (Some a) None) dur None None) = Ok (name, mk_gs dur f)).
    unfold gstat_parse. apply Z.eqb_neq in Ht. rewrite Ht. cbn [negb andb Z.eqb].
    assert (Es : strip_prefix k_total (k_total ++ name) = Some name) by (apply strip_prefix_spec; reflexivity).
    rewrite Es, H. reflexivity.
Qed.
Lemma gstat_no_boom ev : gstat_parse ev <> Boom.
Proof.
  destruct ev as [d|d|[pid tid ts nm ct tts a stk] dur tdur es|m]; cbn [gstat_parse]; try discriminate.
  destruct nm as [nm|], ct, tts, a as [a|], stk, tdur, es; try discriminate.
  destruct (negb (tid =? 0)%Z && (ts =? 0)%Z)%bool; [|discriminate].
  destruct (strip_prefix k_total nm) as [r|]; [|discriminate].
  destruct (gargs_parse a) as [[c f]|e|] eqn:Eg; simpl; try discriminate.
  intros _. exact (gargs_no_boom _ _ _ Eg).
Qed.

(** ** Names *)
Lemma process_name_ok m n : parse_process_name m = Ok n <->
  exists pid tid, m = ProcessName pid n [] (Some tid) (mk_mo (Some []) (Some 0%Z) None) /\
    (tid = pid \/ (pid = 1 /\ tid = 0))%Z.
Proof.
  split.
  - destruct m as [pid name ex tid [ct ts tts]|tid name ex pid o|w]; simpl; try discriminate.
    destruct ct as [ct|], ts as [ts|], tts as [tts|]; try discriminate.
    destruct ex as [|? ?]; [|discriminate]. destruct ct as [|? ?]; [|discriminate].
    destruct (Z.eqb_spec ts 0) as [->|]; cbn [andb]; [|discriminate].
    destruct tid as [tid|]; [|destruct (pid =? 1)%Z; discriminate].
    destruct ((Z.eqb pid 1 && Z.eqb tid 0) || Z.eqb tid pid)%bool eqn:E; [|discriminate].
    apply pid_tid in E. intros [= <-]. exists pid, tid. auto.
  - intros (pid & tid & -> & Hp). simpl. apply pid_tid in Hp. rewrite Hp. reflexivity.
Qed.
Lemma thread_name_ok m n : parse_thread_name m = Ok n <->
  exists tid, m = ThreadName tid n [] (Some tid) (mk_mo (Some []) (Some 0%Z) None).
Proof.
  split.
  - destruct m as [pid name ex tid o|tid name ex pid [ct ts tts]|w]; simpl; try discriminate.
    destruct ct as [ct|], ts as [ts|], tts as [tts|]; try discriminate.
    destruct ex as [|? ?]; [|discriminate]. destruct ct as [|? ?]; [|discriminate].
    destruct (Z.eqb_spec ts 0) as [->|]; cbn [andb]; [|discriminate].
    destruct pid as [pid|]; [|discriminate].
    destruct (Z.eqb_spec pid tid) as [->|]; [|discriminate].
    intros [= <-]. exists tid. reflexivity.
  - intros (tid & ->). simpl. rewrite Z.eqb_refl. reflexivity.
Qed.
Lemma process_name_no_boom m : parse_process_name m <> Boom.
Proof.
  destruct m as [pid name ex tid [ct ts tts]|tid name ex pid o|w]; simpl; try discriminate.
  destruct ct, ts, tts; try discriminate. destruct (_ && _ && _ && _)%bool; discriminate.
Qed.
Lemma thread_name_no_boom m : parse_thread_name m <> Boom.
Proof.
  destruct m as [pid name ex tid o|tid name ex pid [ct ts tts]|w]; simpl; try discriminate.
  destruct ct, ts, tts; try discriminate. destruct (_ && _ && _ && _)%bool; discriminate.
Qed.

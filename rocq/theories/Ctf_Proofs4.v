(** * Events and documents as a whole *)

From Coq Require Import String Permutation.
From Verif Require Import Base Load_Model Load_Spec Load_Proofs Load_Proofs2 Load_Proofs3 Load_Proofs4
  Ctf_Model Ctf_Spec Ctf_Proofs Ctf_Proofs2 Ctf_Proofs3.
Local Open Scope bool_scope.
Local Open Scope list_scope.

Lemma same_map_refl a : distinct_keys a -> same_map a a.
Proof. intros H. split; [exact H|apply Permutation_refl]. Qed.

Section WithNumbers.
  Variable time : number -> Z.
  Variable ident : number -> N.
  Variable iter : args -> args.
  Hypothesis iter_perm : forall l, Permutation l (iter l).

  Lemma metadata_event_sound l e :
    to_metadata_event time ident iter (others [of_string "ph"] l) = Some e ->
    tagged l (of_string "ph") (DStr (of_string "M")) -> event time ident (DObj l) e.
  Proof.
    intros H Tph. unfold to_metadata_event in H. peel H x E. destruct x as [tag rest].
    apply tag_iff in E. destruct E as [T ->]. rewrite tagged_others in T by nin.
    destruct (metadata_kind tag) as [n|] eqn:K; [|discriminate].
    assert (Ex : exists v, tagged l (of_string "name") v /\ metadata_kind v = Some n) by eauto.
    rewrite others_others in H.
    assert (N : forall k, In k option_names ->
      ~ In k [of_string "pid"; of_string "args"; of_string "tid"]
      /\ ~ In k [of_string "tid"; of_string "args"; of_string "pid"]).
    { intros k [<-|[<-|[<-|[]]]]; split; nin. }
    assert (M : forall k, In k [of_string "pid"; of_string "tid"; of_string "args"; of_string "cat";
                                 of_string "ts"; of_string "tts"] ->
                ~ In k ([nm "name"] ++ [of_string "ph"])).
    { intros k Hk F. destruct F as [<-|[<-|[]]]; revert Hk; nin. }
    assert (M' : forall k, In k [of_string "tid"; of_string "pid"; of_string "args"; of_string "cat";
                                 of_string "ts"; of_string "tts"] ->
                ~ In k ([nm "name"] ++ [of_string "ph"])).
    { intros k Hk F. destruct F as [<-|[<-|[]]]; revert Hk; nin. }
    destruct n as [|[|[|[|[|n]]]]]; [| | | | |discriminate];
      peel H x E; destruct x as [[[[x a] extra] y] o]; injection H as <-.
    - apply (metadata_sound _ _ _ iter_perm _ as_text text) in E; [|exact text_exactly|intros k Hk; now apply N].
      apply (proj1 (metadata_others _ _ _ _ _ _ _ _ _ _ _ _ _ M)) in E.
      apply event_process; [exact Tph| |exact E]. apply (tag_kind l 0); [exact Ex|reflexivity].
    - apply (metadata_sound _ _ _ iter_perm _ as_text text) in E; [|exact text_exactly|intros k Hk; now apply N].
      apply (proj1 (metadata_others _ _ _ _ _ _ _ _ _ _ _ _ _ M)) in E.
      apply (event_labels _ _ l x a extra y o); [exact Tph| |exact E].
      apply (tag_kind l 1); [exact Ex|reflexivity].
    - apply (metadata_sound _ _ _ iter_perm _ as_i64 int64) in E; [|exact i64_exactly|intros k Hk; now apply N].
      apply (proj1 (metadata_others _ _ _ _ _ _ _ _ _ _ _ _ _ M)) in E.
      apply (event_process_sort _ _ l x a extra y o); [exact Tph| |exact E].
      apply (tag_kind l 2); [exact Ex|reflexivity].
    - apply (metadata_sound _ _ _ iter_perm _ as_text text) in E; [|exact text_exactly|intros k Hk; now apply N].
      apply (proj1 (metadata_others _ _ _ _ _ _ _ _ _ _ _ _ _ M')) in E.
      apply event_thread; [exact Tph| |exact E]. apply (tag_kind l 3); [exact Ex|reflexivity].
    - apply (metadata_sound _ _ _ iter_perm _ as_i64 int64) in E; [|exact i64_exactly|intros k Hk; now apply N].
      apply (proj1 (metadata_others _ _ _ _ _ _ _ _ _ _ _ _ _ M')) in E.
      apply (event_thread_sort _ _ l x a extra y o); [exact Tph| |exact E].
      apply (tag_kind l 4); [exact Ex|reflexivity].
  Qed.

  Lemma duration_not_ph l d :
    duration_fields time ident (others [of_string "ph"] l) d <-> duration_fields time ident l d.
  Proof. apply duration_others. intros k Hk [<-|[]]; revert Hk; nin. Qed.

  Theorem event_sound d e : to_event time ident iter d = Some e -> event time ident d e.
  Proof.
    unfold to_event. destruct d as [| | | | |l]; try discriminate. intros H. peel H x E.
    destruct x as [tag rest]. apply tag_iff in E. destruct E as [T ->].
    destruct tag as [| | |s| |]; try discriminate. unfold nm in *.
    destruct (str_eqb_spec s (of_string "B")) as [->|NB].
    { unfold option_map in H. destruct (to_duration_event _ _ _ _) as [d|] eqn:E; [|discriminate].
      injection H as <-. apply duration_sound in E; [|exact iter_perm]. apply (proj1 (duration_not_ph _ _)) in E.
      now constructor. }
    destruct (str_eqb_spec s (of_string "E")) as [->|NE].
    { unfold option_map in H. destruct (to_duration_event _ _ _ _) as [d|] eqn:E; [|discriminate].
      injection H as <-. apply duration_sound in E; [|exact iter_perm]. apply (proj1 (duration_not_ph _ _)) in E.
      now constructor. }
    destruct (str_eqb_spec s (of_string "X")) as [->|NX].
    { apply complete_sound in H; [|exact iter_perm].
      destruct H as [d [dur [tdur [stack [-> [Hd [S1 [S2 [H1 [H2 H3]]]]]]]]]].
      apply (proj1 (duration_not_ph _ _)) in Hd. rewrite single_others in S1 by nin. rewrite single_others in S2 by nin.
      rewrite has_others in H1 by nin. rewrite may_have_others in H2 by nin.
      rewrite stack_is_others in H3 by (discriminate || nin).
      now constructor. }
    destruct (str_eqb_spec s (of_string "M")) as [->|NM]; [|discriminate].
    now apply metadata_event_sound.
  Qed.

  Lemma name_kind l tag n : tagged l (of_string "name") tag -> metadata_kind tag = Some n ->
    take_tag (nm "name") (others [of_string "ph"] l) =
      Some (tag, others ([of_string "name"] ++ [of_string "ph"]) l).
  Proof.
    intros T _. apply tag_iff. split; [apply tagged_others; [nin|exact T]|].
    symmetry. apply others_others.
  Qed.

  Ltac kind n H :=
    apply (kind_tag _ n) in H; [|lia|reflexivity];
    let v := fresh "v" in let T := fresh "T" in let K := fresh "K" in
    destruct H as [v [T K]]; unfold to_metadata_event; rewrite (name_kind _ _ _ T K); cbn [obnd];
    rewrite K.

  Theorem event_complete d e : event time ident d e ->
    exists e', to_event time ident iter d = Some e' /\ same_event e e'.
  Proof.
    assert (N : forall k, In k option_names ->
      ~ In k [of_string "pid"; of_string "args"; of_string "tid"]
      /\ ~ In k [of_string "tid"; of_string "args"; of_string "pid"]).
    { intros k [<-|[<-|[<-|[]]]]; split; nin. }
    assert (M : forall k, In k [of_string "pid"; of_string "tid"; of_string "args"; of_string "cat";
                                 of_string "ts"; of_string "tts"] ->
                ~ In k ([of_string "name"] ++ [of_string "ph"])).
    { intros k Hk F. destruct F as [<-|[<-|[]]]; revert Hk; nin. }
    assert (M' : forall k, In k [of_string "tid"; of_string "pid"; of_string "args"; of_string "cat";
                                 of_string "ts"; of_string "tts"] ->
                ~ In k ([of_string "name"] ++ [of_string "ph"])).
    { intros k Hk F. destruct F as [<-|[<-|[]]]; revert Hk; nin. }
    assert (Tag : forall l v, tagged l (of_string "ph") v ->
              take_tag (nm "ph") l = Some (v, others [of_string "ph"] l)).
    { intros l v T. apply tag_iff. auto. }
    intros H. destruct H as [l d T Hd|l d T Hd|l d dur tdur stack T Hd S1 S2 H1 H2 H3
      |l pid name extra tid o T K F|l tid name extra pid o T K F
      |l pid x extra tid o T K F|l pid x extra tid o T K F|l tid x extra pid o T K F];
      unfold to_event; rewrite (Tag _ _ T); cbn [obnd].
    - apply (proj2 (duration_not_ph _ _)) in Hd. apply (duration_complete time ident iter iter_perm) in Hd.
      destruct Hd as [d' [E Hs]]. change (str_eqb (of_string "B") (nm "B")) with true. cbn iota.
      rewrite E. exists (EvB d'). split; [reflexivity|now constructor].
    - apply (proj2 (duration_not_ph _ _)) in Hd. apply (duration_complete time ident iter iter_perm) in Hd.
      destruct Hd as [d' [E Hs]]. change (str_eqb (of_string "E") (nm "B")) with false.
      change (str_eqb (of_string "E") (nm "E")) with true. cbn iota.
      rewrite E. exists (EvE d'). split; [reflexivity|now constructor].
    - change (str_eqb (of_string "X") (nm "B")) with false.
      change (str_eqb (of_string "X") (nm "E")) with false.
      change (str_eqb (of_string "X") (nm "X")) with true. cbn iota.
      apply (proj2 (duration_not_ph _ _)) in Hd. apply complete_complete; [exact iter_perm|exact Hd| | | | |].
      + apply single_others; [nin|exact S1].
      + apply single_others; [nin|exact S2].
      + apply has_others; [nin|exact H1].
      + apply may_have_others; [nin|exact H2].
      + apply stack_is_others; [discriminate|nin|nin|exact H3].
    - change (str_eqb (of_string "M") (nm "B")) with false.
      change (str_eqb (of_string "M") (nm "E")) with false.
      change (str_eqb (of_string "M") (nm "X")) with false.
      change (str_eqb (of_string "M") (nm "M")) with true. cbn iota.
      kind 0 K. apply (proj2 (metadata_others _ _ _ _ _ _ _ _ _ _ _ _ _ M)) in F.
      apply (metadata_complete _ _ _ iter_perm _ as_text text) in F; [|exact text_exactly|intros k Hk; now apply N].
      destruct F as [extra' [E Hs]]. unfold nm. rewrite E. cbn [obnd].
      eexists. split; [reflexivity|now constructor].
    - change (str_eqb (of_string "M") (nm "B")) with false.
      change (str_eqb (of_string "M") (nm "E")) with false.
      change (str_eqb (of_string "M") (nm "X")) with false.
      change (str_eqb (of_string "M") (nm "M")) with true. cbn iota.
      kind 3 K. apply (proj2 (metadata_others _ _ _ _ _ _ _ _ _ _ _ _ _ M')) in F.
      apply (metadata_complete _ _ _ iter_perm _ as_text text) in F; [|exact text_exactly|intros k Hk; now apply N].
      destruct F as [extra' [E Hs]]. unfold nm. rewrite E. cbn [obnd].
      eexists. split; [reflexivity|now constructor].
    - change (str_eqb (of_string "M") (nm "B")) with false.
      change (str_eqb (of_string "M") (nm "E")) with false.
      change (str_eqb (of_string "M") (nm "X")) with false.
      change (str_eqb (of_string "M") (nm "M")) with true. cbn iota.
      kind 1 K. apply (proj2 (metadata_others _ _ _ _ _ _ _ _ _ _ _ _ _ M)) in F.
      apply (metadata_complete _ _ _ iter_perm _ as_text text) in F; [|exact text_exactly|intros k Hk; now apply N].
      destruct F as [extra' [E Hs]]. unfold nm. rewrite E. cbn [obnd].
      eexists. split; [reflexivity|constructor].
    - change (str_eqb (of_string "M") (nm "B")) with false.
      change (str_eqb (of_string "M") (nm "E")) with false.
      change (str_eqb (of_string "M") (nm "X")) with false.
      change (str_eqb (of_string "M") (nm "M")) with true. cbn iota.
      kind 2 K. apply (proj2 (metadata_others _ _ _ _ _ _ _ _ _ _ _ _ _ M)) in F.
      apply (metadata_complete _ _ _ iter_perm _ as_i64 int64) in F; [|exact i64_exactly|intros k Hk; now apply N].
      destruct F as [extra' [E Hs]]. unfold nm. rewrite E. cbn [obnd].
      eexists. split; [reflexivity|constructor].
    - change (str_eqb (of_string "M") (nm "B")) with false.
      change (str_eqb (of_string "M") (nm "E")) with false.
      change (str_eqb (of_string "M") (nm "X")) with false.
      change (str_eqb (of_string "M") (nm "M")) with true. cbn iota.
      kind 4 K. apply (proj2 (metadata_others _ _ _ _ _ _ _ _ _ _ _ _ _ M')) in F.
      apply (metadata_complete _ _ _ iter_perm _ as_i64 int64) in F; [|exact i64_exactly|intros k Hk; now apply N].
      destruct F as [extra' [E Hs]]. unfold nm. rewrite E. cbn [obnd].
      eexists. split; [reflexivity|constructor].
  Qed.

  (** Lists of events *)
  Lemma all_some_forall2 {A B} (f : A -> option B) l m :
    all_some f l = Some m <-> Forall2 (fun a b => f a = Some b) l m.
  Proof.
    revert m. induction l as [|a r IH]; intros m; cbn [all_some].
    - split; [intros H; injection H as <-; constructor|intros H; now inversion H].
    - split.
      + intros H. destruct (f a) as [b|] eqn:E; [cbn [obnd] in H|discriminate].
        destruct (all_some f r) as [bs|]; [cbn [obnd] in H|discriminate]. injection H as <-.
        constructor; [exact E|]. now apply IH.
      + intros H. inversion H as [|x y r' m' E F]; subst. rewrite E. cbn [obnd].
        apply IH in F. rewrite F. reflexivity.
  Qed.

  Lemma events_sound l m : all_some (to_event time ident iter) l = Some m -> Forall2 (event time ident) l m.
  Proof.
    intros H. apply all_some_forall2 in H. induction H; constructor; [|assumption]. now apply event_sound.
  Qed.
  Lemma events_complete l m : Forall2 (event time ident) l m ->
    exists m', all_some (to_event time ident iter) l = Some m' /\ Forall2 same_event m m'.
  Proof.
    induction 1 as [|d e l m H F [m' [E S]]]; [exists []; split; [reflexivity|constructor]|].
    apply event_complete in H. destruct H as [e' [Ee Se]]. exists (e' :: m'). cbn [all_some].
    rewrite Ee. cbn [obnd]. rewrite E. split; [reflexivity|now constructor].
  Qed.

  (** Fields that are not used *)
  Lemma optional_none {A} (conv : doc -> option A) k (l : fields) : conv DNull = None -> single l k ->
    (optional conv k l = Some None <-> forall v, In (k, v) l -> v = DNull).
  Proof.
    intros C S.
    rewrite (optional_iff conv (fun v x => conv v = Some x)); [|intros v x; reflexivity|exact C|exact S].
    cbn. split.
    - intros [Ha|Ha] v Hv; [exfalso; exact (Ha v Hv)|].
      apply (lookup_single k v l S) in Hv. apply (lookup_single k DNull l S) in Ha. congruence.
    - intros H. destruct (lookup k l) as [v|] eqn:L.
      + apply lookup_in in L. right. now rewrite <- (H v L).
      + left. exact (proj1 (lookup_none k l) L).
  Qed.

  Lemma unit_ms v : as_time_unit v = Some true <->
    v = DStr (of_string "ms") \/ v = DObj [(of_string "ms", DNull)].
  Proof.
    unfold as_time_unit, nm. split.
    - destruct v as [| | |s|l|[|[s []] []]]; try discriminate;
        destruct (str_eqb_spec s (of_string "ms")) as [->|]; auto;
        destruct (str_eqb s (of_string "ns")); discriminate.
    - intros [->| ->]; reflexivity.
  Qed.

  Theorem document_sound d td : to_trace_data time ident iter d = Some td -> td_plain td = true ->
    plain_document time ident d td.
  Proof.
    unfold to_trace_data. destruct d as [| | | | |l]; try discriminate. intros H. peel H x E.
    destruct x as [seen rest]. apply visit_spec in E. destruct E as [-> [-> S]].
    peel H events Eev. peel H um Eu. peel H f1 E1. peel H f2 E2. peel H f3 E3. peel H f4 E4.
    peel H f5 E5. injection H as <-. cbn [td_plain]. intros P.
    repeat rewrite andb_true_iff in P. destruct P as [[[[[Pu P1] P2] P3] P4] P5]. subst um.
    destruct f1; [discriminate|]. destruct f2; [discriminate|]. destruct f3; [discriminate|].
    destruct f4; [discriminate|]. destruct f5; [discriminate|].
    rewrite required_seen in Eev by yin. rewrite lookup_seen in Eu by yin.
    rewrite optional_seen in E1 by yin. rewrite optional_seen in E2 by yin.
    rewrite optional_seen in E3 by yin. rewrite optional_seen in E4 by yin.
    rewrite optional_seen in E5 by yin. unfold nm in *.
    rewrite optional_none in E1 by (reflexivity || (apply S; yin)).
    rewrite optional_none in E2 by (reflexivity || (apply S; yin)).
    rewrite optional_none in E3 by (reflexivity || (apply S; yin)).
    rewrite optional_none in E4 by (reflexivity || (apply S; yin)).
    rewrite optional_none in E5 by (reflexivity || (apply S; yin)).
    unfold required in Eev. destruct (lookup (of_string "traceEvents") l) as [v|] eqn:Lv; [|discriminate].
    cbn [obnd] in Eev. unfold as_list in Eev. destruct v as [| | | |el|]; try discriminate.
    apply lookup_in in Lv. apply events_sound in Eev.
    exists l, el. split; [reflexivity|]. split; [exact S|]. split; [exact Lv|]. split; [exact Eev|].
    split.
    { intros v Hv. apply lookup_single in Hv; [|apply S; yin]. rewrite Hv in Eu. now apply unit_ms. }
    split.
    { intros k v [<-|[<-|[<-|[<-|[<-|[]]]]]]; auto. }
    split; [|reflexivity]. cbn [td_extra]. apply to_map_mapping. exact iter_perm.
  Qed.

  Theorem document_complete d td : plain_document time ident d td ->
    exists td', to_trace_data time ident iter d = Some td' /\ same_data td td'.
  Proof.
    intros [l [el [-> [S [Hin [Hev [Hu [Hn [Hm Hp]]]]]]]]].
    apply events_complete in Hev. destruct Hev as [m' [Eev Hs]].
    unfold to_trace_data.
    assert (E : visit standard [] [] l
                = Some (filter (fun e => known standard (fst e)) l, others standard l)).
    { apply visit_spec. auto. }
    unfold standard in E. unfold nm. rewrite E. cbn [obnd]. clear E. fold standard in *.
    rewrite required_seen by yin. rewrite lookup_seen by yin. rewrite !optional_seen by yin.
    unfold required. apply lookup_single in Hin; [|apply S; yin]. rewrite Hin. cbn [obnd as_list].
    rewrite Eev. cbn [obnd].
    replace (match lookup (of_string "displayTimeUnit") l with
             | Some v => as_time_unit v | None => Some true end) with (Some true).
    2:{ destruct (lookup (of_string "displayTimeUnit") l) as [v|] eqn:L; [|reflexivity].
        apply lookup_in in L. symmetry. apply unit_ms. now apply Hu. }
    cbn [obnd].
    assert (Q : forall A (conv : doc -> option A) k,
      In k [of_string "systemTraceEvents"; of_string "powerTraceAsString"; of_string "stackFrames";
            of_string "samples"; of_string "controllerTraceDataKey"] -> conv DNull = None ->
      optional conv k l = Some None).
    { intros A conv k Hk C. apply optional_none; [exact C|apply S; right; right; exact Hk|].
      intros v. apply Hn. exact Hk. }
    repeat (rewrite Q; [cbn [obnd]|yin|reflexivity]).
    eexists. split; [reflexivity|]. split; [rewrite Hp; reflexivity|]. cbn [td_extra td_events].
    split; [|exact Hs].
    exact (mapping_same ident _ _ _ Hm (to_map_mapping ident iter iter_perm _)).
  Qed.

  (** ** Loading *)
  Variable us : Z.
  Variable up al : chr -> bool.

  Lemma boom_plain td : from_data us up al td = Boom -> td_plain td = true.
  Proof. unfold from_data. destruct (td_plain td); [reflexivity|discriminate]. Qed.
  Lemma ok_plain td ct : from_data us up al td = Ok ct -> td_plain td = true.
  Proof. unfold from_data. destruct (td_plain td); [reflexivity|discriminate]. Qed.

  Theorem loaded_iff d ct :
    from_document time ident iter us up al d = Loaded ct <->
    exists td, plain_document time ident d td /\ from_data us up al td = Ok ct.
  Proof.
    unfold from_document. split.
    - destruct (to_trace_data time ident iter d) as [td|] eqn:E; [|discriminate].
      destruct (from_data us up al td) as [ct'| |] eqn:F; try discriminate.
      intros H. injection H as <-. exists td. split; [|exact F].
      apply document_sound; [exact E|exact (ok_plain _ _ F)].
    - intros [td [P F]]. apply document_complete in P. destruct P as [td' [E Hs]]. rewrite E.
      destruct (same_from_data us up al _ _ Hs) as [H _]. now rewrite (H _ F).
  Qed.

  Theorem panicked_iff d :
    from_document time ident iter us up al d = Panicked <->
    exists td, plain_document time ident d td /\ from_data us up al td = Boom.
  Proof.
    unfold from_document. split.
    - destruct (to_trace_data time ident iter d) as [td|] eqn:E; [|discriminate].
      destruct (from_data us up al td) as [ct'| |] eqn:F; try discriminate.
      intros _. exists td. split; [|exact F].
      apply document_sound; [exact E|exact (boom_plain _ F)].
    - intros [td [P F]]. apply document_complete in P. destruct P as [td' [E Hs]]. rewrite E.
      destruct (same_from_data us up al _ _ Hs) as [_ H]. now rewrite (H F).
  Qed.

  Lemma event_distinct d e : event time ident d e -> distinct_event e.
  Proof.
    assert (M : forall l (d : duration_event), duration_fields time ident l d ->
                match de_args d with Some a => distinct_keys a | None => True end).
    { intros l d0 [_ [_ [_ [_ [_ [_ [_ [Ha _]]]]]]]]. destruct (de_args d0) as [a|]; [|exact I].
      destruct Ha as [v [_ [fs [_ [D _]]]]]. exact D. }
    destruct 1 as [| |l d dur tdur stack T Hd| | | | |]; cbn; try exact I. exact (M l d Hd).
  Qed.
  Lemma plain_distinct d td : plain_document time ident d td -> distinct_data td.
  Proof.
    intros [l [el [_ [_ [_ [F _]]]]]]. unfold distinct_data. induction F; constructor; [|assumption].
    eapply event_distinct. eassumption.
  Qed.
End WithNumbers.

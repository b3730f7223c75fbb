(** * Events and documents *)

From Coq Require Import String Permutation.
From Verif Require Import Base Load_Model Load_Spec Ctf_Model Ctf_Spec Ctf_Proofs Ctf_Proofs2.
Local Open Scope bool_scope.
Local Open Scope list_scope.

Ltac nin := apply known_not; vm_compute; reflexivity.
Ltac yin := apply known_In; vm_compute; reflexivity.

(** Inversion of a chain of [obnd] *)
Ltac peel H x E :=
  match type of H with
  | obnd ?c _ = Some _ => destruct c as [x|] eqn:E; [cbn [obnd] in H|discriminate H]
  end.

Lemma required_seen {A} (conv : doc -> option A) names k l : In k names ->
  required conv k (filter (fun e => known names (fst e)) l) = required conv k l.
Proof. intros H. unfold required. now rewrite lookup_seen. Qed.
Lemma optional_seen {A} (conv : doc -> option A) names k l : In k names ->
  optional conv k (filter (fun e => known names (fst e)) l) = optional conv k l.
Proof. intros H. unfold optional. now rewrite lookup_seen. Qed.

Lemma has_others {A} names l k (R : doc -> A -> Prop) x :
  ~ In k names -> (has (others names l) k R x <-> has l k R x).
Proof.
  intros N. unfold has. split; intros [v [Hin HR]]; exists v;
    (split; [apply (in_others names l k v N); exact Hin|exact HR]).
Qed.
Lemma may_have_others {A} names l k (R : doc -> A -> Prop) o :
  ~ In k names -> (may_have (others names l) k R o <-> may_have l k R o).
Proof.
  intros N. destruct o as [x|]; cbn; [now apply has_others|].
  rewrite (absent_others names l k N), (in_others names l k DNull N). reflexivity.
Qed.

Section WithNumbers.
  Variable time : number -> Z.
  Variable ident : number -> N.
  Variable iter : args -> args.
  Hypothesis iter_perm : forall l, Permutation l (iter l).

  Definition duration_names : list str :=
    [of_string "pid"; of_string "tid"; of_string "ts"; of_string "name"; of_string "cat";
     of_string "tts"; of_string "args"].

  Lemma duration_sound l d :
    to_duration_event time ident iter l = Some d -> duration_fields time ident l d.
  Proof.
    unfold to_duration_event. intros H. peel H x E. destruct x as [seen rest].
    apply visit_spec in E. destruct E as [-> [-> S]].
    peel H pid Epid. peel H tid Etid. peel H ts Ets. peel H name Ename. peel H cat Ecat.
    peel H tts Etts. peel H a Ea. injection H as <-.
    rewrite required_seen in Epid by yin. rewrite required_seen in Etid by yin. rewrite required_seen in Ets by yin.
    rewrite optional_seen in Ename by yin. rewrite optional_seen in Ecat by yin. rewrite optional_seen in Etts by yin. rewrite optional_seen in Ea by yin.
    apply (required_iff _ _ _ _ _ i32_exactly) in Epid; [|apply S; yin].
    apply (required_iff _ _ _ _ _ i32_exactly) in Etid; [|apply S; yin].
    apply (required_iff _ _ _ _ _ (time_exactly time)) in Ets; [|apply S; yin].
    apply (optional_iff _ _ _ _ _ text_exactly eq_refl) in Ename; [|apply S; yin].
    apply (optional_iff _ _ _ _ _ categories_exactly eq_refl) in Ecat; [|apply S; yin].
    apply (optional_iff _ _ _ _ _ (time_exactly time) eq_refl) in Etts; [|apply S; yin].
    split; [exact S|]. cbn [de_pid de_tid de_ts de_name de_cat de_tts de_args de_stack].
    repeat (split; [assumption|]). split.
    - apply (optional_iff (as_map ident iter) (fun v m => as_map ident iter v = Some m)) in Ea;
        [|intros v m; reflexivity|reflexivity|apply S; yin].
      destruct a as [m|]; [|exact Ea]. destruct Ea as [v [Hin Hv]]. exists v. split; [exact Hin|].
      apply as_map_iff in Hv; assumption.
    - rewrite stack_others by nin. apply stack_iff; [discriminate|reflexivity].
  Qed.

  Lemma duration_complete l d :
    duration_fields time ident l d ->
    exists d', to_duration_event time ident iter l = Some d' /\ same_de d d'.
  Proof.
    intros [S [Hpid [Htid [Hts [Hname [Hcat [Htts [Ha Hst]]]]]]]].
    unfold to_duration_event.
    assert (E : visit [nm "pid"; nm "tid"; nm "ts"; nm "name"; nm "cat"; nm "tts"; nm "args"] [] [] l
                = Some (filter (fun e => known duration_names (fst e)) l, others duration_names l)).
    { apply visit_spec. auto. }
    rewrite E. cbn [obnd].
    rewrite !required_seen by yin. rewrite !optional_seen by yin.
    apply (required_iff _ _ _ _ _ i32_exactly) in Hpid; [|apply S; yin].
    apply (required_iff _ _ _ _ _ i32_exactly) in Htid; [|apply S; yin].
    apply (required_iff _ _ _ _ _ (time_exactly time)) in Hts; [|apply S; yin].
    apply (optional_iff _ _ _ _ _ text_exactly eq_refl) in Hname; [|apply S; yin].
    apply (optional_iff _ _ _ _ _ categories_exactly eq_refl) in Hcat; [|apply S; yin].
    apply (optional_iff _ _ _ _ _ (time_exactly time) eq_refl) in Htts; [|apply S; yin].
    unfold nm. rewrite Hpid, Htid, Hts, Hname, Hcat, Htts. cbn [obnd].
    assert (Ha' : exists a', optional (as_map ident iter) (of_string "args") l = Some a'
                              /\ same_omap (de_args d) a').
    { assert (Sa : single l (of_string "args")) by (apply S; yin).
      assert (Q : forall o, optional (as_map ident iter) (of_string "args") l = Some o <->
                  may_have l (of_string "args") (fun v m => as_map ident iter v = Some m) o).
      { intros o. apply optional_iff; [intros v m; reflexivity|reflexivity|exact Sa]. }
      destruct (de_args d) as [m|].
      - destruct Ha as [v [Hin [fs [-> Hm]]]]. exists (Some (to_map ident iter fs)). split.
        + apply Q. exists (DObj fs). auto.
        + exact (mapping_same ident _ _ _ Hm (to_map_mapping ident iter iter_perm fs)).
      - exists None. split; [apply Q; exact Ha|exact I]. }
    destruct Ha' as [a' [Ea Hsame]]. rewrite Ea. cbn [obnd]. eexists. split; [reflexivity|].
    unfold same_de. cbn [de_pid de_tid de_ts de_name de_cat de_tts de_args de_stack].
    repeat (split; [reflexivity|]). split; [|exact Hsame].
    rewrite stack_others by nin. symmetry. apply stack_iff; [discriminate|exact Hst].
  Qed.

  Lemma stack_is_others id inline names l o : id <> inline -> ~ In id names -> ~ In inline names ->
    (stack_is id inline (others names l) o <-> stack_is id inline l o).
  Proof.
    intros N A B. rewrite <- !stack_iff by exact N. now rewrite stack_others.
  Qed.

  Lemma duration_others names l d :
    (forall k, In k (of_string "sf" :: of_string "stack" :: duration_names) -> ~ In k names) ->
    (duration_fields time ident (others names l) d <-> duration_fields time ident l d).
  Proof.
    intros N. unfold duration_fields.
    assert (Sg : (forall k, In k duration_names -> single (others names l) k) <->
                 (forall k, In k duration_names -> single l k)).
    { split; intros S k Hk; apply (single_others names l k (N k (or_intror (or_intror Hk)))); auto. }
    fold duration_names. rewrite Sg.
    rewrite !has_others by (apply N; yin). rewrite !may_have_others by (apply N; yin).
    rewrite stack_is_others by (discriminate || (apply N; yin)). reflexivity.
  Qed.

  (** Complete events *)

  Lemma complete_sound l e :
    to_complete_event time ident iter l = Some e ->
    exists d dur tdur stack, e = EvX d dur tdur stack /\ duration_fields time ident l d
      /\ single l (of_string "dur") /\ single l (of_string "tdur")
      /\ has l (of_string "dur") (instant time) dur /\ may_have l (of_string "tdur") (instant time) tdur
      /\ stack_is (of_string "esf") (of_string "estack") l stack.
  Proof.
    unfold to_complete_event. intros H. peel H x E. destruct x as [seen rest].
    apply visit_spec in E. destruct E as [-> [-> S]].
    peel H dur Edur. peel H tdur Etdur. peel H d Ed. injection H as <-.
    rewrite required_seen in Edur by yin. rewrite optional_seen in Etdur by yin.
    apply (required_iff _ _ _ _ _ (time_exactly time)) in Edur; [|apply S; yin].
    apply (optional_iff _ _ _ _ _ (time_exactly time) eq_refl) in Etdur; [|apply S; yin].
    apply duration_sound in Ed.
    apply duration_others in Ed.
    2:{ intros k Hk [<-|[<-|[]]]; revert Hk; nin. }
    exists d, dur, tdur. eexists. split; [reflexivity|].
    repeat (split; [first [assumption | apply S; yin]|]).
    rewrite stack_others by nin. apply stack_iff; [discriminate|reflexivity].
  Qed.

  Lemma complete_complete l d dur tdur stack :
    duration_fields time ident l d ->
    single l (of_string "dur") -> single l (of_string "tdur") ->
    has l (of_string "dur") (instant time) dur -> may_have l (of_string "tdur") (instant time) tdur ->
    stack_is (of_string "esf") (of_string "estack") l stack ->
    exists e, to_complete_event time ident iter l = Some e /\ same_event (EvX d dur tdur stack) e.
  Proof.
    intros Hd S1 S2 Hdur Htdur Hst. unfold to_complete_event.
    assert (E : visit [nm "dur"; nm "tdur"] [] [] l
                = Some (filter (fun e => known [nm "dur"; nm "tdur"] (fst e)) l, others [nm "dur"; nm "tdur"] l)).
    { apply visit_spec. repeat split. intros k [<-|[<-|[]]]; assumption. }
    rewrite E. cbn [obnd]. rewrite required_seen by yin. rewrite optional_seen by yin.
    apply (required_iff _ _ _ _ _ (time_exactly time)) in Hdur; [|exact S1].
    apply (optional_iff _ _ _ _ _ (time_exactly time) eq_refl) in Htdur; [|exact S2].
    unfold nm in *. rewrite Hdur, Htdur. cbn [obnd].
    apply (duration_others [of_string "dur"; of_string "tdur"]) in Hd.
    2:{ intros k Hk [<-|[<-|[]]]; revert Hk; nin. }
    apply duration_complete in Hd. destruct Hd as [d' [Ed Hs]]. rewrite Ed. cbn [obnd].
    eexists. split; [reflexivity|].
    rewrite stack_others by nin. apply stack_iff in Hst; [|discriminate].
    rewrite Hst. now constructor.
  Qed.

  (** Metadata *)

  Lemma options_sound l o : to_options time l = Some o ->
    (forall k, In k [of_string "cat"; of_string "ts"; of_string "tts"] -> single l k)
    /\ may_have l (of_string "cat") categories (mo_cat o)
    /\ may_have l (of_string "ts") (instant time) (mo_ts o)
    /\ may_have l (of_string "tts") (instant time) (mo_tts o).
  Proof.
    unfold to_options. intros H. peel H x E. destruct x as [seen rest].
    apply visit_spec in E. destruct E as [-> [_ S]].
    peel H cat Ecat. peel H ts Ets. peel H tts Etts. injection H as <-.
    rewrite optional_seen in Ecat by yin. rewrite optional_seen in Ets by yin. rewrite optional_seen in Etts by yin.
    apply (optional_iff _ _ _ _ _ categories_exactly eq_refl) in Ecat; [|apply S; yin].
    apply (optional_iff _ _ _ _ _ (time_exactly time) eq_refl) in Ets; [|apply S; yin].
    apply (optional_iff _ _ _ _ _ (time_exactly time) eq_refl) in Etts; [|apply S; yin].
    cbn. auto.
  Qed.

  Lemma options_complete l o :
    (forall k, In k [of_string "cat"; of_string "ts"; of_string "tts"] -> single l k) ->
    may_have l (of_string "cat") categories (mo_cat o) ->
    may_have l (of_string "ts") (instant time) (mo_ts o) ->
    may_have l (of_string "tts") (instant time) (mo_tts o) ->
    to_options time l = Some o.
  Proof.
    intros S Hcat Hts Htts. unfold to_options.
    set (names := [of_string "cat"; of_string "ts"; of_string "tts"]) in *.
    assert (E : visit [nm "cat"; nm "ts"; nm "tts"] [] [] l
                = Some (filter (fun e => known names (fst e)) l, others names l))
      by (apply visit_spec; auto).
    rewrite E. cbn [obnd]. rewrite !optional_seen by yin.
    apply (optional_iff _ _ _ _ _ categories_exactly eq_refl) in Hcat; [|apply S; yin].
    apply (optional_iff _ _ _ _ _ (time_exactly time) eq_refl) in Hts; [|apply S; yin].
    apply (optional_iff _ _ _ _ _ (time_exactly time) eq_refl) in Htts; [|apply S; yin].
    unfold nm. rewrite Hcat, Hts, Htts. destruct o. reflexivity.
  Qed.

  Lemma args_sound {A} name (conv : doc -> option A) R v x :
    exactly conv R -> to_args ident iter name conv v = Some x -> arguments ident name R v x.
  Proof.
    intros Ex. unfold to_args, arguments. destruct v; try discriminate. intros H.
    peel H y E. destruct y as [seen rest]. apply visit_spec in E. destruct E as [-> [-> S]].
    peel H a Ea. injection H as <-. assert (Hn : In name [name]) by now left.
    rewrite required_seen in Ea by exact Hn.
    apply (required_iff _ _ _ _ _ Ex) in Ea; [|exact (S name Hn)].
    exists l. cbn [fst snd]. split; [reflexivity|]. split; [exact (S name Hn)|]. split; [exact Ea|].
    apply to_map_mapping. exact iter_perm.
  Qed.

  Lemma args_complete {A} name (conv : doc -> option A) R v a m :
    exactly conv R -> arguments ident name R v (a, m) ->
    exists m', to_args ident iter name conv v = Some (a, m') /\ same_map m m'.
  Proof.
    intros Ex [l [-> [S [Ha Hm]]]]. cbn [fst snd] in *. unfold to_args.
    assert (Hn : In name [name]) by now left.
    assert (E : visit [name] [] [] l = Some (filter (fun e => known [name] (fst e)) l, others [name] l)).
    { apply visit_spec. repeat split. intros k [<-|[]]. exact S. }
    rewrite E. cbn [obnd]. rewrite required_seen by exact Hn.
    apply (required_iff _ _ _ _ _ Ex) in Ha; [|exact S]. rewrite Ha. cbn [obnd].
    eexists. split; [reflexivity|].
    exact (mapping_same ident _ _ _ Hm (to_map_mapping ident iter iter_perm _)).
  Qed.

  Definition option_names : list str := [of_string "cat"; of_string "ts"; of_string "tts"].

  Lemma metadata_sound {A} name (conv : doc -> option A) R owner other l x a extra y o :
    exactly conv R ->
    (forall k, In k option_names -> ~ In k [owner; of_string "args"; other]) ->
    to_metadata time ident iter name conv owner other l = Some (x, a, extra, y, o) ->
    metadata_fields time ident name R owner other l x a extra y o.
  Proof.
    intros Ex N. unfold to_metadata. intros H. peel H z E. destruct z as [seen rest].
    apply visit_spec in E. destruct E as [-> [-> S]].
    peel H x0 Ex0. peel H ae Eae. destruct ae as [a0 extra0]. peel H y0 Ey0. peel H o0 Eo0.
    injection H as -> -> -> -> ->.
    rewrite required_seen in Ex0 by (now left). rewrite required_seen in Eae by (right; now left).
    rewrite optional_seen in Ey0 by (right; right; now left).
    apply (required_iff _ _ _ _ _ i32_exactly) in Ex0; [|apply S; now left].
    apply (optional_iff _ _ _ _ _ i32_exactly eq_refl) in Ey0; [|apply S; right; right; now left].
    apply options_sound in Eo0. destruct Eo0 as [So [Hcat [Hts Htts]]].
    rewrite may_have_others in Hcat by (apply N; yin). rewrite may_have_others in Hts by (apply N; yin).
    rewrite may_have_others in Htts by (apply N; yin).
    split.
    { intros k [<-|[<-|[<-|Hk]]]; [apply S; now left|apply S; right; right; now left|apply S; right; now left|].
      apply (single_others [owner; of_string "args"; other] l k (N k Hk)). apply So. exact Hk. }
    split; [exact Ex0|]. split; [exact Ey0|]. split; [|auto].
    unfold required, obnd in Eae. destruct (lookup (nm "args") l) as [v|] eqn:L; [|discriminate].
    apply lookup_in in L. exists v. split; [exact L|]. now apply (args_sound name conv).
  Qed.

  Lemma metadata_complete {A} name (conv : doc -> option A) R owner other l x a extra y o :
    exactly conv R ->
    (forall k, In k option_names -> ~ In k [owner; of_string "args"; other]) ->
    metadata_fields time ident name R owner other l x a extra y o ->
    exists extra', to_metadata time ident iter name conv owner other l = Some (x, a, extra', y, o)
      /\ same_map extra extra'.
  Proof.
    intros Ex N [S [Hx [Hy [Ha [Hcat [Hts Htts]]]]]]. unfold to_metadata.
    set (names := [owner; nm "args"; other]).
    assert (E : visit names [] [] l
                = Some (filter (fun e => known names (fst e)) l, others names l)).
    { apply visit_spec. repeat split. intros k [<-|[<-|[<-|[]]]]; apply S; cbn [In]; auto. }
    rewrite E. cbn [obnd].
    rewrite required_seen by (now left). rewrite required_seen by (right; now left).
    rewrite optional_seen by (right; right; now left).
    apply (required_iff _ _ _ _ _ i32_exactly) in Hx; [|apply S; now left].
    apply (optional_iff _ _ _ _ _ i32_exactly eq_refl) in Hy; [|apply S; right; now left].
    rewrite Hx. cbn [obnd].
    destruct Ha as [v [Hin Hv]]. apply lookup_single in Hin; [|apply S; cbn [In]; auto].
    apply (args_complete name conv) in Hv; [|exact Ex]. destruct Hv as [m' [Em Hsame]].
    unfold required. change (nm "args") with (of_string "args"). rewrite Hin. cbn [obnd].
    rewrite Em. cbn [obnd]. rewrite Hy. cbn [obnd].
    rewrite (options_complete (others names l) o).
    - cbn [obnd]. exists m'. auto.
    - intros k Hk. apply (single_others names l k (N k Hk)). apply S.
      right. right. right. exact Hk.
    - apply may_have_others; [apply N; yin|exact Hcat].
    - apply may_have_others; [apply N; yin|exact Hts].
    - apply may_have_others; [apply N; yin|exact Htts].
  Qed.

  Lemma kind_spec v n : metadata_kind v = Some n <->
    (v = DNum (NInt (Z.of_nat n)) /\ n < 5) \/
    exists s, v = DStr s /\ nth_error [of_string "process_name"; of_string "process_labels";
                of_string "process_sort_index"; of_string "thread_name"; of_string "thread_sort_index"] n = Some s.
  Proof.
    unfold metadata_kind. destruct v as [| |[z|]|s| |];
      try (split; [discriminate|intros [[F _]|[t [F _]]]; discriminate]).
    - destruct ((0 <=? z)%Z && (z <? 5)%Z) eqn:B.
      + apply andb_true_iff in B. destruct B as [B1 B2]. apply Z.leb_le in B1. apply Z.ltb_lt in B2.
        split.
        * intros H. injection H as <-. left. split; [now rewrite Z2Nat.id|lia].
        * intros [[F _]|[t [F _]]]; [|discriminate]. injection F as ->. now rewrite Nat2Z.id.
      + split; [discriminate|]. intros [[F L]|[t [F _]]]; [|discriminate]. injection F as ->.
        apply andb_false_iff in B. destruct B as [B|B]; [apply Z.leb_gt in B|apply Z.ltb_ge in B]; lia.
    - unfold nm. split.
      + intros H. right. exists s. split; [reflexivity|]. revert H.
        repeat match goal with
        | |- (if str_eqb s ?t then _ else _) = _ -> _ =>
            destruct (str_eqb_spec s t) as [->|?];
            [intros H; injection H as <-; reflexivity|]
        end. discriminate.
      + intros [[F _]|[t [F H]]]; [discriminate|]. injection F as ->.
        do 5 (destruct n as [|n]; [injection H as <-; reflexivity|]).
        destruct n; discriminate.
  Qed.

  Lemma tag_kind l n s : (exists v, tagged l (of_string "name") v /\ metadata_kind v = Some n) ->
    nth_error [of_string "process_name"; of_string "process_labels";
                of_string "process_sort_index"; of_string "thread_name"; of_string "thread_sort_index"] n = Some s ->
    metadata_tag l s (Z.of_nat n).
  Proof.
    intros [v [T K]] E. apply kind_spec in K. destruct K as [[-> _]|[t [-> H]]].
    - right. exact T.
    - left. rewrite E in H. injection H as <-. exact T.
  Qed.
  Lemma kind_tag l n s : metadata_tag l s (Z.of_nat n) -> n < 5 ->
    nth_error [of_string "process_name"; of_string "process_labels";
                of_string "process_sort_index"; of_string "thread_name"; of_string "thread_sort_index"] n = Some s ->
    exists v, tagged l (of_string "name") v /\ metadata_kind v = Some n.
  Proof.
    intros [T|T] L E; eexists; (split; [exact T|]); apply kind_spec; [right; eauto|left; auto].
  Qed.

  Lemma metadata_others {A} name (R : doc -> A -> Prop) owner other names l x a extra y o :
    (forall k, In k [owner; other; of_string "args"; of_string "cat"; of_string "ts"; of_string "tts"] ->
       ~ In k names) ->
    (metadata_fields time ident name R owner other (others names l) x a extra y o <->
     metadata_fields time ident name R owner other l x a extra y o).
  Proof.
    intros N. unfold metadata_fields.
    set (ks := [owner; other; of_string "args"; of_string "cat"; of_string "ts"; of_string "tts"]) in *.
    assert (Sg : (forall k, In k ks -> single (others names l) k) <-> (forall k, In k ks -> single l k)).
    { split; intros S k Hk; apply (single_others names l k (N k Hk)); auto. }
    rewrite Sg. rewrite !has_others by (apply N; cbn; auto).
    rewrite !may_have_others by (apply N; cbn; auto 7). reflexivity.
  Qed.

  Lemma tagged_others names l k v : ~ In k names -> (tagged (others names l) k v <-> tagged l k v).
  Proof. intros N. unfold tagged. rewrite (single_others names l k N), (in_others names l k v N). reflexivity. Qed.
End WithNumbers.

(** Properties C11-C17 (activity tree). *)
From Coq Require Import Sorted.
From Verif Require Import Base Tree_Model Tree_Spec Tree_Proofs Tree_Proofs2.

(** C11.  In general an activity a reported before b is a descendant of b when it and
    everything reported between them starts no earlier than b ... *)
Theorem C11_descendants :
  forall (A : Type) (xs : list (stat A)) (t : tree A), tree_of xs t ->
  forall b sb, reported xs b sb ->
  exists l, all_children t b = Ret l /\
    forall a, In a l <-> a < b /\
      forall c sc, a <= c < b -> reported xs c sc -> (s_start sb <= s_start sc)%Z.
Proof. exact descendants. Qed.
Print Assumptions C11_descendants.

(** ... which, except for zero-length activities, is interval containment. *)
Theorem C11_descendants_are_contained_activities :
  forall (A : Type) (xs : list (stat A)) (t : tree A), tree_of xs t ->
  forall a sa b sb, reported xs a sa -> reported xs b sb ->
  exists l, all_children t b = Ret l /\
    (In a l -> a < b /\ inside sa sb) /\
    ((0 < s_dur sa)%Z -> a < b -> inside sa sb -> In a l).
Proof. exact descendants_contained. Qed.
Print Assumptions C11_descendants_are_contained_activities.

Theorem C11_direct_children_are_the_closest_descendants :
  forall (A : Type) (xs : list (stat A)) (t : tree A), tree_of xs t ->
  forall b, b < length xs ->
  exists d l, direct_children t b = Ret d /\ all_children t b = Ret l /\
    forall a, In a d <-> In a l /\ ~ exists c lc, In c l /\ all_children t c = Ret lc /\ In a lc.
Proof. exact direct_iff. Qed.
Print Assumptions C11_direct_children_are_the_closest_descendants.

Theorem C11_parent_is_inverse_of_direct_children :
  forall (A : Type) (xs : list (stat A)) (t : tree A), tree_of xs t ->
  forall a, a < length xs ->
  exists q, parent t a = Ret q /\
    forall b, q = Some b <-> b < length xs /\ exists d, direct_children t b = Ret d /\ In a d.
Proof. exact parent_iff. Qed.
Print Assumptions C11_parent_is_inverse_of_direct_children.

Theorem C11_roots_are_the_activities_without_parent :
  forall (A : Type) (xs : list (stat A)) (t : tree A), tree_of xs t ->
  exists l, root_activities t = Ret l /\
    forall r, In r l <-> r < length xs /\ parent t r = Ret None.
Proof. exact roots_iff. Qed.
Print Assumptions C11_roots_are_the_activities_without_parent.

(** C12 *)
Theorem C12_all_activities_in_input_order :
  forall (A : Type) (xs : list (stat A)) (t : tree A), tree_of xs t ->
  all_activities t = combine (seq 0 (length xs)) xs /\
  (forall i s, reported xs i s -> exists nd, activity_trace t i = Ret nd /\ n_stat nd = s).
Proof. exact all_listed. Qed.
Print Assumptions C12_all_activities_in_input_order.

Theorem C12_root_subtrees_partition :
  forall (A : Type) (xs : list (stat A)) (t : tree A), tree_of xs t ->
  exists roots, root_activities t = Ret roots /\ NoDup roots /\
    forall i, i < length xs -> exists! r, In r roots /\
      (i = r \/ exists l, all_children t r = Ret l /\ In i l).
Proof. exact root_partition. Qed.
Print Assumptions C12_root_subtrees_partition.

Theorem C12_subtrees_are_contiguous :
  forall (A : Type) (xs : list (stat A)) (t : tree A), tree_of xs t ->
  forall b, b < length xs -> exists f, f <= b /\ all_children t b = Ret (seq f (b - f)).
Proof. exact contiguous. Qed.
Print Assumptions C12_subtrees_are_contiguous.

Theorem C12_children_listed_latest_first :
  forall (A : Type) (xs : list (stat A)) (t : tree A), tree_of xs t ->
  (exists l, root_activities t = Ret l /\ StronglySorted gt l) /\
  forall b, b < length xs -> exists d, direct_children t b = Ret d /\ StronglySorted gt d.
Proof. exact listing_order. Qed.
Print Assumptions C12_children_listed_latest_first.

(** C13 *)
Theorem C13_parents_enclose_children :
  forall (A : Type) (xs : list (stat A)) (t : tree A), tree_of xs t ->
  forall b d, b < length xs -> direct_children t b = Ret d ->
  forall i a s, In i d -> reported xs i a -> reported xs b s -> inside a s.
Proof. exact children_enclosed. Qed.
Print Assumptions C13_parents_enclose_children.

Theorem C13_siblings_do_not_overlap :
  forall (A : Type) (xs : list (stat A)) (t : tree A), tree_of xs t ->
  forall l, (root_activities t = Ret l \/ exists b, b < length xs /\ direct_children t b = Ret l) ->
  forall i j a c, In i l -> In j l -> i < j -> reported xs i a -> reported xs j c -> before a c.
Proof. exact siblings_apart. Qed.
Print Assumptions C13_siblings_do_not_overlap.

(** C14 *)
Theorem C14_accepts_exactly_well_nested_traces :
  forall (A : Type) (xs : list (stat A)),
  (exists b, accepted xs b) <-> sorted_by_end xs /\ nested_or_disjoint xs.
Proof. exact accepted_iff. Qed.
Print Assumptions C14_accepts_exactly_well_nested_traces.

Theorem C14_errors_name_the_first_violation :
  forall (A : Type) (xs : list (stat A)) i r b, insert_all b_new xs = (inr (i, r), b) ->
  exists a, reported xs i a /\ (exists b0, accepted (firstn i xs) b0) /\
    match r with
    | IErr (UnexpectedOrder p c) => c = s_end a /\ (c < p)%Z /\
         exists j s, i = S j /\ reported xs j s /\ p = s_end s
    | IErr (PartialOverlap p q) => q = a /\ (s_start p < s_start a < s_end p)%Z /\
         (forall j s, j < i -> reported xs j s -> (s_end s <= s_end a)%Z) /\
         exists j, j < i /\ reported xs j p
    | _ => False
    end.
Proof. exact error_meaning. Qed.
Print Assumptions C14_errors_name_the_first_violation.

(** C15 *)
Theorem C15_build_never_panics :
  forall (A : Type) (xs : list (stat A)) b, accepted xs b -> exists t, build b = Ret t.
Proof. exact build_total. Qed.
Print Assumptions C15_build_never_panics.

(** C16 *)
Theorem C16_self_duration_is_what_children_leave :
  forall (A : Type) (xs : list (stat A)) (t : tree A), tree_of xs t ->
  forall b s, reported xs b s ->
  exists d c, direct_children t b = Ret d /\ osum (duration t) d = Ret c /\
              self_duration t b = Ret (s_dur s - c)%Z.
Proof. exact self_is_rest. Qed.
Print Assumptions C16_self_duration_is_what_children_leave.

Theorem C16_subtree_self_durations_sum_to_duration :
  forall (A : Type) (xs : list (stat A)) (t : tree A), tree_of xs t ->
  forall b s, reported xs b s ->
  exists l, all_children t b = Ret l /\ osum (self_duration t) (l ++ [b]) = Ret (s_dur s).
Proof. exact subtree_sum. Qed.
Print Assumptions C16_subtree_self_durations_sum_to_duration.

Theorem C16_all_self_durations_sum_to_root_durations :
  forall (A : Type) (xs : list (stat A)) (t : tree A), tree_of xs t ->
  exists roots total, root_activities t = Ret roots /\
    osum (duration t) roots = Ret total /\
    osum (self_duration t) (seq 0 (length xs)) = Ret total.
Proof. exact total_sum. Qed.
Print Assumptions C16_all_self_durations_sum_to_root_durations.

Theorem C16_self_durations_not_negative :
  forall (A : Type) (xs : list (stat A)) (t : tree A), tree_of xs t ->
  (forall i s, reported xs i s -> (0 <= s_dur s)%Z) ->
  forall b, b < length xs -> exists d, self_duration t b = Ret d /\ (0 <= d)%Z.
Proof. exact self_nonneg. Qed.
Print Assumptions C16_self_durations_not_negative.

(** Non-vacuity: a trace with nesting, siblings, two roots and a zero-length activity. *)
Definition demo : list (stat Z) :=
  [mk_stat 10 1 2; mk_stat 11 4 0; mk_stat 12 3 4; mk_stat 13 0 9; mk_stat 14 9 3; mk_stat 15 12 1; mk_stat 16 9 5]%Z.
Example C11_C16_witness :
  exists t, tree_of demo t /\
    root_activities t = Ret [6; 3] /\ direct_children t 3 = Ret [2; 0] /\
    all_children t 3 = Ret [0; 1; 2] /\ direct_children t 6 = Ret [5; 4] /\
    parent t 1 = Ret (Some 2) /\ parent t 6 = Ret None /\
    self_duration t 3 = Ret 3%Z /\ self_duration t 6 = Ret 1%Z.
Proof.
  eexists. split; [eexists; split; vm_compute; reflexivity|].
  repeat split; vm_compute; reflexivity.
Qed.
Example C14_witness :
  (exists b, insert_all b_new [mk_stat 1 0 5; mk_stat 2 6 2; mk_stat 3 3 6]%Z
     = (inr (2%nat, IErr (PartialOverlap (mk_stat 1 0 5) (mk_stat 3 3 6))), b))%Z /\
  (exists b, insert_all b_new [mk_stat 1 0 5; mk_stat 2 0 4]%Z
     = (inr (1%nat, IErr (UnexpectedOrder 5 4)), b))%Z.
Proof. split; eexists; vm_compute; reflexivity. Qed.

(** C17 is false of the code: after this rejected insertion, `build` panics although it
    succeeded before. *)
Theorem C17_failed_insert_leaves_builder_refuted :
  ~ (forall (A : Type) (xs : list (stat A)) b a e b', accepted xs b ->
     insert b a = (IErr e, b') -> build b' = build b).
Proof.
  intros H. specialize (H Z [mk_stat 1 0 5; mk_stat 2 6 2]%Z).
  destruct (insert_all b_new [mk_stat 1 0 5; mk_stat 2 6 2]%Z) as [r b] eqn:E.
  assert (Hr : r = inl tt) by (revert E; vm_compute; intros E; injection E as <- _; reflexivity).
  subst r. revert E. vm_compute in H |- *. intros E. injection E as <-.
  specialize (H _ (mk_stat 3 3 6)%Z _ _ eq_refl eq_refl). discriminate.
Qed.
Print Assumptions C17_failed_insert_leaves_builder_refuted.

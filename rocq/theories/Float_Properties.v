(** Property C82: the activity tree with the floating-point time stamps of the code. *)
From Verif Require Import Base Tree_Model Tree_Spec Float_Model Float_Spec Float_Proofs Float_Proofs2 Float_Proofs3 Float_Proofs4 Float_Proofs5.

(** The arithmetic is that of IEEE 754 *)
Theorem C82_arithmetic :
  (forall x y, rounds_to (x + y) (fadd (Num x) (Num y))) /\
  (forall x y, rounds_to (x - y) (fsub (Num x) (Num y))) /\
  (forall a b, flt a b = true <-> less a b) /\
  (forall a b, fle a b = true <-> at_most a b).
Proof.
  split; [intros; apply of_exact_rounds|]. split; [intros; apply of_exact_rounds|]. split.
  - intros [x|[]|] [y|[]|]; unfold less; simpl; rewrite ?Z.ltb_lt; try lia; try tauto;
      split; intros; try discriminate; tauto.
  - intros [x|[]|] [y|[]|]; simpl; rewrite ?Z.leb_le; try tauto; split; intros; try discriminate; tauto.
Qed.
Print Assumptions C82_arithmetic.

Theorem C82_rounding_determined :
  forall x a b, rounds_to x a -> rounds_to x b -> a = b.
Proof. exact rounds_unique. Qed.
Print Assumptions C82_rounding_determined.

Theorem C82_end_is_the_rounded_sum :
  forall (A : Type) (s : fstat A), finite (fs_start s) -> finite (fs_dur s) ->
  exists x y, fs_start s = Num x /\ fs_dur s = Num y /\ rounds_to (x + y) (fs_end s) /\
    ((0 <= y)%Z -> at_most (fs_start s) (fs_end s)).
Proof. exact @end_rounds. Qed.
Print Assumptions C82_end_is_the_rounded_sum.

(** Structure (as C11-C13) *)
Theorem C82_activities_listed :
  forall (A : Type) (xs : list (fstat A)) t, ftree_of xs t ->
  forall i s, freported xs i s -> exists n, factivity_trace t i = Ret n /\ fn_stat n = s.
Proof. exact @f_listed. Qed.
Print Assumptions C82_activities_listed.

Theorem C82_descendants :
  forall (A : Type) (xs : list (fstat A)) t, timed xs -> ftree_of xs t ->
  forall b sb, freported xs b sb ->
  exists l, fall_children t b = Ret l /\
    forall a, In a l <-> a < b /\
      forall c sc, a <= c < b -> freported xs c sc -> at_most (fs_start sb) (fs_start sc).
Proof. exact @f_descendants. Qed.
Print Assumptions C82_descendants.

Theorem C82_descendants_are_contained_activities :
  forall (A : Type) (xs : list (fstat A)) t, timed xs -> ftree_of xs t ->
  forall a sa b sb, freported xs a sa -> freported xs b sb ->
  exists l, fall_children t b = Ret l /\
    (In a l -> a < b /\ finside sa sb) /\
    (less (fs_start sa) (fs_end sa) -> a < b -> finside sa sb -> In a l).
Proof. exact @f_contained. Qed.
Print Assumptions C82_descendants_are_contained_activities.

Theorem C82_direct_children_are_the_closest_descendants :
  forall (A : Type) (xs : list (fstat A)) t, timed xs -> ftree_of xs t ->
  forall b, b < length xs ->
  exists d l, fdirect_children t b = Ret d /\ fall_children t b = Ret l /\
    forall a, In a d <-> In a l /\ ~ exists c lc, In c l /\ fall_children t c = Ret lc /\ In a lc.
Proof. exact @f_direct. Qed.
Print Assumptions C82_direct_children_are_the_closest_descendants.

Theorem C82_parent_is_inverse_of_direct_children :
  forall (A : Type) (xs : list (fstat A)) t, timed xs -> ftree_of xs t ->
  forall a, a < length xs ->
  exists q, fparent t a = Ret q /\
    forall b, q = Some b <-> b < length xs /\ exists d, fdirect_children t b = Ret d /\ In a d.
Proof. exact @f_parent. Qed.
Print Assumptions C82_parent_is_inverse_of_direct_children.

Theorem C82_roots_are_the_activities_without_parent :
  forall (A : Type) (xs : list (fstat A)) t, timed xs -> ftree_of xs t ->
  exists l, froot_activities t = Ret l /\
    forall r, In r l <-> r < length xs /\ fparent t r = Ret None.
Proof. exact @f_roots. Qed.
Print Assumptions C82_roots_are_the_activities_without_parent.

Theorem C82_parents_enclose_children :
  forall (A : Type) (xs : list (fstat A)) t, timed xs -> ftree_of xs t ->
  forall b d, b < length xs -> fdirect_children t b = Ret d ->
  forall i a s, In i d -> freported xs i a -> freported xs b s -> finside a s.
Proof. exact @f_enclosed. Qed.
Print Assumptions C82_parents_enclose_children.

Theorem C82_siblings_do_not_overlap :
  forall (A : Type) (xs : list (fstat A)) t, timed xs -> ftree_of xs t ->
  forall l, (froot_activities t = Ret l \/ exists b, b < length xs /\ fdirect_children t b = Ret l) ->
  forall i j a c, In i l -> In j l -> i < j -> freported xs i a -> freported xs j c -> fbefore a c.
Proof. exact @f_siblings. Qed.
Print Assumptions C82_siblings_do_not_overlap.

(** Acceptance and errors (as C14, C15) *)
Theorem C82_accepts_exactly_well_nested_traces :
  forall (A : Type) (xs : list (fstat A)), timed xs ->
  ((exists t, ftree_of xs t) <->
   (forall s, In s xs -> fs_end s <> Infinite true) /\
   (forall i j a b, i < j -> freported xs i a -> freported xs j b -> at_most (fs_end a) (fs_end b)) /\
   (forall i j a b, i < j -> freported xs i a -> freported xs j b -> finside a b \/ fbefore a b)).
Proof. intros A xs Ht. rewrite <- (Forall_forall (fun s => fs_end s <> Infinite true) xs). apply f_accepted, Ht. Qed.
Print Assumptions C82_accepts_exactly_well_nested_traces.

Theorem C82_errors_name_the_first_violation :
  forall (A : Type) (xs : list (fstat A)) i r b, timed xs -> finsert_all fb_new xs = (inr (i, r), b) ->
  exists a, freported xs i a /\ (exists t, ftree_of (firstn i xs) t) /\
    match r with
    | FIErr (FUnexpectedOrder p c) => c = fs_end a /\ less c p /\
         ((i = 0 /\ c = Infinite true) \/ exists j s, i = S j /\ freported xs j s /\ p = fs_end s)
    | FIErr (FPartialOverlap p q) => q = a /\ less (fs_start p) (fs_start a) /\ less (fs_start a) (fs_end p) /\
         (forall j s, j < i -> freported xs j s -> at_most (fs_end s) (fs_end a)) /\
         exists j, j < i /\ freported xs j p
    | _ => False
    end.
Proof. exact @f_error. Qed.
Print Assumptions C82_errors_name_the_first_violation.

Theorem C82_build_never_panics :
  forall (A : Type) (xs : list (fstat A)), timed xs ->
  forall b, finsert_all fb_new xs = (inl tt, b) -> exists t, fbuild b = Ret t.
Proof. exact @f_built. Qed.
Print Assumptions C82_build_never_panics.

(** Self durations: what the rounded total of the children leaves, rounded *)
Theorem C82_self_duration :
  forall (A : Type) (xs : list (fstat A)) t, timed xs -> ftree_of xs t ->
  forall b s, freported xs b s ->
  exists d ds c r, fdirect_children t b = Ret d /\
    Forall2 (fun i x => exists q, freported xs i q /\ x = fs_dur q) d ds /\
    total ds c /\ fself_duration t b = Ret r /\ left_by (fs_dur s) c r.
Proof. exact @f_self. Qed.
Print Assumptions C82_self_duration.

(** With whole times below 2^53 (of any unit 2^k), no rounding is ever visible: the tree is the
    one of exact arithmetic *)
Theorem C82_whole_times_are_exact :
  forall (A : Type) (k : Z) (xs : list (stat A)), (0 <= k <= 2044)%Z -> within_2_53 xs ->
  ((exists f, ftree_of (map (whole k) xs) f) <-> (exists t, tree_of xs t)) /\
  (forall t f, tree_of xs t -> ftree_of (map (whole k) xs) f ->
    froot_activities f = root_activities t /\
    (forall i, fdirect_children f i = direct_children t i) /\
    (forall i, fall_children f i = all_children t i) /\
    (forall i, fparent f i = parent t i) /\
    (forall i, i < length xs ->
       exists d, self_duration t i = Ret d /\ fself_duration f i = Ret (Num (d * 2 ^ k)))) /\
  (forall i e b, insert_all b_new xs = (inr (i, IErr e), b) ->
    exists fb, finsert_all fb_new (map (whole k) xs) = (inr (i, FIErr (whole_error k e)), fb)).
Proof.
  intros A k xs Hk Hw. split; [apply whole_accepted; assumption|]. split.
  - intros t f. apply whole_equal; assumption.
  - intros i e b. apply whole_errors; assumption.
Qed.
Print Assumptions C82_whole_times_are_exact.

(** Just above 2^53, activities of non-negative duration get a negative self duration *)
Theorem C82_self_durations_not_negative_refuted :
  ~ (forall (A : Type) (xs : list (fstat A)) t, timed xs -> ftree_of xs t ->
     (forall i s, freported xs i s -> at_most (Num 0) (fs_dur s)) ->
     forall b, b < length xs -> exists d, fself_duration t b = Ret d /\ at_most (Num 0) d).
Proof.
  intros H.
  pose (n := (2 ^ 53)%Z).
  pose (xs := [mk_fstat tt (Num (n + 2)) (Num 3); mk_fstat tt (Num (n + 4)) (Num 1); mk_fstat tt (Num (n + 2)) (Num 2)]).
  assert (R : forall m, (Z.abs m < 2 ^ 53)%Z -> representable m) by (apply representable_small).
  assert (R2 : forall m, (Z.abs m < 2 ^ 53)%Z -> representable (m * 2 ^ 1)).
  { intros m Hm. apply representable_scaled; [lia|lia|].
    apply Z.lt_trans with (2 ^ 54)%Z; [lia|]. apply Z.pow_lt_mono_r; lia. }
  assert (Ht : timed xs).
  { repeat constructor; simpl; eexists; (split; [reflexivity|]); try (apply R; reflexivity).
    - exact (R2 (2 ^ 52 + 1)%Z eq_refl).
    - exact (R2 (2 ^ 52 + 2)%Z eq_refl).
    - exact (R2 (2 ^ 52 + 1)%Z eq_refl). }
  assert (E : exists t, ftree_of xs t /\ fself_duration t 2 = Ret (Num (-2))).
  { eexists. split; [eexists; split; vm_compute; reflexivity|vm_compute; reflexivity]. }
  destruct E as (t & Htr & Hself).
  destruct (H unit xs t Ht Htr) with (b := 2) as (d & Hd & Hp).
  - intros [|[|[|i]]] s Hs; try (injection Hs as <-; vm_compute; discriminate).
    unfold freported in Hs. destruct i; discriminate Hs.
  - vm_compute. lia.
  - rewrite Hself in Hd. injection Hd as <-. vm_compute in Hp. apply Hp. reflexivity.
Qed.
Print Assumptions C82_self_durations_not_negative_refuted.

(** Non-vacuity.  0.1, 0.2 and 0.3 as f64: an activity from 0.1 that takes 0.2 ends after one from 0
    that takes 0.3 (0.1 + 0.2 = 0.30000000000000004), so the trace is refused *)
Definition tenth : Z := (3602879701896397 * 2 ^ 1019)%Z.
Definition fifth : Z := (3602879701896397 * 2 ^ 1020)%Z.
Definition three_tenths : Z := (5404319552844595 * 2 ^ 1020)%Z.
Example C82_witness_rounding :
  let child := mk_fstat 1%Z (Num tenth) (Num fifth) in
  let parent := mk_fstat 2%Z (Num 0) (Num three_tenths) in
  fs_end child = Num (5404319552844596 * 2 ^ 1020) /\
  match finsert_all fb_new [child; parent] with
  | (inr (i, FIErr (FUnexpectedOrder p c)), _) => i = 1 /\ p = fs_end child /\ c = fs_end parent
  | _ => False
  end.
Proof. vm_compute. repeat split. Qed.
Lemma representable_by m e : (0 <= e)%Z -> (Z.abs m <? 2 ^ 53)%Z = true ->
  (Z.abs (m * 2 ^ e) <? 2 ^ (1024 + 1074))%Z = true -> representable (m * 2 ^ e).
Proof.
  intros He Hm Hb. apply Z.ltb_lt in Hm, Hb. split; [exists m, e; split; [reflexivity|split; assumption]|exact Hb].
Qed.
Example C82_witness_timed :
  let xs := [mk_fstat 1%Z (Num tenth) (Num fifth); mk_fstat 2%Z (Num 0) (Num three_tenths)] in timed xs.
Proof.
  repeat constructor; eexists; (split; [reflexivity|]); try (apply representable_by; [lia|vm_compute; reflexivity..]).
  apply (representable_by 0 0); [lia|vm_compute; reflexivity..].
Qed.
Definition sample : list (stat Z) :=
  [mk_stat 10 1 2; mk_stat 11 4 0; mk_stat 12 3 4; mk_stat 13 0 9; mk_stat 14 9 3]%Z.
Example C82_witness_whole :
  within_2_53 sample /\
  exists f, ftree_of (map (whole 1074) sample) f /\ froot_activities f = Ret [4; 3] /\
    fdirect_children f 3 = Ret [2; 0] /\ fself_duration f 3 = Ret (Num (3 * 2 ^ 1074)).
Proof.
  split; [repeat constructor; vm_compute; intros; discriminate|].
  eexists. split; [eexists; split; vm_compute; reflexivity|]. vm_compute. repeat split.
Qed.

(** Proofs about stop flags. *)
From Coq Require Import NArith Permutation.
From Verif Require Import Base Measure_Model Measure_Spec.
Local Open Scope nat_scope.

Lemma nth_error_set_nth {A} : forall (l : list A) i j x,
  nth_error (set_nth l i x) j = if (i =? j) && (i <? length l) then Some x else nth_error l j.
Proof.
  induction l as [|y l IH]; intros [|i] [|j] x; simpl; try easy.
  - destruct (_ =? _); easy.
  - apply IH.
Qed.
Lemma length_set_nth {A} : forall (l : list A) i x, length (set_nth l i x) = length l.
Proof. induction l as [|y l IH]; intros [|i] x; simpl; auto. Qed.

(** *** Filters over ranges *)
Lemma filter_map {A B} (p : B -> bool) (f : A -> B) l :
  filter p (map f l) = map f (filter (fun x => p (f x)) l).
Proof. induction l as [|x l IH]; simpl; [easy|]. destruct (p (f x)); simpl; rewrite IH; easy. Qed.
Lemma seq_shift_map k m : seq k m = map (fun b => k + b) (seq 0 m).
Proof.

  revert k. induction m as [|m IH]; intros k; simpl; [easy|].
  rewrite Nat.add_0_r. f_equal. rewrite (IH (S k)), <- seq_shift, map_map.
  apply map_ext. intros b. lia.
Qed.
Lemma filter_none {A} (p : A -> bool) l : (forall x, In x l -> p x = false) -> filter p l = [].
Proof.
  induction l as [|x l IH]; intros H; simpl; [easy|].
  rewrite (H x (or_introl eq_refl)). apply IH. intros y Hy. apply H. right. easy.
Qed.

(** *** Bits of a word *)
Definition below (m : nat) (word : N) : Prop := forall b, (N.of_nat m <= b)%N -> N.testbit word b = false.
Definition wbits (word : N) (m : nat) : list nat := filter (fun i => N.testbit word (N.of_nat i)) (seq 0 m).

Lemma count_ones_wbits word : count_ones word = length (wbits word 64).
Proof.
  unfold count_ones, wbits, bits, bits_per_usize. rewrite filter_map, map_length. easy.
Qed.

Lemma leading_run_spec b l : forall n, leading_run b l = n ->
  (forall i, i < n -> nth_error l i = Some b) /\ (n < length l -> nth_error l n = Some (negb b)) /\ n <= length l.
Proof.
  induction l as [|x l IH]; intros n <-; simpl.
  - split; [intros; lia|]. split; lia.
  - destruct (Bool.eqb_spec x b) as [->|Hne].
    + destruct (IH _ eq_refl) as (H1 & H2 & H3). split; [|split; [|lia]].
      * intros [|i] Hi; [easy|]. apply H1. lia.
      * intros H. apply H2. lia.
    + split; [intros; lia|]. split; [|lia]. intros _. simpl. destruct x, b; congruence || easy.
Qed.
Lemma nth_bits word i : i < 64 -> nth_error (bits word) i = Some (N.testbit word (N.of_nat i)).
Proof.
  intros H. unfold bits, bits_per_usize. rewrite nth_error_map.
  rewrite (nth_error_nth' _ 0) by (rewrite seq_length; lia). rewrite seq_nth by lia. easy.
Qed.
Lemma length_bits word : length (bits word) = 64.
Proof. unfold bits. rewrite map_length, seq_length. easy. Qed.

Lemma trailing_zeros_spec word m : m <= 64 -> below m word -> word <> 0%N ->
  exists t, trailing_zeros word = t /\ t < m /\ N.testbit word (N.of_nat t) = true /\
    forall i, i < t -> N.testbit word (N.of_nat i) = false.
Proof.
  intros Hm Hb Hw. unfold trailing_zeros.
  destruct (leading_run_spec false (bits word) _ eq_refl) as (H1 & H2 & H3).
  rewrite length_bits in *. set (t := leading_run false (bits word)) in *. exists t. split; [easy|].
  assert (Hlow : forall i, i < t -> N.testbit word (N.of_nat i) = false).
  { intros i Hi. specialize (H1 i Hi). rewrite nth_bits in H1 by lia. congruence. }
  assert (Ht : t < m).
  { destruct (le_lt_dec m t) as [Hle|]; [|easy]. exfalso. apply Hw. apply N.bits_inj_0. intros b.
    destruct (N.le_gt_cases (N.of_nat m) b) as [Hge|Hlt]; [apply Hb; easy|].
    rewrite <- (N2Nat.id b). apply Hlow. lia. }
  split; [easy|]. split; [|exact Hlow].
  specialize (H2 ltac:(lia)). rewrite nth_bits in H2 by lia. simpl in H2. congruence.
Qed.

Lemma wbits_split word m t : t < m -> N.testbit word (N.of_nat t) = true ->
  (forall i, i < t -> N.testbit word (N.of_nat i) = false) ->
  wbits word m = t :: map (fun b => t + 1 + b) (wbits (N.shiftr word (N.of_nat (t + 1))) (m - t - 1)).
Proof.
  intros Ht H1 H0. unfold wbits.
  replace m with (t + (1 + (m - t - 1))) at 1 by lia.
  rewrite !seq_app, !filter_app. simpl seq. simpl filter at 2. rewrite H1.
  rewrite filter_none; [|intros x Hx; apply in_seq in Hx; apply H0; lia].
  simpl. f_equal. replace (S t) with (t + 1) by lia. rewrite (seq_shift_map (t + 1)), filter_map.
  f_equal. apply filter_ext. intros b. rewrite N.shiftr_spec by lia. f_equal. lia.
Qed.

Lemma enumerate_word_ok : forall fuel m off word, m <= 64 -> m < fuel -> below m word ->
  (m = 64 -> word <> (2 ^ 63)%N) ->
  enumerate_word fuel off word = Ret (map (fun b => off + b) (wbits word m)).
Proof.
  induction fuel as [|fuel IH]; intros m off word Hm Hf Hb Hne; [lia|].
  cbn [enumerate_word]. destruct (N.eqb_spec word 0) as [->|Hw].
  { unfold wbits. rewrite filter_none; [easy|]. intros. apply N.bits_0. }
  destruct (trailing_zeros_spec word m Hm Hb Hw) as (t & Et & Ht & H1 & H0). rewrite Et.
  assert (Hs : shr word (t + 1) = Ret (N.shiftr word (N.of_nat (t + 1)))).
  { unfold shr, bits_per_usize. destruct (Nat.ltb_spec (t + 1) 64) as [|Hge]; [easy|]. exfalso.
    apply Hne; [lia|]. apply N.bits_inj. intros b. rewrite N.pow2_bits_eqb.
    destruct (N.eqb_spec 63 b) as [<-|Hb'].
    - replace 63%N with (N.of_nat t) by lia. exact H1.
    - destruct (N.lt_ge_cases b 63) as [Hlt|Hge'].
      + rewrite <- (N2Nat.id b). apply H0. lia.
      + apply Hb. lia. }
  rewrite Hs. cbn [obind].
  rewrite (IH (m - t - 1)); [| lia | lia | | lia].
  2: { intros b Hle. rewrite N.shiftr_spec by lia. apply Hb. lia. }
  cbn [obind]. rewrite (wbits_split word m t Ht H1 H0). simpl. f_equal. f_equal; [lia|].
  rewrite map_map. apply map_ext. intros b. lia.
Qed.
Lemma enumerate_word_panics off : enumerate_word 65 off (2 ^ 63) = Panic.
Proof. easy. Qed.

(** *** Flags as a set of workers *)
Record reprs (n : nat) (f : flags) (A : nat -> bool) : Prop := {
  r_len : length f = (n + 63) / 64;
  r_bits : forall k b, k < length f ->
    N.testbit (nth k f 0%N) b
    = (b <? 64)%N && (64 * k + N.to_nat b <? n) && A (64 * k + N.to_nat b) }.

Lemma ceil_split n : exists q r, n = 64 * q + r /\ r < 64 /\ n / 64 = q /\ n mod 64 = r /\
  (n + 63) / 64 = if r =? 0 then q else S q.
Proof.
  exists (n / 64), (n mod 64).
  pose proof (Nat.div_mod n 64 ltac:(lia)). pose proof (Nat.mod_upper_bound n 64 ltac:(lia)).
  repeat split; try lia. destruct (Nat.eqb_spec (n mod 64) 0).
  - symmetry. apply (Nat.div_unique _ _ _ 63); lia.
  - symmetry. apply (Nat.div_unique _ _ _ (n mod 64 - 1)); lia.
Qed.

Lemma flags_new_repr n : reprs n (flags_new n) (fun _ => true).
Proof.
  destruct (ceil_split n) as (q & r & Hn & Hr & Eq & Er & Ec).
  unfold flags_new, bits_per_usize. rewrite Eq, Er. constructor.
  - rewrite app_length, repeat_length, Ec. destruct (r =? 0); simpl; lia.
  - intros k b Hk. rewrite andb_true_r.
    destruct (lt_dec k q) as [Hlt|Hge].
    + rewrite app_nth1 by (rewrite repeat_length; lia).
      rewrite nth_indep with (d' := usize_max) by (rewrite repeat_length; lia).
      rewrite nth_repeat. unfold usize_max.
      destruct (N.ltb_spec b 64) as [Hb|Hb].
      * rewrite N.ones_spec_low by lia. symmetry. simpl. apply Nat.ltb_lt. lia.
      * rewrite N.ones_spec_high by lia. easy.
    + rewrite app_length, repeat_length in Hk. destruct (Nat.eqb_spec r 0) as [->|Hr0]; [simpl in Hk; lia|].
      simpl in Hk. assert (k = q) by lia. subst k.
      rewrite app_nth2 by (rewrite repeat_length; lia). rewrite repeat_length, Nat.sub_diag. cbn [nth].
      rewrite N.shiftl_1_l, N.sub_1_r, <- N.ones_equiv.
      destruct (N.lt_ge_cases b (N.of_nat r)) as [Hb|Hb].
      * rewrite N.ones_spec_low by lia. symmetry. apply andb_true_iff.
        split; [apply N.ltb_lt; lia|apply Nat.ltb_lt; lia].
      * rewrite N.ones_spec_high by lia. symmetry. apply andb_false_iff. right.
        apply Nat.ltb_ge. lia.
Qed.

Lemma reprs_ext n f A B : reprs n f A -> (forall i, i < n -> A i = B i) -> reprs n f B.
Proof.
  intros [H1 H2] HE. constructor; [easy|]. intros k b Hk. rewrite H2 by easy.
  destruct (Nat.ltb_spec (64 * k + N.to_nat b) n) as [Hlt|]; [|rewrite !andb_false_r; easy].
  rewrite (HE _ Hlt). easy.
Qed.

Lemma stop_all_repr n f A : reprs n f A -> reprs n (stop_all f) (fun _ => false).
Proof.
  intros [H1 H2]. unfold stop_all. constructor; [rewrite map_length; easy|].
  intros k b Hk. rewrite andb_false_r. rewrite map_length in Hk.
  assert (E : forall (g : list N) k, nth k (map (fun _ => 0%N) g) 0%N = 0%N)
    by (induction g; intros [|k']; simpl; auto).
  rewrite E. apply N.bits_0.
Qed.

Lemma idx_word n f A i : reprs n f A -> i < n -> i / 64 < length f.
Proof.
  intros [H1 _] Hi. rewrite H1. destruct (ceil_split n) as (q & r & Hn & Hr & _ & _ & ->).
  pose proof (Nat.div_mod i 64 ltac:(lia)). pose proof (Nat.mod_upper_bound i 64 ltac:(lia)).
  destruct (Nat.eqb_spec r 0); nia.
Qed.
Lemma idx_eq i : 64 * (i / 64) + i mod 64 = i.
Proof. pose proof (Nat.div_mod i 64 ltac:(lia)). lia. Qed.

Lemma land_pow2 w k : N.eqb (N.land w (2 ^ k)) 0 = negb (N.testbit w k).
Proof.
  destruct (N.testbit w k) eqn:E; simpl.
  - apply N.eqb_neq. intros H.
    assert (Hb : N.testbit (N.land w (2 ^ k)) k = true)
      by (rewrite N.land_spec, E, N.pow2_bits_true; easy).
    rewrite H, N.bits_0 in Hb. discriminate.
  - apply N.eqb_eq. apply N.bits_inj_0. intros b. rewrite N.land_spec, N.pow2_bits_eqb.
    destruct (N.eqb_spec k b) as [<-|]; [rewrite E; easy|apply andb_false_r].
Qed.

Lemma bit_of n f A i : reprs n f A -> i < n ->
  N.testbit (nth (i / 64) f 0%N) (N.of_nat (i mod 64)) = A i.
Proof.
  intros H Hi. rewrite (r_bits _ _ _ H) by (apply (idx_word n f A); easy).
  rewrite Nat2N.id, idx_eq. pose proof (Nat.mod_upper_bound i 64 ltac:(lia)).
  replace (N.of_nat (i mod 64) <? 64)%N with true by (symmetry; apply N.ltb_lt; lia).
  replace (i <? n) with true by (symmetry; apply Nat.ltb_lt; lia). easy.
Qed.

Definition client_of (i : nat) : stop_client := (i / 64, (2 ^ N.of_nat (i mod 64))%N).
Lemma must_stop_repr n f A i : reprs n f A -> i < n -> must_stop f (client_of i) = negb (A i).
Proof.
  intros H Hi. unfold must_stop, client_of. cbn [fst snd]. rewrite land_pow2.
  rewrite (bit_of n f A i H Hi). easy.
Qed.

Lemma stop_repr n f A i : reprs n f A -> i < n ->
  if A i then exists f', stop f i = Ret f' /\ reprs n f' (fun j => A j && negb (j =? i))
  else stop f i = Panic.
Proof.
  intros H Hi. unfold stop, bits_per_usize. pose proof (idx_word _ _ _ _ H Hi) as Hw.
  rewrite (nth_error_nth' f 0%N) by easy. cbn [expect obind].
  rewrite N.shiftl_1_l, land_pow2, (bit_of n f A i H Hi).
  destruct (A i) eqn:EA; cbn [negb]; [|easy]. eexists. split; [easy|].
  destruct H as [H1 H2]. constructor; [rewrite length_set_nth; easy|].
  intros k b Hk. rewrite length_set_nth in Hk.
  assert (Hn : nth k (set_nth f (i / 64) (N.ldiff (nth (i / 64) f 0%N) (2 ^ N.of_nat (i mod 64)))) 0%N
    = if i / 64 =? k then N.ldiff (nth (i / 64) f 0%N) (2 ^ N.of_nat (i mod 64)) else nth k f 0%N).
  { apply nth_error_nth. rewrite nth_error_set_nth.
    replace (i / 64 <? length f) with true by (symmetry; apply Nat.ltb_lt; easy).
    rewrite andb_true_r. destruct (_ =? _); [easy|]. apply nth_error_nth'. easy. }
  rewrite Hn. clear Hn. pose proof (idx_eq i) as Hi64.
  pose proof (Nat.mod_upper_bound i 64 ltac:(lia)) as Hm.
  destruct (Nat.eqb_spec (i / 64) k) as [Ek|Ek].
  - rewrite N.ldiff_spec, N.pow2_bits_eqb, Ek, H2 by easy. rewrite <- !andb_assoc. f_equal.
    destruct (N.ltb_spec b 64) as [Hb|Hb].
    + f_equal. f_equal. f_equal. apply Bool.eq_iff_eq_true. rewrite N.eqb_eq, Nat.eqb_eq. lia.
    + f_equal. f_equal. f_equal. apply Bool.eq_iff_eq_true. rewrite N.eqb_eq, Nat.eqb_eq. lia.
  - rewrite H2 by easy. destruct (N.ltb_spec b 64) as [Hb|Hb]; [|easy].
    replace (64 * k + N.to_nat b =? i) with false by (symmetry; apply Nat.eqb_neq; lia).
    cbn [negb]. rewrite andb_true_r. easy.
Qed.

(** *** Counting and listing *)
Lemma wbits_word n f A k : reprs n f A -> k < length f ->
  map (fun b => 64 * k + b) (wbits (nth k f 0%N) 64)
  = filter (fun i => (i <? n) && A i) (seq (64 * k) 64).
Proof.
  intros H Hk. unfold wbits. rewrite (seq_shift_map (64 * k)), filter_map. f_equal.
  apply filter_ext_in. intros b Hb. apply in_seq in Hb. rewrite (r_bits _ _ _ H) by easy.
  rewrite Nat2N.id. replace (N.of_nat b <? 64)%N with true by (symmetry; apply N.ltb_lt; lia). easy.
Qed.
Lemma words_chunks n f A : reprs n f A -> forall g k, g ++ skipn k f = f -> length g = k ->
  flat_map (fun k => filter (fun i => (i <? n) && A i) (seq (64 * k) 64)) (seq k (length f - k))
  = filter (fun i => (i <? n) && A i) (seq (64 * k) (64 * (length f - k))).
Proof.
  intros _ g k _ _. generalize (length f - k). intros m. revert k.
  induction m as [|m IH]; intros k; [rewrite Nat.mul_0_r; easy|].
  cbn [seq flat_map]. rewrite IH. replace (64 * S m) with (64 + 64 * m) by lia.
  rewrite (seq_app 64 (64 * m)), filter_app. f_equal. f_equal. f_equal. lia.
Qed.
Lemma filter_range n W (A : nat -> bool) : n <= 64 * W ->
  filter (fun i => (i <? n) && A i) (seq 0 (64 * W)) = filter A (seq 0 n).
Proof.
  intros H. replace (64 * W) with (n + (64 * W - n)) by lia. rewrite seq_app, filter_app.
  rewrite (filter_none _ (seq (0 + n) _)), app_nil_r.
  - apply filter_ext_in. intros i Hi. apply in_seq in Hi.
    replace (i <? n) with true by (symmetry; apply Nat.ltb_lt; lia). easy.
  - intros i Hi. apply in_seq in Hi.
    replace (i <? n) with false by (symmetry; apply Nat.ltb_ge; lia). easy.
Qed.
Lemma reprs_cover n f A : reprs n f A -> n <= 64 * length f.
Proof.
  intros [-> _]. destruct (ceil_split n) as (q & r & Hn & Hr & _ & _ & ->).
  destruct (Nat.eqb_spec r 0); lia.
Qed.
Lemma chunks n f A : reprs n f A ->
  flat_map (fun k => filter (fun i => (i <? n) && A i) (seq (64 * k) 64)) (seq 0 (length f))
  = filter A (seq 0 n).
Proof.
  intros H. pose proof (words_chunks n f A H [] 0 eq_refl eq_refl) as E.
  rewrite Nat.sub_0_r in E. rewrite E. apply (filter_range n). exact (reprs_cover n f A H).
Qed.

Lemma num_active_repr n f A : reprs n f A -> num_active f = length (filter A (seq 0 n)).
Proof.
  intros H. rewrite <- (chunks n f A H). unfold num_active.
  rewrite flat_map_concat_map, <- (map_id f) at 1.
  assert (E : forall k g h, f = g ++ h -> length g = k ->
    list_sum (map count_ones h)
    = length (concat (map (fun k => filter (fun i => (i <? n) && A i) (seq (64 * k) 64)) (seq k (length h))))).
  { intros k g h. revert k g. induction h as [|w h IH]; intros k g Ef Ek; [easy|].
    change (seq k (length (w :: h))) with (k :: seq (S k) (length h)).
    cbn [map list_sum fold_right concat].
    change (fold_right Nat.add 0 (map count_ones h)) with (list_sum (map count_ones h)).
    rewrite (IH (S k) (g ++ [w])); [|rewrite <- app_assoc; easy|rewrite app_length; simpl; lia].
    rewrite app_length. f_equal.
    rewrite <- (wbits_word n f A k H) by (rewrite Ef, app_length; simpl; lia).
    rewrite map_length, count_ones_wbits, Ef, app_nth2 by lia. rewrite Ek, Nat.sub_diag. easy. }
  rewrite map_id. apply (E 0 [] f); easy.
Qed.

Lemma word_below n f A k : reprs n f A -> k < length f -> below 64 (nth k f 0%N).
Proof.
  intros H Hk b Hb. rewrite (r_bits _ _ _ H) by easy.
  replace (b <? 64)%N with false by (symmetry; apply N.ltb_ge; lia). easy.
Qed.

Lemma enumerate_repr n f A : reprs n f A ->
  if existsb (N.eqb (2 ^ 63)) f then enumerate_active f = Panic
  else enumerate_active f = Ret (filter A (seq 0 n)).
Proof.
  intros H. rewrite <- (chunks n f A H). unfold enumerate_active.
  rewrite flat_map_concat_map.
  assert (E : forall k g h, f = g ++ h -> length g = k ->
    if existsb (N.eqb (2 ^ 63)) h then enumerate_from k h = Panic
    else enumerate_from k h = Ret (concat (map (fun k => filter (fun i => (i <? n) && A i)
                                                         (seq (64 * k) 64)) (seq k (length h))))).
  { intros k g h. revert k g. induction h as [|w h IH]; intros k g Ef Ek; [easy|].
    change (seq k (length (w :: h))) with (k :: seq (S k) (length h)).
    cbn [existsb enumerate_from map concat].
    specialize (IH (S k) (g ++ [w])). rewrite <- app_assoc, app_length in IH.
    specialize (IH Ef ltac:(simpl; lia)).
    assert (Hw : nth k f 0%N = w) by (rewrite Ef, app_nth2, Ek, Nat.sub_diag by lia; easy).
    assert (Hk : k < length f) by (rewrite Ef, app_length; simpl; lia).
    destruct (N.eqb_spec (2 ^ 63) w) as [<-|Hne].
    - cbn [orb]. unfold bits_per_usize. rewrite enumerate_word_panics. easy.
    - cbn [orb]. unfold bits_per_usize.
      rewrite (enumerate_word_ok 65 64);
        [|lia|lia|rewrite <- Hw; apply (word_below n f A k H Hk)|intros _ E'; apply Hne; easy].
      cbn [obind].
      destruct (existsb _ h); rewrite IH; [easy|]. cbn [obind]. f_equal. f_equal.
      rewrite <- (wbits_word n f A k H Hk), Hw. apply map_ext. intros b. lia. }
  apply (E 0 [] f); easy.
Qed.

(** *** Clients *)
Lemma count_ones_pow2 k : k < 64 -> count_ones (2 ^ N.of_nat k) = 1.
Proof.
  intros H. rewrite count_ones_wbits. unfold wbits.
  rewrite (filter_ext _ (fun i => k =? i)).
  2: { intros i. rewrite N.pow2_bits_eqb. apply Bool.eq_iff_eq_true. rewrite N.eqb_eq, Nat.eqb_eq. lia. }
  replace 64 with (k + (1 + (63 - k))) by lia. rewrite !seq_app, !filter_app.
  rewrite filter_none by (intros i Hi; apply in_seq in Hi; apply Nat.eqb_neq; lia).
  simpl. rewrite Nat.eqb_refl. simpl.
  rewrite filter_none by (intros i Hi; apply in_seq in Hi; apply Nat.eqb_neq; lia). easy.
Qed.
Lemma client_masks_ok : forall m k,
  client_masks m (2 ^ N.of_nat k) = map (fun b => (2 ^ N.of_nat b)%N) (seq k m).
Proof.
  induction m as [|m IH]; intros k; [easy|]. cbn [client_masks seq map]. f_equal.
  destruct m as [|m]; [easy|]. cbn [Nat.ltb Nat.leb].
  rewrite <- IH. f_equal. rewrite N.shiftl_mul_pow2, Nat2N.inj_succ, N.pow_succ_r'. lia.
Qed.
Lemma leading_run_all b l : (forall x, In x l -> x = b) -> leading_run b l = length l.
Proof.
  induction l as [|x l IH]; intros H; simpl; [easy|].
  rewrite (H x (or_introl eq_refl)), Bool.eqb_reflx, IH; [easy|]. intros y Hy. apply H. right. easy.
Qed.
Lemma leading_run_app b l l' : (forall x, In x l -> x = b) ->
  (forall x r, l' = x :: r -> x <> b) -> leading_run b (l ++ l') = length l.
Proof.
  induction l as [|x l IH]; intros H H'; simpl.
  - destruct l' as [|x r]; simpl; [easy|]. destruct (Bool.eqb_spec x b) as [E|]; [|easy].
    exfalso. exact (H' x r eq_refl E).
  - rewrite (H x (or_introl eq_refl)), Bool.eqb_reflx, IH; [easy| |easy]. intros y Hy. apply H. right. easy.
Qed.

Lemma bits_ones r : r <= 64 -> bits (N.ones (N.of_nat r)) = repeat true r ++ repeat false (64 - r).
Proof.
  intros H. unfold bits, bits_per_usize. replace 64 with (r + (64 - r)) at 1 by lia.
  rewrite seq_app, map_app. f_equal.
  - rewrite <- (seq_length r 0) at 2. rewrite <- map_const || idtac.

    induction (seq 0 r) as [|x l IH] eqn:E; [easy|]. clear IH.
    rewrite <- E. clear E x l. rewrite (map_ext_in _ (fun _ => true)).
    2: { intros i Hi. apply in_seq in Hi. apply N.ones_spec_low. lia. }
    rewrite seq_length. generalize 0. induction r as [|r IH]; intros k; [easy|]. simpl. f_equal.
    apply IH. lia.
  - rewrite (map_ext_in _ (fun _ => false)).
    2: { intros i Hi. apply in_seq in Hi. apply N.ones_spec_high. lia. }
    generalize (0 + r). induction (64 - r) as [|m IH]; intros k; [easy|]. simpl. f_equal. apply IH.
Qed.

Lemma ones_methods r : r <= 64 -> 
  trailing_ones (N.ones (N.of_nat r)) = r /\ count_ones (N.ones (N.of_nat r)) = r /\
  leading_zeros (N.ones (N.of_nat r)) = 64 - r.
Proof.
  intros H. unfold trailing_ones, count_ones, leading_zeros. rewrite (bits_ones r H). split; [|split].
  - rewrite leading_run_app; [apply repeat_length|intros x Hx; apply repeat_spec in Hx; easy|].
    intros x rest E. destruct (64 - r); [discriminate|]. injection E as <- _. discriminate.
  - rewrite filter_app, app_length.
    rewrite (filter_none _ (repeat false _)) by (intros x Hx; apply repeat_spec in Hx; easy).
    simpl. rewrite Nat.add_0_r. clear H. induction r; simpl; auto.
  - rewrite rev_app_distr. rewrite leading_run_app.
    + rewrite rev_length, repeat_length. easy.
    + intros x Hx. apply in_rev in Hx. apply repeat_spec in Hx. easy.
    + intros x rest E. destruct r as [|r]; [discriminate|].
      assert (Hin : In x (rev (repeat true (S r)))) by (rewrite E; left; easy).
      apply in_rev in Hin. apply repeat_spec in Hin. subst. discriminate.
Qed.

Lemma masks_valid m : m <= 64 ->
  forallb (fun m => count_ones m =? 1) (client_masks m 1) = true.
Proof.
  intros H. change 1%N with (2 ^ N.of_nat 0)%N. rewrite client_masks_ok. apply forallb_forall.
  intros x Hx. apply in_map_iff in Hx. destruct Hx as (b & <- & Hb). apply in_seq in Hb.
  apply Nat.eqb_eq. apply count_ones_pow2. lia.
Qed.

Lemma client_of_word k b : b < 64 -> client_of (64 * k + b) = (k, (2 ^ N.of_nat b)%N).
Proof.
  intros H. unfold client_of. f_equal.
  - symmetry. apply (Nat.div_unique _ _ _ b); lia.
  - f_equal. f_equal. symmetry. apply (Nat.mod_unique _ _ k); lia.
Qed.

Lemma clients_new_from : forall q k r, r < 64 ->
  flags_clients_from k (repeat usize_max q ++
    (if r =? 0 then [] else [(N.shiftl 1 (N.of_nat r) - 1)%N]))
  = Ret (map client_of (seq (64 * k) (64 * q + r))).
Proof.
  assert (Hmasks : forall k m, m <= 64 ->
    map (fun x => (k, x)) (client_masks m 1) = map client_of (seq (64 * k) m)).
  { intros k m Hm. change 1%N with (2 ^ N.of_nat 0)%N. rewrite client_masks_ok, map_map.
    rewrite (seq_shift_map (64 * k)), map_map. apply map_ext_in. intros b Hb.
    apply in_seq in Hb. rewrite client_of_word by lia. easy. }
  induction q as [|q IH]; intros k r Hr.
  - simpl repeat. rewrite app_nil_l. destruct (Nat.eqb_spec r 0) as [->|Hr0]; [easy|].
    cbn [flags_clients_from negb].
    rewrite N.shiftl_1_l, N.sub_1_r, <- N.ones_equiv.
    destruct (ones_methods r ltac:(lia)) as (E1 & E2 & E3).
    unfold count_zeros, bits_per_usize. rewrite E1, E2, E3, Nat.eqb_refl. cbn [obind].
    rewrite masks_valid by lia. rewrite app_nil_r, Hmasks by lia. rewrite Nat.mul_0_r. easy.
  - cbn [repeat app]. cbn [flags_clients_from].
    specialize (IH (S k) r Hr).
    assert (Hrest : forall rest others,
      flags_clients_from (S k) rest = Ret others ->
      obind (if negb match rest with [] => true | _ => false end
             then (if N.eqb usize_max usize_max then Ret bits_per_usize else Panic)
             else if leading_zeros usize_max =? count_zeros usize_max then Ret (trailing_ones usize_max)
             else Panic) (fun num_iters =>
        if forallb (fun m => count_ones m =? 1) (client_masks num_iters 1)
        then obind (flags_clients_from (S k) rest) (fun others =>
               Ret (map (fun m => (k, m)) (client_masks num_iters 1) ++ others))
        else Panic) = Ret (map client_of (seq (64 * k) 64) ++ others)).
    { intros rest others E. rewrite N.eqb_refl.
      destruct (ones_methods 64 ltac:(lia)) as (E1 & E2 & E3).
      change (N.ones (N.of_nat 64)) with usize_max in *.
      unfold count_zeros, bits_per_usize in *. rewrite E1, E2, E3, Nat.eqb_refl.
      replace (if negb match rest with [] => true | _ => false end then Ret 64 else Ret 64)
        with (@Ret nat 64) by (destruct rest; easy). cbn [obind].
      rewrite masks_valid by lia. rewrite E. cbn [obind]. rewrite Hmasks by lia. easy. }
    rewrite (Hrest _ _ IH). f_equal. rewrite <- map_app. f_equal.
    replace (64 * S q + r) with (64 + (64 * q + r)) by lia. rewrite (seq_app 64). f_equal.
    f_equal. lia.
Qed.

Theorem clients_new n : flags_clients (flags_new n) = Ret (map client_of (seq 0 n)).
Proof.
  destruct (ceil_split n) as (q & r & Hn & Hr & Eq & Er & _).
  unfold flags_clients, flags_new, bits_per_usize. rewrite Eq, Er.
  rewrite (clients_new_from q 0 r Hr). rewrite Hn. easy.
Qed.

(** *** The main statement on flags *)
Lemma running_in n l i : In i (running n l) <-> i < n /\ ~ In i l.
Proof.
  unfold running. rewrite filter_In, in_seq, negb_true_iff, <- not_true_iff_false, existsb_exists.
  split.
  - intros [H1 H2]. split; [lia|]. intros Hin. apply H2. exists i. split; [easy|apply Nat.eqb_refl].
  - intros [H1 H2]. split; [lia|]. intros (j & Hj & E). apply Nat.eqb_eq in E. subst. easy.
Qed.

Lemma stops_repr n l f : stops n l f ->
  reprs n f (fun i => negb (existsb (Nat.eqb i) l)) /\ NoDup l /\ forall i, In i l -> i < n.
Proof.
  induction 1 as [|l f i f' Hs (IH1 & IH2 & IH3) E].
  - split; [apply flags_new_repr|]. split; [constructor|]. intros i [].
  - assert (Hi : i < n /\ negb (existsb (Nat.eqb i) l) = true).
    { destruct (lt_dec i n) as [Hi|Hi].
      - split; [easy|]. pose proof (stop_repr n f _ i IH1 Hi) as H.
        destruct (negb (existsb (Nat.eqb i) l)); [easy|congruence].
      - exfalso. unfold stop, bits_per_usize in E.
        destruct (nth_error f (i / 64)) as [w|] eqn:Ew; [|discriminate]. cbn [expect obind] in E.
        rewrite N.shiftl_1_l, land_pow2 in E.
        assert (Hk : i / 64 < length f) by (apply nth_error_Some; congruence).
        apply nth_error_nth with (d := 0%N) in Ew. rewrite <- Ew in E.
        rewrite (r_bits _ _ _ IH1) in E by easy. rewrite Nat2N.id, idx_eq in E.
        replace (i <? n) with false in E by (symmetry; apply Nat.ltb_ge; lia).
        rewrite andb_false_r in E. simpl in E. discriminate. }
    destruct Hi as [Hi Hrun]. pose proof (stop_repr n f _ i IH1 Hi) as H. cbv beta in H. rewrite Hrun in H.
    destruct H as (f'' & E' & Hr). assert (f'' = f') by congruence. subst f''.
    assert (Hnin : ~ In i l).
    { intros Hin. apply negb_true_iff in Hrun. rewrite <- not_true_iff_false, existsb_exists in Hrun.
      apply Hrun. exists i. split; [easy|apply Nat.eqb_refl]. }
    split; [|split].
    + apply (reprs_ext n f' _ _ Hr). intros j Hj. rewrite existsb_app. simpl. rewrite orb_false_r.
      rewrite negb_orb. easy.
    + apply NoDup_app_comm || idtac.
      apply (Permutation_NoDup (Permutation_cons_append l i)). constructor; easy.
    + intros j Hj. apply in_app_iff in Hj. destruct Hj as [Hj|[<-|[]]]; auto.
Qed.

Lemma word_pow63 n f A k : reprs n f A -> k < length f ->
  (nth k f 0%N = (2 ^ 63)%N <->
   64 * k + 63 < n /\ forall b, b < 64 -> ((64 * k + b < n /\ A (64 * k + b) = true) <-> b = 63)).
Proof.
  intros H Hk. split.
  - intros E. assert (Hb : forall b, b < 64 -> ((64 * k + b < n /\ A (64 * k + b) = true) <-> b = 63)).
    { intros b Hb. pose proof (r_bits _ _ _ H k (N.of_nat b) Hk) as Hbit.
      rewrite E, N.pow2_bits_eqb, Nat2N.id in Hbit.
      replace (N.of_nat b <? 64)%N with true in Hbit by (symmetry; apply N.ltb_lt; lia).
      cbn [andb] in Hbit. rewrite <- Nat.ltb_lt, <- andb_true_iff, <- Hbit, N.eqb_eq. lia. }
    split; [|exact Hb]. apply (Hb 63); lia.
  - intros [_ Hb]. apply N.bits_inj. intros b. rewrite N.pow2_bits_eqb, (r_bits _ _ _ H) by easy.
    destruct (N.ltb_spec b 64) as [Hlt|Hge].
    + specialize (Hb (N.to_nat b) ltac:(lia)). cbn [andb]. apply Bool.eq_iff_eq_true.
      rewrite andb_true_iff, Nat.ltb_lt, N.eqb_eq, Hb. lia.
    + symmetry. apply N.eqb_neq. lia.
Qed.
Lemma any_word n f A : reprs n f A ->
  existsb (N.eqb (2 ^ 63)) f = true <->
  exists k, 64 * k + 63 < n /\ forall b, b < 64 -> ((64 * k + b < n /\ A (64 * k + b) = true) <-> b = 63).
Proof.
  intros H. rewrite existsb_exists. split.
  - intros (w & Hin & E). apply N.eqb_eq in E. subst w. apply (In_nth _ _ 0%N) in Hin.
    destruct Hin as (k & Hk & E). exists k. apply (word_pow63 n f A k H Hk). easy.
  - intros (k & Hk). assert (Hlen : k < length f).
    { pose proof (reprs_cover n f A H). destruct Hk as [Hk _]. lia. }
    exists (2 ^ 63)%N. split; [|apply N.eqb_refl].
    apply (word_pow63 n f A k H Hlen) in Hk. rewrite <- Hk. apply nth_In. easy.
Qed.

Theorem flags_ok n l f clients : stops n l f -> flags_clients (flags_new n) = Ret clients ->
  length clients = n /\
  (forall i c, nth_error clients i = Some c -> must_stop f c = true <-> In i l) /\
  num_active f = length (running n l) /\
  (~ only_last_of_word n l -> enumerate_active f = Ret (running n l)) /\
  (only_last_of_word n l -> enumerate_active f = Panic) /\
  (forall i, i < n -> (In i l <-> stop f i = Panic)) /\
  (forall c, In c clients -> must_stop (stop_all f) c = true) /\ num_active (stop_all f) = 0.
Proof.
  intros Hs Hc. rewrite clients_new in Hc. injection Hc as <-.
  destruct (stops_repr n l f Hs) as (Hr & _ & _).
  assert (Hne : forall i, negb (existsb (Nat.eqb i) l) = true <-> ~ In i l).
  { intros i. rewrite negb_true_iff, <- not_true_iff_false, existsb_exists. split; intros H Hin; apply H.
    - exists i. split; [easy|apply Nat.eqb_refl].
    - destruct Hin as (j & Hj & E). apply Nat.eqb_eq in E. subst. easy. }
  assert (Hol : only_last_of_word n l <-> existsb (N.eqb (2 ^ 63)) f = true).
  { rewrite (any_word n f _ Hr). unfold only_last_of_word.
    split; intros (k & H1 & H2); exists k; (split; [exact H1|]); intros b Hb;
      rewrite <- (H2 b Hb), running_in, Hne; easy. }
  split; [rewrite map_length, seq_length; easy|]. split; [|split; [|split; [|split; [|split; [|split]]]]].
  - intros i c Hi. rewrite nth_error_map in Hi.
    destruct (nth_error (seq 0 n) i) as [j|] eqn:E; [|discriminate]. injection Hi as <-.
    assert (Hlt : i < n) by (rewrite <- (seq_length n 0); apply nth_error_Some; congruence).
    rewrite (nth_error_nth' _ 0), seq_nth in E by (rewrite ?seq_length; lia).
    injection E as <-. rewrite Nat.add_0_l || idtac. simpl.
    rewrite (must_stop_repr n f _ i Hr Hlt). rewrite negb_involutive, existsb_exists. split.
    + intros (j & Hj & E). apply Nat.eqb_eq in E. subst. easy.
    + intros Hin. exists i. split; [easy|apply Nat.eqb_refl].
  - apply (num_active_repr n f _ Hr).
  - intros Hno. pose proof (enumerate_repr n f _ Hr) as E.
    destruct (existsb (N.eqb (2 ^ 63)) f); [exfalso; apply Hno, Hol; easy|exact E].
  - intros Hyes. pose proof (enumerate_repr n f _ Hr) as E. apply Hol in Hyes. rewrite Hyes in E. exact E.
  - intros i Hi. pose proof (stop_repr n f _ i Hr Hi) as E. split.
    + intros Hin. destruct (negb (existsb (Nat.eqb i) l)) eqn:En; [|exact E].
      apply Hne in En. easy.
    + intros Hp. destruct (negb (existsb (Nat.eqb i) l)) eqn:En.
      * destruct E as (f' & E & _). congruence.
      * destruct (in_dec Nat.eq_dec i l) as [|Hnot]; [easy|]. apply Hne in Hnot. congruence.
  - intros c Hin. apply in_map_iff in Hin. destruct Hin as (i & <- & Hi). apply in_seq in Hi.
    rewrite (must_stop_repr n _ _ i (stop_all_repr n f _ Hr)) by lia. easy.
  - rewrite (num_active_repr n _ _ (stop_all_repr n f _ Hr)). rewrite filter_none; easy.
Qed.

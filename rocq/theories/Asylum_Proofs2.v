(** Proofs about sequence keys and the sequence interner (asylum/src/sequence.rs). *)
From Coq Require Permutation.
From Verif Require Import Base Asylum_Model Asylum_Spec Asylum_Proofs1.

(** ** Bit packing *)
Lemma land_mask_low (o len lb : N) : (len < 2 ^ lb)%N ->
  N.land (o * 2 ^ lb + len) (N.shiftl 1 lb - 1) = len.
Proof.
  intros H. rewrite N.shiftl_mul_pow2, N.mul_1_l.
  replace (2 ^ lb - 1)%N with (N.ones lb) by (rewrite N.ones_equiv; lia).
  rewrite N.land_ones. rewrite N.add_comm, N.mod_add by (apply N.pow_nonzero; lia).
  apply N.mod_small; exact H.
Qed.

Lemma shiftr_high (o len lb : N) : (len < 2 ^ lb)%N -> N.shiftr (o * 2 ^ lb + len) lb = o.
Proof.
  intros H. rewrite N.shiftr_div_pow2. rewrite N.add_comm, N.div_add by (apply N.pow_nonzero; lia).
  rewrite N.div_small by exact H. lia.
Qed.

Lemma land_disjoint (o len lb : N) : (len < 2 ^ lb)%N -> N.land (o * 2 ^ lb) len = 0%N.
Proof.
  intros H. apply N.bits_inj. intros i. rewrite N.land_spec, N.bits_0.
  destruct (N.ltb_spec i lb).
  - rewrite N.mul_pow2_bits_low by assumption. reflexivity.
  - rewrite andb_comm. destruct (N.eq_0_gt_0_cases len) as [->|Hp]; [rewrite N.bits_0; reflexivity|].
    rewrite (N.bits_above_log2 len); [reflexivity|]. apply N.log2_lt_pow2 in H; lia.
Qed.

Lemma lor_disjoint (o len lb : N) : (len < 2 ^ lb)%N -> N.lor (o * 2 ^ lb) len = (o * 2 ^ lb + len)%N.
Proof.
  intros H. pose proof (land_disjoint o len lb H) as E.
  rewrite <- N.lxor_lor by exact E. symmetry. apply N.add_nocarry_lxor. exact E.
Qed.

Lemma size_le (o n : N) : (N.size o <= n <-> o < 2 ^ n)%N.
Proof.
  destruct (N.eq_0_gt_0_cases o) as [->|Hp].
  - simpl. split; intros _; [apply N.neq_0_lt_0, N.pow_nonzero; lia|lia].
  - rewrite N.size_log2 by lia. rewrite N.le_succ_l. symmetry. apply N.log2_lt_pow2. exact Hp.
Qed.

(** Offsets are `usize`; with [0 < lb] the model needs no bound on them. *)
Definition okoff (lb o : N) : Prop := (o < 2 ^ 64 \/ 0 < lb)%N.

Lemma leading_zeros_ge (o lb : N) : okoff lb o -> (lb <= 64)%N ->
  ((leading_zeros64 o <? lb)%N = false <-> (o * 2 ^ lb < 2 ^ 64)%N).
Proof.
  intros Ho Hlb. unfold leading_zeros64. rewrite N.ltb_ge.
  replace (2 ^ 64)%N with (2 ^ (64 - lb) * 2 ^ lb)%N by (rewrite <- N.pow_add_r; f_equal; lia).
  rewrite <- N.mul_lt_mono_pos_r by (apply N.neq_0_lt_0, N.pow_nonzero; lia).
  rewrite <- size_le. destruct Ho as [Ho|Ho]; [apply size_le in Ho; lia|].
  destruct (N.le_gt_cases (N.size o) 64); lia.
Qed.

Lemma representable_dec w lb o len : representable w lb o len \/ ~ representable w lb o len.
Proof.
  unfold representable.
  destruct (N.ltb_spec (o * 2 ^ lb) (2 ^ 64)); [|right; lia].
  destruct (N.ltb_spec len (2 ^ lb)); [|right; lia].
  destruct (N.ltb_spec (o * 2 ^ lb + len) (2 ^ w - 1)); [left|right]; lia.
Qed.

Lemma try_from_ok w lb o len : (lb < 64)%N -> okoff lb o ->
  representable w lb o len ->
  seqkey_try_from_impl_key w lb (o, o + len)%N = Ret (Some (o * 2 ^ lb + len + 1)%N).
Proof.
  intros Hlb Ho (H1 & H2 & H3). unfold seqkey_try_from_impl_key. simpl fst; simpl snd.
  rewrite (proj2 (N.ltb_lt lb 64) Hlb). rewrite (proj2 (leading_zeros_ge o lb Ho ltac:(lia)) H1).
  replace (o + len - o)%N with len by lia.
  rewrite N.shiftl_mul_pow2, N.mul_1_l. rewrite (proj2 (N.leb_gt (2 ^ lb) len) H2).
  rewrite N.shiftl_mul_pow2, N.mod_small by exact H1. rewrite lor_disjoint by exact H2.
  unfold key_try_from_usize. rewrite (proj2 (N.ltb_lt _ _) H3). reflexivity.
Qed.

Lemma try_from_fail w lb o len : (lb < 64)%N -> okoff lb o ->
  ~ representable w lb o len -> seqkey_try_from_impl_key w lb (o, o + len)%N = Ret None.
Proof.
  intros Hlb Ho Hn. unfold seqkey_try_from_impl_key. simpl fst; simpl snd.
  rewrite (proj2 (N.ltb_lt lb 64) Hlb).
  destruct (leading_zeros64 o <? lb)%N eqn:E1; [reflexivity|].
  apply (leading_zeros_ge o lb Ho ltac:(lia)) in E1.
  replace (o + len - o)%N with len by lia.
  rewrite (N.shiftl_mul_pow2 1), N.mul_1_l. destruct (N.leb_spec (2 ^ lb) len) as [|H2]; [reflexivity|].
  rewrite N.shiftl_mul_pow2, N.mod_small by exact E1. rewrite lor_disjoint by exact H2.
  unfold key_try_from_usize. destruct (N.ltb_spec (o * 2 ^ lb + len) (2 ^ w - 1)); [|reflexivity].
  exfalso; apply Hn; repeat split; assumption.
Qed.

Lemma into_packed lb o len : (len < 2 ^ lb)%N ->
  seqkey_into_impl_key lb (o * 2 ^ lb + len + 1)%N = (o, o + len)%N.
Proof.
  intros H. unfold seqkey_into_impl_key, key_into_usize.
  replace (o * 2 ^ lb + len + 1 - 1)%N with (o * 2 ^ lb + len)%N by lia.
  rewrite land_mask_low, shiftr_high by exact H. reflexivity.
Qed.

Lemma seqkey_roundtrip w lb o len : (lb < 64)%N -> okoff lb o ->
  forall r, seqkey_try_from_impl_key w lb (o, o + len)%N = Ret r ->
  (representable w lb o len <-> r <> None) /\
  (forall k, r = Some k -> seqkey_into_impl_key lb k = (o, o + len)%N /\ (0 < k)%N).
Proof.
  intros Hlb Ho r Hr. destruct (representable_dec w lb o len) as [Hy|Hn].
  - rewrite try_from_ok in Hr by assumption. injection Hr as <-. split; [split; [discriminate|auto]|].
    intros k Hk; injection Hk as <-. split; [apply into_packed, Hy|lia].
  - rewrite try_from_fail in Hr by assumption. injection Hr as <-. split.
    + split; [contradiction|congruence].
    + discriminate.
Qed.

Lemma seqkey_total w lb o len : (lb < 64)%N -> okoff lb o ->
  exists r, seqkey_try_from_impl_key w lb (o, o + len)%N = Ret r.
Proof.
  intros Hlb Ho. destruct (representable_dec w lb o len) as [Hy|Hn].
  - eexists; apply try_from_ok; assumption.
  - eexists; apply try_from_fail; assumption.
Qed.

(** ** The sequence interner *)
Local Arguments seqkey_into_impl_key : simpl never.
Local Arguments slice : simpl never.
Section S.
  Variable Item : Type.
  Variable item_eqb : Item -> Item -> bool.
  Hypothesis item_eqb_eq : forall a b, item_eqb a b = true <-> a = b.
  Variable hash : list Item -> N.
  Variable probe : N -> N -> bool.
  Hypothesis probe_refl : forall h, probe h h = true.
  Variables w lb : N.
  Hypothesis lb_pos : (0 < lb)%N.
  Hypothesis lb_lt : (lb < 64)%N.

  Notation get_key := (sq_get_key Item item_eqb probe lb).
  Notation intern := (sq_intern Item item_eqb hash probe w lb).
  Notation run := (sq_run Item item_eqb hash probe w lb).
  Notation step := (sq_step Item item_eqb hash probe w lb).
  Notation e_intern := (en_intern Item item_eqb hash probe w lb).
  Notation into := (seqkey_into_impl_key lb).
  Notation leqb := (list_eqb Item item_eqb).

  Lemma leqb_eq a : forall b, leqb a b = true <-> a = b.
  Proof.
    induction a as [|x a IH]; destruct b as [|y b]; simpl; try (split; congruence).
    rewrite andb_true_iff, item_eqb_eq, IH. split; [intros [-> ->]; reflexivity|].
    intros E; injection E as -> ->. auto.
  Qed.

  Lemma seq_dec (a b : list Item) : {a = b} + {a <> b}.
  Proof.
    destruct (leqb a b) eqn:E; [left; apply leqb_eq; exact E|].
    right; intros ->. rewrite (proj2 (leqb_eq b b) eq_refl) in E. discriminate.
  Qed.

  Lemma slice_app (c d : list Item) r s : slice c r = Some s -> slice (c ++ d) r = Some s.
  Proof.
    destruct r as [a b]. unfold slice.
    destruct (N.leb_spec a b); simpl; [|discriminate].
    destruct (N.leb_spec b (N.of_nat (length c))) as [Hb|]; [|discriminate].
    rewrite app_length. destruct (N.leb_spec b (N.of_nat (length c + length d))); [|lia].
    intros E; injection E as <-. f_equal.
    rewrite skipn_app, firstn_app. rewrite skipn_length.
    replace (N.to_nat (b - a) - (length c - N.to_nat a)) with 0 by lia. simpl. apply app_nil_r.
  Qed.

  Lemma slice_length (c : list Item) a b s : slice c (a, b) = Some s -> N.of_nat (length s) = (b - a)%N.
  Proof.
    unfold slice. destruct (N.leb_spec a b); simpl; [|discriminate].
    destruct (N.leb_spec b (N.of_nat (length c))) as [Hb|]; [|discriminate].
    intros E; injection E as <-. rewrite firstn_length, skipn_length. lia.
  Qed.

  Lemma slice_end (c s : list Item) :
    slice (c ++ s) (N.of_nat (length c), N.of_nat (length c) + N.of_nat (length s))%N = Some s.
  Proof.
    unfold slice. destruct (N.leb_spec (N.of_nat (length c)) (N.of_nat (length c) + N.of_nat (length s))); [|lia].
    rewrite app_length. destruct (N.leb_spec (N.of_nat (length c) + N.of_nat (length s)) (N.of_nat (length c + length s))); [|lia].
    simpl. f_equal. rewrite skipn_app, Nat2N.id, skipn_all, Nat.sub_diag. simpl.
    apply firstn_all2. lia.
  Qed.

  Definition total (seqs : list (list Item)) : nat := length (concat seqs).

  (** The sequences stored in an interner, one per table entry. *)
  Record SInv (st : seqint Item) (seqs : list (list Item)) : Prop := {
    si_rep : Forall2 (fun e s => fst e = hash s /\ slice (sq_concat st) (into (snd e)) = Some s)
                     (sq_table st) seqs;
    si_nodup : NoDup seqs;
    si_total : length (sq_concat st) = total seqs
  }.

  Lemma new_sinv : SInv sq_new [].
  Proof. constructor; simpl; [constructor|constructor|reflexivity]. Qed.

  (** Key lookup in the table [t] when the buffer contains [c] followed by [d]. *)
  Lemma lookup_known c d t seqs s :
    Forall2 (fun e s => fst e = hash s /\ slice c (into (snd e)) = Some s) t seqs -> In s seqs ->
    exists k, get_key (mk_seqint (c ++ d) t) (hash s) s = Some k /\
              get_key (mk_seqint c t) (hash s) s = Some k /\
              slice c (into k) = Some s /\ In (hash s, k) t.
  Proof.
    induction 1 as [|[h k] s0 t seqs [Hh Hs] Hf IH]; [intros []|].
    intros Hin. simpl in Hh, Hs. subst h. unfold sq_get_key, table_get in *; simpl in *.
    rewrite (slice_app _ d _ _ Hs), Hs.
    destruct (seq_dec s0 s) as [->|Hne].
    - rewrite probe_refl, (proj2 (leqb_eq s s) eq_refl). simpl. exists k.
      split; [reflexivity|]. split; [reflexivity|]. split; [exact Hs|]. left; reflexivity.
    - destruct Hin as [->|Hin]; [congruence|]. destruct (IH Hin) as (k' & E1 & E2 & E3 & E4).
      exists k'. assert (El : leqb s0 s = false).
      { destruct (leqb s0 s) eqn:E; [|reflexivity]. apply leqb_eq in E; congruence. }
      rewrite El, andb_false_r. split; [exact E1|]. split; [exact E2|]. split; [exact E3|]. right; exact E4.
  Qed.

  Lemma lookup_unknown c d t seqs s :
    Forall2 (fun e s => fst e = hash s /\ slice c (into (snd e)) = Some s) t seqs -> ~ In s seqs ->
    get_key (mk_seqint (c ++ d) t) (hash s) s = None.
  Proof.
    induction 1 as [|[h k] s0 t seqs [Hh Hs] Hf IH]; [reflexivity|].
    intros Hin. simpl in Hh, Hs. subst h. unfold sq_get_key, table_get in *; simpl in *.
    rewrite (slice_app _ d _ _ Hs).
    assert (El : leqb s0 s = false).
    { destruct (leqb s0 s) eqn:E; [|reflexivity]. apply leqb_eq in E. exfalso; apply Hin; left; congruence. }
    rewrite El, andb_false_r. apply IH. intros H; apply Hin; right; exact H.
  Qed.

  Lemma mk_eta st : mk_seqint (sq_concat st) (sq_table st) = st :> seqint Item.
  Proof. destruct st; reflexivity. Qed.

  Definition packed (o len : N) : key := (o * 2 ^ lb + len + 1)%N.

  Lemma key_choice o len :
    obind (seqkey_try_from_impl_key w lb (o, o + len)%N) expect = Ret (packed o len) /\ representable w lb o len
    \/ obind (seqkey_try_from_impl_key w lb (o, o + len)%N) expect = Panic /\ ~ representable w lb o len.
  Proof.
    destruct (representable_dec w lb o len) as [H|H]; [left|right]; (split; [|exact H]).
    - rewrite try_from_ok; [reflexivity|assumption|right; assumption|assumption].
    - rewrite try_from_fail; [reflexivity|assumption|right; assumption|assumption].
  Qed.

  Definition pushed (st : seqint Item) (s : list Item) : seqint Item :=
    mk_seqint (sq_concat st ++ s)
      ((hash s, packed (N.of_nat (length (sq_concat st))) (N.of_nat (length s))) :: sq_table st).

  Lemma pushed_inv st seqs s : SInv st seqs -> ~ In s seqs ->
    representable w lb (N.of_nat (length (sq_concat st))) (N.of_nat (length s)) ->
    SInv (pushed st s) (s :: seqs).
  Proof.
    intros HI Hn Hr. constructor; simpl.
    - constructor.
      + split; [reflexivity|]. simpl. unfold packed. rewrite into_packed by apply Hr. apply slice_end.
      + eapply Forall2_impl; [|apply HI]. intros e t [H1 H2]. split; [exact H1|]. apply slice_app, H2.
    - constructor; [exact Hn|apply HI].
    - unfold total; simpl. rewrite !app_length, (si_total _ _ HI). unfold total. lia.
  Qed.

  Lemma in_seqs_dec (s : list Item) seqs : {In s seqs} + {~ In s seqs}.
  Proof. apply in_dec, seq_dec. Qed.

  Definition fits (st : seqint Item) (s : list Item) : Prop :=
    representable w lb (N.of_nat (length (sq_concat st))) (N.of_nat (length s)).

  Lemma intern_cases st seqs s : SInv st seqs ->
    (In s seqs /\ exists k, get_key st (hash s) s = Some k /\ slice (sq_concat st) (into k) = Some s /\
                            intern st s = Ret (k, st))
    \/ (~ In s seqs /\ fits st s /\
        intern st s = Ret (packed (N.of_nat (length (sq_concat st))) (N.of_nat (length s)), pushed st s))
    \/ (~ In s seqs /\ ~ fits st s /\ intern st s = Panic).
  Proof.
    intros HI. unfold sq_intern. destruct (in_seqs_dec s seqs) as [Hin|Hn].
    - left. split; [exact Hin|].
      destruct (lookup_known _ [] _ _ _ (si_rep _ _ HI) Hin) as (k & _ & E & Es & _).
      rewrite mk_eta in E. exists k. rewrite E. auto.
    - right. pose proof (lookup_unknown _ [] _ _ _ (si_rep _ _ HI) Hn) as E.
      rewrite app_nil_r, mk_eta in E. rewrite E. unfold fits.
      destruct (key_choice (N.of_nat (length (sq_concat st))) (N.of_nat (length s))) as [[Hk Hr]|[Hk Hr]];
        destruct (seqkey_try_from_impl_key w lb _) as [[k|]|] eqn:Et; simpl in Hk; try discriminate.
      + left. split; [exact Hn|]. split; [exact Hr|]. simpl. injection Hk as ->. reflexivity.
      + right. auto.
      + right. auto.
  Qed.

  Lemma removelast_rev (l : list Item) : removelast l = rev (tl (rev l)).
  Proof.
    destruct l as [|x l] using rev_ind; [reflexivity|].
    rewrite removelast_last, rev_app_distr. simpl. rewrite rev_involutive. reflexivity.
  Qed.

  (** Entries refine private lists. *)
  Lemma en_step_local (c : list Item) (t : table key) (l : list Item) (o : entry_op Item) :
    en_step (mk_entry (mk_seqint (c ++ l) t) (length c)) o =
    let (b, l') := local_step l o in (b, mk_entry (mk_seqint (c ++ l') t) (length c)).
  Proof.
    destruct o as [x| |]; simpl.
    - unfold en_push; simpl. rewrite <- app_assoc. reflexivity.
    - unfold en_pop; simpl. destruct l as [|x l _] using rev_ind; simpl.
      + rewrite app_nil_r, Nat.ltb_irrefl. reflexivity.
      + rewrite rev_app_distr. simpl. rewrite rev_involutive.
        rewrite !app_length; simpl. rewrite (proj2 (Nat.ltb_lt _ _)) by lia.
        rewrite app_assoc. rewrite removelast_last. f_equal. f_equal.
        rewrite nth_error_app2; rewrite app_length; [|lia].
        replace (length c + (length l + 1) - 1 - (length c + length l)) with 0 by lia. reflexivity.
    - unfold en_len; simpl. rewrite app_length. f_equal. f_equal. lia.
  Qed.

  Lemma en_run_local (c : list Item) (t : table key) (ops : list (entry_op Item)) : forall l : list Item,
    en_run (mk_entry (mk_seqint (c ++ l) t) (length c)) ops =
    let (b, l') := local_run l ops in (b, mk_entry (mk_seqint (c ++ l') t) (length c)).
  Proof.
    induction ops as [|o ops IH]; intros l; cbn [en_run local_run]; [reflexivity|].
    rewrite en_step_local. destruct (local_step l o) as [b l1]. rewrite IH.
    destruct (local_run l1 ops) as [bs l2]. reflexivity.
  Qed.

  Lemma en_run_entry (st : seqint Item) (ops : list (entry_op Item)) :
    en_run (sq_entry st) ops =
    (fst (local_run [] ops),
     mk_entry (mk_seqint (sq_concat st ++ survivors ops) (sq_table st)) (length (sq_concat st))).
  Proof.
    unfold sq_entry. pose proof (en_run_local (sq_concat st) (sq_table st) ops []) as E.
    rewrite app_nil_r, mk_eta in E. rewrite E. unfold survivors. destruct (local_run [] ops); reflexivity.
  Qed.

  Lemma drop_entry (st : seqint Item) (l : list Item) :
    en_drop (mk_entry (mk_seqint (sq_concat st ++ l) (sq_table st)) (length (sq_concat st))) = st.
  Proof.
    unfold en_drop; simpl. rewrite firstn_app, firstn_all, Nat.sub_diag. simpl.
    rewrite app_nil_r. apply mk_eta.
  Qed.

  Lemma entry_intern_eq st seqs s : SInv st seqs ->
    let e := mk_entry (mk_seqint (sq_concat st ++ s) (sq_table st)) (length (sq_concat st)) in
    (fits st s /\ exists k st', intern st s = Ret (k, st') /\ e_intern e = (Ret k, st'))
    \/ (~ fits st s /\ e_intern e = (Panic, st)).
  Proof.
    intros HI e. unfold en_intern. subst e; cbn [en_int en_init sq_concat sq_table].
    assert (Es : skipn (length (sq_concat st)) (sq_concat st ++ s) = s).
    { rewrite skipn_app, skipn_all, Nat.sub_diag. reflexivity. }
    rewrite Es. unfold fits.
    destruct (key_choice (N.of_nat (length (sq_concat st))) (N.of_nat (length s))) as [[Hk Hr]|[Hk Hr]].
    - left. split; [exact Hr|]. rewrite Hk.
      destruct (intern_cases st seqs s HI) as [(Hin & k & Hg & Hs & E)|[(Hn & Hf & E)|(Hn & Hf & E)]].
      + destruct (lookup_known _ s _ _ _ (si_rep _ _ HI) Hin) as (k' & E1 & E2 & _ & _).
        rewrite mk_eta in E2. assert (k' = k) by congruence. subst k'.
        rewrite E1. exists k, st. split; [exact E|]. f_equal. apply drop_entry.
      + rewrite (lookup_unknown _ s _ _ _ (si_rep _ _ HI) Hn).
        eexists _, _. split; [exact E|]. reflexivity.
      + contradiction.
    - right. split; [exact Hr|]. rewrite Hk. f_equal. apply drop_entry.
  Qed.

  (** Lookup function used as the meaning of "the key of s". *)
  Definition key_of (st : seqint Item) (s : list Item) (k : key) : Prop :=
    get_key st (hash s) s = Some k /\ slice (sq_concat st) (into k) = Some s.

  Definition mono (st st' : seqint Item) (seqs : list (list Item)) : Prop :=
    forall s k, In s seqs -> key_of st s k -> key_of st' s k.

  Lemma pushed_mono st seqs s : SInv st seqs -> ~ In s seqs -> fits st s -> mono st (pushed st s) seqs.
  Proof.
    intros HI Hn Hf t k Hin [Hk Hs]. split; [|apply slice_app; exact Hs].
    unfold sq_get_key, table_get; cbn [pushed sq_table sq_concat find fst snd].
    unfold packed. rewrite into_packed by apply Hf. rewrite slice_end.
    assert (El : leqb s t = false).
    { destruct (leqb s t) eqn:E; [|reflexivity]. apply leqb_eq in E. subst; contradiction. }
    rewrite El, andb_false_r.
    destruct (lookup_known _ s _ _ _ (si_rep _ _ HI) Hin) as (k' & E1 & E2 & _ & _).
    rewrite mk_eta in E2. assert (k' = k) by congruence. subst k'. exact E1.
  Qed.

  Lemma pushed_key st s : fits st s ->
    key_of (pushed st s) s (packed (N.of_nat (length (sq_concat st))) (N.of_nat (length s))).
  Proof.
    intros Hf. split.
    - unfold sq_get_key, table_get; cbn [pushed sq_table sq_concat find fst snd].
      rewrite probe_refl. unfold packed. rewrite into_packed by apply Hf. rewrite slice_end.
      rewrite (proj2 (leqb_eq s s) eq_refl). reflexivity.
    - simpl. unfold packed. rewrite into_packed by apply Hf. apply slice_end.
  Qed.

  (** One client operation. *)
  Lemma step_spec st seqs o out st' : SInv st seqs -> step st o = (out, st') ->
    exists seqs', SInv st' seqs' /\ incl seqs seqs' /\ mono st st' seqs /\
      (forall ops c, o = OpEntry ops c -> fst out = fst (local_run [] ops)) /\
      match wanted o, snd out with
      | None, None => st' = st /\ seqs' = seqs
      | Some s, Some (Ret k) => In s seqs' /\ key_of st' s k /\
            (In s seqs -> st' = st /\ seqs' = seqs) /\
            (~ In s seqs -> fits st s /\ seqs' = s :: seqs /\ sq_concat st' = sq_concat st ++ s)
      | Some s, Some Panic => st' = st /\ seqs' = seqs /\ ~ fits st s /\
            (forall s0, o = OpIntern s0 -> ~ In s seqs)
      | _, _ => False
      end.
  Proof.
    intros HI.
    assert (Hok : forall s k s1, intern st s = Ret (k, s1) ->
      exists seqs', SInv s1 seqs' /\ incl seqs seqs' /\ mono st s1 seqs /\
        In s seqs' /\ key_of s1 s k /\ (In s seqs -> s1 = st /\ seqs' = seqs) /\
        (~ In s seqs -> fits st s /\ seqs' = s :: seqs /\ sq_concat s1 = sq_concat st ++ s)).
    { intros s k s1 E. destruct (intern_cases st seqs s HI) as [(Hin & k' & Hg & Hs & E')|[(Hn & Hf & E')|(Hn & Hf & E')]];
        rewrite E' in E; try discriminate; injection E as <- <-.
      - exists seqs. split; [exact HI|]. split; [apply incl_refl|]. split; [intros ? ? _ H; exact H|].
        split; [exact Hin|]. split; [split; assumption|]. split; [auto|]. intros H; contradiction.
      - exists (s :: seqs). split; [apply pushed_inv; assumption|]. split; [apply incl_tl, incl_refl|].
        split; [apply pushed_mono; assumption|]. split; [left; reflexivity|].
        split; [apply pushed_key; exact Hf|]. split; [intros H; contradiction|]. auto. }
    destruct o as [s|ops c]; cbn [sq_step].
    - destruct (intern st s) as [[k s1]|] eqn:E; intros Eq; injection Eq as <- <-; cbn [wanted fst snd].
      + destruct (Hok _ _ _ E) as (seqs' & H1 & H2 & H3 & H4).
        exists seqs'. split; [exact H1|]. split; [exact H2|]. split; [exact H3|]. split; [discriminate|exact H4].
      + exists seqs. split; [exact HI|]. split; [apply incl_refl|]. split; [intros ? ? _ H; exact H|].
        split; [discriminate|]. split; [reflexivity|]. split; [reflexivity|].
        destruct (intern_cases st seqs s HI) as [(Hin & k' & Hg & Hs & E')|[(Hn & Hf & E')|(Hn & Hf & E')]];
          rewrite E' in E; try discriminate. split; [exact Hf|]. intros _ _; exact Hn.
    - rewrite en_run_entry. destruct c; cbn [wanted].
      + destruct (entry_intern_eq st seqs (survivors ops) HI) as [(Hf & k & s1 & E & Ee)|(Hf & Ee)];
          rewrite Ee; intros Eq; injection Eq as <- <-; cbn [wanted fst snd].
        * destruct (Hok _ _ _ E) as (seqs' & H1 & H2 & H3 & H4).
          exists seqs'. split; [exact H1|]. split; [exact H2|]. split; [exact H3|].
          split; [intros ops' c' Eo; injection Eo as <- <-; reflexivity|exact H4].
        * exists seqs. split; [exact HI|]. split; [apply incl_refl|]. split; [intros ? ? _ H; exact H|].
          split; [intros ops' c' Eo; injection Eo as <- <-; reflexivity|].
          split; [reflexivity|]. split; [reflexivity|]. split; [exact Hf|discriminate].
      + intros Eq; injection Eq as <- <-; cbn [wanted fst snd]. exists seqs. rewrite drop_entry.
        split; [exact HI|]. split; [apply incl_refl|]. split; [intros ? ? _ H; exact H|].
        split; [intros ops' c' Eo; injection Eo as <- <-; reflexivity|]. auto.
  Qed.

  Lemma run_spec os : forall st seqs outs st', SInv st seqs -> run st os = (outs, st') ->
    exists seqs', SInv st' seqs' /\ incl seqs seqs' /\ mono st st' seqs /\
      length outs = length os /\
      (forall i s k, got os outs i s k -> In s seqs' /\ key_of st' s k) /\
      (forall s, In s seqs' -> In s seqs \/ exists i k, got os outs i s k).
  Proof.
    induction os as [|o os IH]; intros st seqs outs st' HI; cbn [sq_run].
    - intros E; injection E as <- <-. exists seqs. split; [exact HI|]. split; [apply incl_refl|].
      split; [intros ? ? _ H; exact H|]. split; [reflexivity|]. split.
      + intros i s k (o & obs & H & _). destruct i; discriminate.
      + auto.
    - destruct (step st o) as [out st1] eqn:Es. destruct (run st1 os) as [outs1 st2] eqn:Er.
      intros E; injection E as <- <-.
      destruct (step_spec _ _ _ _ _ HI Es) as (seqs1 & HI1 & Hincl & Hmono & _ & Hout).
      destruct (IH _ _ _ _ HI1 Er) as (seqs2 & HI2 & Hincl2 & Hmono2 & Hlen & Hgot & Hall).
      exists seqs2. split; [exact HI2|]. split; [eapply incl_tran; eassumption|].
      split; [intros s k Hs Hk; apply Hmono2; [apply Hincl, Hs|apply Hmono; assumption]|].
      split; [simpl; congruence|]. split.
      + intros [|i] s k (o' & obs & Ho & Hw & Hn); simpl in Ho, Hn.
        * injection Ho as ->. injection Hn as ->. rewrite Hw in Hout. cbn [snd] in Hout.
          destruct Hout as (Hin & Hk & _). split; [apply Hincl2, Hin|apply Hmono2; assumption].
        * apply (Hgot i). exists o', obs. auto.
      + intros s Hs. destruct (Hall s Hs) as [H1|(i & k & o' & obs & G1 & G2 & G3)].
        * destruct (in_seqs_dec s seqs) as [Hy|Hn]; [left; exact Hy|right].
          destruct (wanted o) as [s0|] eqn:Ew; destruct out as [obs [[k|]|]]; cbn [snd] in Hout; try contradiction.
          -- destruct Hout as (Hin & Hk & Ha & Hb).
             destruct (in_seqs_dec s0 seqs) as [H0|H0].
             ++ destruct (Ha H0) as [_ ->]. contradiction.
             ++ destruct (Hb H0) as (_ & -> & _). destruct H1 as [->|H1]; [|contradiction].
                exists 0, k, o, obs. auto.
          -- destruct Hout as (_ & -> & _). contradiction.
          -- destruct Hout as (_ & ->). contradiction.
        * right. exists (S i), k, o', obs. auto.
  Qed.

  (** *** Consequences *)
  Lemma seq_injective os outs st : run sq_new os = (outs, st) ->
    forall i j s t ki kj, got os outs i s ki -> got os outs j t kj -> (ki = kj <-> s = t).
  Proof.
    intros Hr i j s t ki kj Hi Hj.
    destruct (run_spec _ _ _ _ _ new_sinv Hr) as (seqs & HI & _ & _ & _ & Hg & _).
    destruct (Hg _ _ _ Hi) as [_ [K1 S1]]. destruct (Hg _ _ _ Hj) as [_ [K2 S2]].
    split; intros E; subst; congruence.
  Qed.

  Lemma run_app xs ys st : run st (xs ++ ys) =
    let (k1, s1) := run st xs in let (k2, s2) := run s1 ys in (k1 ++ k2, s2).
  Proof.
    revert st; induction xs as [|x xs IH]; intros st; cbn [sq_run app].
    - destruct (run st ys); reflexivity.
    - destruct (step st x) as [o s1]. rewrite IH.
      destruct (run s1 xs) as [k1 s2]; destruct (run s2 ys) as [k2 s3]; reflexivity.
  Qed.

  Lemma seq_retrievable os os' outs outs' st st' :
    run sq_new os = (outs, st) -> run st os' = (outs', st') ->
    forall i s k, got os outs i s k ->
      sq_get lb st' k = Ret s /\ seqs_get lb (sq_finalize st') k = Ret s.
  Proof.
    intros H1 H2 i s k Hg.
    destruct (run_spec _ _ _ _ _ new_sinv H1) as (seqs & HI & _ & _ & _ & Hgot & _).
    destruct (run_spec _ _ _ _ _ HI H2) as (seqs' & HI' & _ & Hm & _).
    destruct (Hgot _ _ _ Hg) as [Hin Hk]. destruct (Hm _ _ Hin Hk) as [_ Hs].
    unfold sq_get, seqs_get, sq_finalize. rewrite Hs. split; reflexivity.
  Qed.

  Lemma seq_reintern os outs st i s k : run sq_new os = (outs, st) -> got os outs i s k ->
    intern st s = Ret (k, st).
  Proof.
    intros H1 Hg. destruct (run_spec _ _ _ _ _ new_sinv H1) as (seqs & HI & _ & _ & _ & Hgot & _).
    destruct (Hgot _ _ _ Hg) as [Hin [Hk Hs]].
    destruct (intern_cases st seqs s HI) as [(_ & k' & Hg' & Hs' & E')|[(Hn & _ & E')|(Hn & Hf & E')]]; [|contradiction|contradiction].
    rewrite E'. congruence.
  Qed.

  Lemma seq_counts os outs st : run sq_new os = (outs, st) ->
    forall l, NoDup l -> (forall s, In s l <-> exists i k, got os outs i s k) ->
      sq_len st = length l /\ sq_num_items st = length (concat l) /\
      sq_max_sequence_len lb st = match l with [] => None | _ => Some (list_max (map (@length Item) l)) end.
  Proof.
    intros H1 l Hl Hin. destruct (run_spec _ _ _ _ _ new_sinv H1) as (seqs & HI & _ & _ & _ & Hgot & Hall).
    assert (Hm : forall s, In s seqs <-> In s l).
    { intros s. rewrite Hin. split.
      - intros Hs. destruct (Hall s Hs) as [[]|H]; exact H.
      - intros (i & k & Hg). apply (Hgot i s k Hg). }
    assert (Hperm : Permutation.Permutation seqs l).
    { apply Permutation.NoDup_Permutation; [apply HI|exact Hl|exact Hm]. }
    split; [|split].
    - unfold sq_len. rewrite <- (Permutation.Permutation_length Hperm).
      eapply Forall2_length, HI.
    - unfold sq_num_items. rewrite (si_total _ _ HI). unfold total.
      clear -Hperm. induction Hperm; simpl; rewrite ?app_length in *; lia.
    - unfold sq_max_sequence_len.
      assert (Hmap : map (fun e : N * key => let (a, b) := into (snd e) in N.to_nat (b - a)) (sq_table st)
                     = map (@length Item) seqs).
      { pose proof (si_rep _ _ HI) as Hf. clear -Hf lb_pos lb_lt. induction Hf as [|e s t seqs [_ Hs] Hf IH]; [reflexivity|].
        cbn [map]. f_equal; [|exact IH]. destruct (into (snd e)) as [a b]. apply slice_length in Hs. lia. }
      rewrite Hmap.
      assert (Hmax : fold_right Nat.max 0 (map (@length Item) seqs) = list_max (map (@length Item) l)).
      { change (list_max (map (@length Item) seqs) = list_max (map (@length Item) l)).
        clear -Hperm. induction Hperm; simpl in *; lia. }
      rewrite Hmax. pose proof (Forall2_length _ _ _ (si_rep _ _ HI)) as Hlt.
      pose proof (Permutation.Permutation_length Hperm) as Hll.
      destruct (sq_table st); destruct l; simpl in *; try congruence; try lia.
  Qed.

  Lemma seq_panics os outs st s : run sq_new os = (outs, st) ->
    (intern st s = Panic <->
       (~ exists i k, got os outs i s k) /\
       ~ representable w lb (N.of_nat (sq_num_items st)) (N.of_nat (length s))).
  Proof.
    intros H1. destruct (run_spec _ _ _ _ _ new_sinv H1) as (seqs & HI & _ & _ & _ & Hgot & Hall).
    assert (Hm : In s seqs <-> exists i k, got os outs i s k).
    { split.
      - intros Hs. destruct (Hall s Hs) as [[]|H]; exact H.
      - intros (i & k & Hg). apply (Hgot i s k Hg). }
    unfold sq_num_items. rewrite <- Hm.
    destruct (intern_cases st seqs s HI) as [(Hin & k' & Hg' & Hs' & E')|[(Hn & Hf & E')|(Hn & Hf & E')]];
      rewrite E'; split; try discriminate; intros H.
    - destruct H; contradiction.
    - destruct H; contradiction.
    - auto.
    - reflexivity.
  Qed.

  (** Transactions *)
  Lemma entry_transaction os outs st : run sq_new os = (outs, st) -> forall ops,
    step st (OpEntry ops false) = ((fst (local_run [] ops), None), st) /\
    (representable w lb (N.of_nat (sq_num_items st)) (N.of_nat (length (survivors ops))) ->
       exists k st', intern st (survivors ops) = Ret (k, st') /\
         step st (OpEntry ops true) = ((fst (local_run [] ops), Some (Ret k)), st')) /\
    (~ representable w lb (N.of_nat (sq_num_items st)) (N.of_nat (length (survivors ops))) ->
       step st (OpEntry ops true) = ((fst (local_run [] ops), Some Panic), st)).
  Proof.
    intros H1 ops. destruct (run_spec _ _ _ _ _ new_sinv H1) as (seqs & HI & _).
    cbn [sq_step]. rewrite en_run_entry, drop_entry. split; [reflexivity|].
    destruct (entry_intern_eq st seqs (survivors ops) HI) as [(Hf & k & s1 & E & Ee)|(Hf & Ee)];
      rewrite Ee; unfold sq_num_items, fits in *; (split; intros H; [|try contradiction]); try contradiction.
    - exists k, s1. split; [exact E|reflexivity].
    - reflexivity.
  Qed.
End S.

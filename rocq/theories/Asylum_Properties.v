(** Properties C01-C10 (crate asylum and cpparser's recursive sequence interner). *)
From Coq Require Import String.
From Verif Require Import Base Asylum_Model Asylum_Spec Asylum_Proofs1 Asylum_Proofs2
  Asylum_Proofs3 Asylum_Proofs4 Asylum_Proofs5.

(** The parameters every theorem below quantifies over:
    - [eqb] decides equality of items (`Item: Eq`),
    - [hash] is any hash function (so any collision pattern),
    - [probe] says which stored entries the hash table offers to the equality closure; the
      only requirement is that entries with the searched hash are offered. *)
Definition decides {A} (eqb : A -> A -> bool) : Prop := forall a b, eqb a b = true <-> a = b.
Definition offers (probe : N -> N -> bool) : Prop := forall h, probe h h = true.

(** C01 *)
Theorem C01_interning_injective :
  forall (Item : Type) (eqb : Item -> Item -> bool) (hash : Item -> N) (probe : N -> N -> bool) (w : N),
  decides eqb -> offers probe ->
  forall xs ks st, it_run Item eqb hash probe w it_new xs = (ks, st) ->
  forall i j a b ki kj,
    nth_error xs i = Some a -> nth_error xs j = Some b ->
    nth_error ks i = Some (Some ki) -> nth_error ks j = Some (Some kj) ->
    (ki = kj <-> a = b).
Proof. intros Item eqb hash probe w He Hp. exact (keys_injective Item eqb He hash probe Hp w). Qed.
Print Assumptions C01_interning_injective.

(** C02 *)
Theorem C02_interned_items_retrievable :
  forall (Item : Type) (eqb : Item -> Item -> bool) (hash : Item -> N) (probe : N -> N -> bool) (w : N),
  decides eqb -> offers probe ->
  forall xs ys ks st ks' st',
    it_run Item eqb hash probe w it_new xs = (ks, st) ->
    it_run Item eqb hash probe w st ys = (ks', st') ->
  forall i x k, nth_error xs i = Some x -> nth_error ks i = Some (Some k) ->
    it_get st' k = Ret x /\ interned_get (it_finalize st') k = Ret x.
Proof. intros Item eqb hash probe w He Hp. exact (retrievable Item eqb He hash probe Hp w). Qed.
Print Assumptions C02_interned_items_retrievable.

(** C03: `len` counts distinct items; intern panics exactly when a new item meets an
    exhausted key space; re-interning changes nothing. *)
Theorem C03_len_counts_distinct_items :
  forall (Item : Type) (eqb : Item -> Item -> bool) (hash : Item -> N) (probe : N -> N -> bool) (w : N),
  decides eqb -> offers probe ->
  forall xs ks st, it_run Item eqb hash probe w it_new xs = (ks, st) ->
  forall l, NoDup l -> (forall x, In x l <-> succeeded xs ks x) ->
    it_len st = length l /\ (it_is_empty st = true <-> l = []).
Proof.
  intros Item eqb hash probe w He Hp xs ks st Hr l Hn Hl.
  assert (H := len_distinct Item eqb He hash probe Hp w xs ks st Hr l Hn Hl).
  split; [exact H|]. unfold it_is_empty, it_len in *. destruct l; simpl in H.
  - destruct (it_items st); [split; reflexivity|discriminate H].
  - destruct (it_items st); [discriminate H|split; discriminate].
Qed.
Print Assumptions C03_len_counts_distinct_items.

Theorem C03_panics_exactly_when_exhausted :
  forall (Item : Type) (eqb : Item -> Item -> bool) (hash : Item -> N) (probe : N -> N -> bool) (w : N),
  decides eqb -> offers probe ->
  forall xs ks st x, it_run Item eqb hash probe w it_new xs = (ks, st) ->
  (it_intern Item eqb hash probe w st x = Panic <->
     ~ succeeded xs ks x /\ N.of_nat (it_len st) = (2 ^ w - 1)%N).
Proof. intros Item eqb hash probe w He Hp. exact (panics_iff Item eqb He hash probe Hp w). Qed.
Print Assumptions C03_panics_exactly_when_exhausted.

Theorem C03_reinterning_is_noop :
  forall (Item : Type) (eqb : Item -> Item -> bool) (hash : Item -> N) (probe : N -> N -> bool) (w : N),
  decides eqb -> offers probe ->
  forall xs ks st x k i, it_run Item eqb hash probe w it_new xs = (ks, st) ->
    nth_error xs i = Some x -> nth_error ks i = Some (Some k) ->
    it_intern Item eqb hash probe w st x = Ret (k, st).
Proof. intros Item eqb hash probe w He Hp. exact (reintern_noop Item eqb He hash probe Hp w). Qed.
Print Assumptions C03_reinterning_is_noop.

(** Non-vacuity of C01-C03: all items collide, keys are `MicroSpur`, 256 distinct items
    and a repeated one; the 256th distinct one panics. *)
Definition all_collide (n : N) : N := 7%N.
Definition any_probe (a b : N) : bool := true.
Example C01_C03_witness :
  decides N.eqb /\ offers any_probe /\
  let xs := map N.of_nat (3 :: seq 0 256) in
  let (ks, st) := it_run N N.eqb all_collide any_probe 8 it_new xs in
  nth_error ks 0 = Some (Some 1%N) /\ nth_error ks 4 = Some (Some 1%N) /\
  nth_error ks 3 = Some (Some 4%N) /\ nth_error ks 256 = Some None /\ it_len st = 255 /\
  it_get st 4%N = Ret 2%N.
Proof.
  split; [exact N.eqb_eq|]. split; [intros h; reflexivity|].
  vm_compute. repeat split; reflexivity.
Qed.

(** C04: [o] is a `usize`, so below 2^64. *)
Theorem C04_sequence_key_lossless_or_refused :
  forall w lb o len : N, (lb < 64)%N -> (o < 2 ^ 64)%N ->
  exists r, seqkey_try_from_impl_key w lb (o, o + len)%N = Ret r /\
    (r <> None <-> representable w lb o len) /\
    (forall k, r = Some k -> seqkey_into_impl_key lb k = (o, o + len)%N).
Proof.
  intros w lb o len H1 H2. destruct (seqkey_total w lb o len H1 (or_introl H2)) as [r Hr].
  exists r. destruct (seqkey_roundtrip w lb o len H1 (or_introl H2) r Hr) as [Ha Hb].
  split; [exact Hr|]. split; [tauto|]. intros k Hk. apply (Hb k Hk).
Qed.
Print Assumptions C04_sequence_key_lossless_or_refused.

Theorem C04_distinct_ranges_distinct_keys :
  forall w lb o1 len1 o2 len2 k : N, (lb < 64)%N -> (o1 < 2 ^ 64)%N -> (o2 < 2 ^ 64)%N ->
  seqkey_try_from_impl_key w lb (o1, o1 + len1)%N = Ret (Some k) ->
  seqkey_try_from_impl_key w lb (o2, o2 + len2)%N = Ret (Some k) ->
  o1 = o2 /\ len1 = len2.
Proof.
  intros w lb o1 len1 o2 len2 k Hlb H1 H2 E1 E2.
  destruct (proj2 (seqkey_roundtrip w lb o1 len1 Hlb (or_introl H1) _ E1) k eq_refl) as [A _].
  destruct (proj2 (seqkey_roundtrip w lb o2 len2 Hlb (or_introl H2) _ E2) k eq_refl) as [B _].
  rewrite A in B. injection B as B1 B2. lia.
Qed.
Print Assumptions C04_distinct_ranges_distinct_keys.

(** The largest `SequenceKey<Spur, 8>` and the first refusals around it. *)
Example C04_witness :
  seqkey_try_from_impl_key 32 8 (16777215, 16777215 + 254)%N = Ret (Some (2 ^ 32 - 1)%N) /\
  seqkey_try_from_impl_key 32 8 (16777215, 16777215 + 255)%N = Ret None /\
  seqkey_try_from_impl_key 32 8 (16777216, 16777216)%N = Ret None /\
  seqkey_try_from_impl_key 32 8 (0, 256)%N = Ret None /\
  seqkey_try_from_impl_key 32 8 (5, 260)%N = Ret (Some 1536%N).
Proof. vm_compute. repeat split; reflexivity. Qed.

(** C05 *)
Theorem C05_sequence_interning_injective :
  forall (Item : Type) (eqb : Item -> Item -> bool) (hash : list Item -> N) (probe : N -> N -> bool) (w lb : N),
  decides eqb -> offers probe -> (0 < lb)%N -> (lb < 64)%N ->
  forall os outs st, sq_run Item eqb hash probe w lb sq_new os = (outs, st) ->
  forall i j s t ki kj, got os outs i s ki -> got os outs j t kj -> (ki = kj <-> s = t).
Proof.
  intros Item eqb hash probe w lb He Hp H1 H2. exact (seq_injective Item eqb He hash probe Hp w lb H1 H2).
Qed.
Print Assumptions C05_sequence_interning_injective.

Theorem C05_sequences_retrievable :
  forall (Item : Type) (eqb : Item -> Item -> bool) (hash : list Item -> N) (probe : N -> N -> bool) (w lb : N),
  decides eqb -> offers probe -> (0 < lb)%N -> (lb < 64)%N ->
  forall os os' outs outs' st st',
    sq_run Item eqb hash probe w lb sq_new os = (outs, st) ->
    sq_run Item eqb hash probe w lb st os' = (outs', st') ->
  forall i s k, got os outs i s k ->
    sq_get lb st' k = Ret s /\ seqs_get lb (sq_finalize st') k = Ret s.
Proof.
  intros Item eqb hash probe w lb He Hp H1 H2. exact (seq_retrievable Item eqb He hash probe Hp w lb H1 H2).
Qed.
Print Assumptions C05_sequences_retrievable.

Theorem C05_reinterning_is_noop :
  forall (Item : Type) (eqb : Item -> Item -> bool) (hash : list Item -> N) (probe : N -> N -> bool) (w lb : N),
  decides eqb -> offers probe -> (0 < lb)%N -> (lb < 64)%N ->
  forall os outs st i s k, sq_run Item eqb hash probe w lb sq_new os = (outs, st) ->
    got os outs i s k -> sq_intern Item eqb hash probe w lb st s = Ret (k, st).
Proof.
  intros Item eqb hash probe w lb He Hp H1 H2. exact (seq_reintern Item eqb He hash probe Hp w lb H1 H2).
Qed.
Print Assumptions C05_reinterning_is_noop.

(** `len`, `num_items` and `max_sequence_len` describe the set of interned sequences. *)
Theorem C05_statistics :
  forall (Item : Type) (eqb : Item -> Item -> bool) (hash : list Item -> N) (probe : N -> N -> bool) (w lb : N),
  decides eqb -> offers probe -> (0 < lb)%N -> (lb < 64)%N ->
  forall os outs st, sq_run Item eqb hash probe w lb sq_new os = (outs, st) ->
  forall l, NoDup l -> (forall s, In s l <-> exists i k, got os outs i s k) ->
    sq_len st = length l /\ (sq_is_empty st = true <-> l = []) /\ sq_num_items st = length (concat l) /\
    sq_max_sequence_len lb st =
      match l with [] => None | _ => Some (list_max (map (@length Item) l)) end.
Proof.
  intros Item eqb hash probe w lb He Hp H1 H2 os outs st Hr l Hn Hl.
  destruct (seq_counts Item eqb He hash probe Hp w lb H1 H2 os outs st Hr l Hn Hl) as [H H'].
  split; [exact H|]. split; [|exact H']. unfold sq_is_empty. rewrite H, Nat.eqb_eq.
  apply length_zero_iff_nil.
Qed.
Print Assumptions C05_statistics.

Theorem C05_panics_exactly_when_unrepresentable :
  forall (Item : Type) (eqb : Item -> Item -> bool) (hash : list Item -> N) (probe : N -> N -> bool) (w lb : N),
  decides eqb -> offers probe -> (0 < lb)%N -> (lb < 64)%N ->
  forall os outs st s, sq_run Item eqb hash probe w lb sq_new os = (outs, st) ->
  (sq_intern Item eqb hash probe w lb st s = Panic <->
     (~ exists i k, got os outs i s k) /\
     ~ representable w lb (N.of_nat (sq_num_items st)) (N.of_nat (length s))).
Proof.
  intros Item eqb hash probe w lb He Hp H1 H2. exact (seq_panics Item eqb He hash probe Hp w lb H1 H2).
Qed.
Print Assumptions C05_panics_exactly_when_unrepresentable.

(** C06: an entry behaves like a private list; dropping it restores the interner exactly;
    interning it is interning the slice of its survivors (when a new key is available:
    see C07 for the remaining case). *)
Theorem C06_entries_are_transactions :
  forall (Item : Type) (eqb : Item -> Item -> bool) (hash : list Item -> N) (probe : N -> N -> bool) (w lb : N),
  decides eqb -> offers probe -> (0 < lb)%N -> (lb < 64)%N ->
  forall os outs st, sq_run Item eqb hash probe w lb sq_new os = (outs, st) -> forall ops,
    sq_step Item eqb hash probe w lb st (OpEntry ops false) = ((fst (local_run [] ops), None), st) /\
    (representable w lb (N.of_nat (sq_num_items st)) (N.of_nat (length (survivors ops))) ->
       exists k st', sq_intern Item eqb hash probe w lb st (survivors ops) = Ret (k, st') /\
         sq_step Item eqb hash probe w lb st (OpEntry ops true)
           = ((fst (local_run [] ops), Some (Ret k)), st')) /\
    (~ representable w lb (N.of_nat (sq_num_items st)) (N.of_nat (length (survivors ops))) ->
       sq_step Item eqb hash probe w lb st (OpEntry ops true)
         = ((fst (local_run [] ops), Some Panic), st)).
Proof.
  intros Item eqb hash probe w lb He Hp H1 H2. exact (entry_transaction Item eqb He hash probe Hp w lb H1 H2).
Qed.
Print Assumptions C06_entries_are_transactions.

Definition hash0 (s : list N) : N := 0%N.
Example C05_C06_witness :
  let os := [OpIntern [1; 2]; OpEntry [EPop; EPush 5; EPop; EPush 1; ELen; EPush 2] true;
             OpEntry [EPush 9; EPush 8] false; OpIntern []; OpIntern [2];
             OpEntry [EPush 7] true]%N in
  let (outs, st) := sq_run N N.eqb hash0 any_probe 32 8 sq_new os in
  map snd outs = [Some (Ret 3); Some (Ret 3); None; Some (Ret 513); Some (Ret 514); Some (Ret 770)]%N /\
  map fst outs = [[]; [OPop None; OUnit; OPop (Some 5); OUnit; OLen 1; OUnit]; [OUnit; OUnit]; []; []; [OUnit]]%N /\
  sq_concat st = [1; 2; 2; 7]%N /\ sq_get 8 st 3%N = Ret [1; 2]%N /\ sq_get 8 st 513%N = Ret [].
Proof. vm_compute. repeat split; reflexivity. Qed.

(** C07 is false of the code: with MiniSpur keys of 6 length bits (the ones cpparser uses
    for function arguments), an exhausted interner still knows a sequence, `intern` finds
    it, and the entry panics. *)
Definition c07_history : list (seq_op N) :=
  map (fun i => OpIntern (repeat (N.of_nat i) 61)) (seq 1 17).
Theorem C07_entry_agrees_with_intern_refuted :
  ~ (forall (Item : Type) (eqb : Item -> Item -> bool) (hash : list Item -> N) (probe : N -> N -> bool),
     decides eqb -> offers probe ->
     forall os outs st, sq_run Item eqb hash probe 16 6 sq_new os = (outs, st) ->
     forall ops k st', sq_intern Item eqb hash probe 16 6 st (survivors ops) = Ret (k, st') ->
       sq_step Item eqb hash probe 16 6 st (OpEntry ops true)
         = ((fst (local_run [] ops), Some (Ret k)), st')).
Proof.
  intros H.
  specialize (H N N.eqb hash0 any_probe N.eqb_eq (fun _ => eq_refl) c07_history).
  destruct (sq_run N N.eqb hash0 any_probe 16 6 sq_new c07_history) as [outs st] eqn:E.
  specialize (H outs st eq_refl (map EPush (repeat 5%N 61))).
  assert (Hi : exists k st', sq_intern N N.eqb hash0 any_probe 16 6 st
                 (survivors (map EPush (repeat 5%N 61))) = Ret (k, st')).
  { revert E. vm_compute. intros E; injection E as _ <-. eexists _, _. vm_compute. reflexivity. }
  destruct Hi as (k & st' & Hi). specialize (H k st' Hi). clear Hi.
  revert E H. vm_compute. intros E; injection E as _ <-. discriminate.
Qed.
Print Assumptions C07_entry_agrees_with_intern_refuted.

(** ... and this holds in every exhausted state, whatever the key type. *)
Theorem C07_exhausted_entries_always_panic :
  forall (Item : Type) (eqb : Item -> Item -> bool) (hash : list Item -> N) (probe : N -> N -> bool) (w lb : N),
  decides eqb -> offers probe -> (0 < lb)%N -> (lb < 64)%N ->
  forall os outs st i ops k, sq_run Item eqb hash probe w lb sq_new os = (outs, st) ->
    got os outs i (survivors ops) k ->
    ~ representable w lb (N.of_nat (sq_num_items st)) (N.of_nat (length (survivors ops))) ->
    sq_intern Item eqb hash probe w lb st (survivors ops) = Ret (k, st) /\
    snd (fst (sq_step Item eqb hash probe w lb st (OpEntry ops true))) = Some Panic.
Proof.
  intros Item eqb hash probe w lb He Hp H1 H2 os outs st i ops k Hr Hg Hn.
  split; [exact (seq_reintern Item eqb He hash probe Hp w lb H1 H2 os outs st i _ k Hr Hg)|].
  destruct (entry_transaction Item eqb He hash probe Hp w lb H1 H2 os outs st Hr ops) as (_ & _ & H).
  rewrite (H Hn). reflexivity.
Qed.
Print Assumptions C07_exhausted_entries_always_panic.

(** C08: whatever the interleaving, the live sequences together behave like plain interning
    of, for each RIntern, exactly the items pushed under that name since its creation
    ([items_of] never looks at operations on other names). *)
Theorem C08_recursive_interning_never_leaks :
  forall (Item : Type) (eqb : Item -> Item -> bool) (hash : list Item -> N) (probe : N -> N -> bool) (w lb : N),
  forall os outs st, rc_run Item eqb hash probe w lb rc_new os = (outs, st) ->
    Forall2 (fun out wanted => out = None <-> wanted = None) outs (rec_wanted [] os) /\
    sq_run Item eqb hash probe w lb sq_new (map OpIntern (filter_some (rec_wanted [] os)))
      = (map (fun q => ([], Some q)) (filter_some outs), rc_int st).
Proof. intros Item eqb hash probe w lb. exact (recursive_no_leak Item eqb hash probe w lb). Qed.
Print Assumptions C08_recursive_interning_never_leaks.

(** C08 (scratch space): the buffers owned by the interner and by its clients, together, are
    always exactly as many as the largest number of sequences that were ever under
    construction at the same time: buffers are recycled, neither lost nor duplicated. *)
Theorem C08_scratch_buffers_recycled :
  forall (Item : Type) (eqb : Item -> Item -> bool) (hash : list Item -> N) (probe : N -> N -> bool) (w lb : N),
  forall os outs st, rc_run Item eqb hash probe w lb rc_new os = (outs, st) ->
    let buffers := (length (rc_storage st) + length (rc_live st))%nat in
    length (rc_live st) = length (open_after [] os) /\
    (forall before after, os = before ++ after -> length (open_after [] before) <= buffers) /\
    (exists before after, os = before ++ after /\ length (open_after [] before) = buffers).
Proof. intros Item eqb hash probe w lb. exact (buffers_recycled Item eqb hash probe w lb). Qed.
Print Assumptions C08_scratch_buffers_recycled.

Example C08_witness :
  let os := [RNew 1; RPush 1 10; RNew 2; RPush 2 20; RPush 1 11; RIntern 2; RNew 3; RPush 3 30;
             RPush 1 12; RDrop 3; RIntern 1; RNew 4; RPush 4 20; RIntern 4; RIntern 4]%N in
  filter_some (rec_wanted [] os) = [[20]; [10; 11; 12]; [20]]%N /\
  fst (rc_run N N.eqb hash0 any_probe 32 8 rc_new os) =
    [None; None; None; None; None; Some (Ret 2); None; None; None; None; Some (Ret 260); None; None;
     Some (Ret 2); None]%N /\
  length (rc_storage (snd (rc_run N N.eqb hash0 any_probe 32 8 rc_new os))) = 2 /\
  open_after [] (firstn 4 os) = [2; 1]%N.
Proof. vm_compute. repeat split. Qed.

(** C09 *)
Theorem C09_paths_normalised :
  forall (comp_hash : str -> N) (seq_hash : list key -> N) (probe : N -> N -> bool) (cw w lb : N),
  offers probe -> (0 < lb)%N -> (lb < 64)%N ->
  forall ps qs outs outs' st st',
    pi_run comp_hash seq_hash probe cw w lb pi_new ps = (outs, st) ->
    pi_run comp_hash seq_hash probe cw w lb st qs = (outs', st') ->
  forall i p k, nth_error ps i = Some p -> nth_error outs i = Some (Ret (PKey k)) ->
    absolute p /\ pi_components lb st' k = Ret ([slash] :: normal_form p) /\
    pi_to_boxed_path lb st' k = Ret (render (normal_form p)).
Proof.
  intros ch sh probe cw w lb Hp H1 H2. exact (path_components_ok ch sh probe Hp cw w lb H1 H2).
Qed.
Print Assumptions C09_paths_normalised.

Theorem C09_equal_keys_iff_equal_normal_forms :
  forall (comp_hash : str -> N) (seq_hash : list key -> N) (probe : N -> N -> bool) (cw w lb : N),
  offers probe -> (0 < lb)%N -> (lb < 64)%N ->
  forall ps outs st, pi_run comp_hash seq_hash probe cw w lb pi_new ps = (outs, st) ->
  forall i j p q ki kj, nth_error ps i = Some p -> nth_error ps j = Some q ->
    nth_error outs i = Some (Ret (PKey ki)) -> nth_error outs j = Some (Ret (PKey kj)) ->
    (ki = kj <-> normal_form p = normal_form q).
Proof.
  intros ch sh probe cw w lb Hp H1 H2. exact (path_injective ch sh probe Hp cw w lb H1 H2).
Qed.
Print Assumptions C09_equal_keys_iff_equal_normal_forms.

Theorem C09_relative_paths_rejected :
  forall (comp_hash : str -> N) (seq_hash : list key -> N) (probe : N -> N -> bool) (cw w lb : N) st p,
  ~ absolute p -> pi_intern comp_hash seq_hash probe cw w lb st p = (Ret (PErrRelative p), st).
Proof. exact path_relative. Qed.
Print Assumptions C09_relative_paths_rejected.

(** A normal form contains only proper names, and normalising its text gives it back. *)
Theorem C09_normal_forms_are_normal : forall p,
  Forall (fun s => s <> [] /\ s <> [dot] /\ s <> [dot; dot] /\ ~ In slash s) (normal_form p) /\
  normal_form (render (normal_form p)) = normal_form p.
Proof. intros p. split; [exact (normal_form_good p)|apply normal_form_render, normal_form_good]. Qed.
Print Assumptions C09_normal_forms_are_normal.

Theorem C09_panics_leave_keys_valid :
  forall (comp_hash : str -> N) (seq_hash : list key -> N) (probe : N -> N -> bool) (cw w lb : N),
  offers probe -> (0 < lb)%N -> (lb < 64)%N ->
  forall ps outs st p st', pi_run comp_hash seq_hash probe cw w lb pi_new ps = (outs, st) ->
  pi_intern comp_hash seq_hash probe cw w lb st p = (Panic, st') ->
  pi_seqs st' = pi_seqs st /\
  (forall i q k, nth_error ps i = Some q -> nth_error outs i = Some (Ret (PKey k)) ->
      pi_components lb st' k = Ret ([slash] :: normal_form q)).
Proof.
  intros ch sh probe cw w lb Hp H1 H2. exact (path_panic_harmless ch sh probe Hp cw w lb H1 H2).
Qed.
Print Assumptions C09_panics_leave_keys_valid.

(** `len`, `is_empty` and `num_components` describe the set of interned paths (the root counts as
    a component); `num_unique_components` counts the names in the texts of the paths, also those
    that `..` removes. *)
Theorem C09_statistics :
  forall (comp_hash : str -> N) (seq_hash : list key -> N) (probe : N -> N -> bool) (cw w lb : N),
  offers probe -> (0 < lb)%N -> (lb < 64)%N ->
  forall ps outs st, pi_run comp_hash seq_hash probe cw w lb pi_new ps = (outs, st) ->
  (forall l, NoDup l ->
     (forall ns, In ns l <-> exists i p k, nth_error ps i = Some p /\ nth_error outs i = Some (Ret (PKey k)) /\ normal_form p = ns) ->
     pi_len st = length l /\ (pi_is_empty st = true <-> l = []) /\
     pi_num_components st = length (concat (map (fun ns => [slash] :: ns) l))) /\
  (~ In Panic outs -> forall names, NoDup names ->
     (forall s, In s names <-> exists p, In p ps /\ absolute p /\
        (s = [slash] \/ In s (split_slash p) /\ s <> [] /\ s <> [dot] /\ s <> [dot; dot])) ->
     pi_num_unique_components st = length names).
Proof.
  intros ch sh probe cw w lb Hp H1 H2. exact (path_counts ch sh probe Hp cw w lb H1 H2).
Qed.
Print Assumptions C09_statistics.

Definition hash_str0 (s : str) : N := 0%N.
Example C09_witness :
  let ps := map of_string ["/usr/include/../lib/./x"; "/usr//lib/x/"; "/.."; "rel/x"; "/../.."; "/x"]%string in
  let (outs, st) := pi_run hash_str0 hash0 any_probe 32 32 8 pi_new ps in
  outs = [Ret (PKey 5); Ret (PKey 5); Ret (PKey 1026); Ret (PErrRelative (of_string "rel/x"));
          Ret (PKey 1026); Ret (PKey 1283)]%N /\
  pi_to_boxed_path 8 st 5%N = Ret (of_string "/usr/lib/x") /\
  pi_len st = 3 /\ pi_num_components st = 7 /\ pi_num_unique_components st = 5 /\
  normal_form (of_string "/usr/include/../lib/./x") = map of_string ["usr"; "lib"; "x"]%string.
Proof. vm_compute. repeat split; reflexivity. Qed.

(** C10 is false of the code: every absolute path of 2^LEN_BITS - 1 = 255 names or more
    panics, in every reachable state. *)
Theorem C10_long_paths_always_panic :
  forall (comp_hash : str -> N) (seq_hash : list key -> N) (probe : N -> N -> bool) (cw w lb : N),
  offers probe -> (0 < lb)%N -> (lb < 64)%N ->
  forall ps outs st p, pi_run comp_hash seq_hash probe cw w lb pi_new ps = (outs, st) ->
  absolute p -> (2 ^ lb <= N.of_nat (S (length (normal_form p))))%N ->
  fst (pi_intern comp_hash seq_hash probe cw w lb st p) = Panic.
Proof.
  intros ch sh probe cw w lb Hp H1 H2. exact (path_too_long ch sh probe Hp cw w lb H1 H2).
Qed.
Print Assumptions C10_long_paths_always_panic.

Theorem C10_long_paths_reported_refuted :
  ~ (forall (comp_hash : str -> N) (seq_hash : list key -> N) (probe : N -> N -> bool),
     offers probe ->
     forall p, absolute p ->
       exists r, fst (pi_intern comp_hash seq_hash probe 32 32 8 pi_new p) = Ret r).
Proof.
  intros H.
  set (p := render (repeat (of_string "a") 255)).
  destruct (H hash_str0 hash0 any_probe (fun _ => eq_refl) p) as [r Hr]; [eexists; reflexivity|].
  revert Hr. vm_compute. discriminate.
Qed.
Print Assumptions C10_long_paths_reported_refuted.

(** A predicate on parsers that is preserved by all combinators: two parsers agree on inputs
    shorter than [n], do not run out of budget, return a suffix of the input, and panic only
    for the reasons of [may_panic]. *)
From Coq Require Import Ascii String.
From Verif Require Import Base Cpp_Lex_Model Cpp_Parse_Spec.
Local Open Scope nat_scope.
Local Open Scope bool_scope.
Local Open Scope list_scope.

Notation len := (@List.length chr).
Notation pc := punctuation.

Lemma pc_app a b : pc (a ++ b) = pc a + pc b.
Proof. induction a as [|c a IH]; cbn; [reflexivity|]. rewrite IH. lia. Qed.

Lemma contains_suffix t u r : contains t r -> contains t (u ++ r).
Proof.
  intros (a & b & ->). exists (u ++ a), b. now rewrite app_assoc.
Qed.

Lemma may_panic_suffix w u r : may_panic w r -> may_panic w (u ++ r).
Proof.
  destruct w; cbn.
  - intros (c & Hc & H). exists c. split; [exact Hc|now apply contains_suffix].
  - intros (c & Hc & H). exists c. split; [exact Hc|now apply contains_suffix].
  - unfold is_crowded. rewrite pc_app. lia.
  - auto.
Qed.

Definition okr {A} (n : nat) (P : str -> str -> A -> Prop) (p p' : parser A) : Prop :=
  forall s, len s < n ->
    p s = p' s /\
    match p s with
    | POk r a => (exists u, s = u ++ r) /\ P s r a
    | PErr => True
    | PPanic w => may_panic w s
    | PFuel => False
    end.

(** how much is consumed: 0 anything, 1 something, 2 some punctuation *)
Definition lev (l : nat) (s r : str) : Prop :=
  match l with
  | 0 => True
  | 1 => len r < len s
  | _ => len r < len s /\ pc r < pc s
  end.

Definition ok {A} (n l : nat) (P : A -> Prop) : parser A -> parser A -> Prop :=
  okr n (fun s r a => lev l s r /\ P a).

Lemma suffix_len s u r : s = u ++ r -> len r <= len s /\ pc r <= pc s.
Proof. intros ->. rewrite app_length, pc_app. lia. Qed.

Lemma lev_le l l' s r : l' <= l -> lev l s r -> lev l' s r.
Proof. destruct l as [|[|l]], l' as [|[|l']]; cbn; intros; auto; lia. Qed.

Lemma okr_weaken {A} n n' (P Q : str -> str -> A -> Prop) p p' :
  okr n P p p' -> n' <= n ->
  (forall u r a, P (u ++ r) r a -> Q (u ++ r) r a) -> okr n' Q p p'.
Proof.
  intros H Hn HPQ s Hs. destruct (H s) as [E H']; [lia|]. split; [exact E|].
  destruct (p s) as [r a| |w|]; auto. destruct H' as [[u ->] HP]. split; [eauto|]. now apply HPQ.
Qed.

Lemma ok_weaken {A} n n' l l' (P Q : A -> Prop) p p' :
  ok n l P p p' -> n' <= n -> l' <= l -> (forall a, P a -> Q a) -> ok n' l' Q p p'.
Proof.
  intros H Hn Hl HPQ. eapply okr_weaken; [exact H|exact Hn|].
  intros u r a [H1 H2]. split; [eapply lev_le; eauto|auto].
Qed.

Lemma ok_level {A} n l l' (P : A -> Prop) p p' : ok n l P p p' -> l' <= l -> ok n l' P p p'.
Proof. intros; eapply ok_weaken; eauto. Qed.
Lemma ok_post {A} n l (P Q : A -> Prop) p p' :
  ok n l P p p' -> (forall a, P a -> Q a) -> ok n l Q p p'.
Proof. intros; eapply ok_weaken; eauto. Qed.
Lemma ok_fuel {A} n n' l (P : A -> Prop) p p' : ok n l P p p' -> n' <= n -> ok n' l P p p'.
Proof. intros; eapply ok_weaken; eauto. Qed.

(** sequencing, in general *)
Lemma okr_bind {A B} n (P : str -> str -> A -> Prop) (Q : str -> str -> B -> Prop) p p'
  (k k' : str -> A -> pres B) :
  okr n P p p' ->
  (forall u r a, len (u ++ r) < n -> P (u ++ r) r a ->
     k r a = k' r a /\
     match k r a with
     | POk r' b => (exists v, r = v ++ r') /\ Q (u ++ r) r' b
     | PErr => True
     | PPanic w => may_panic w (u ++ r)
     | PFuel => False
     end) ->
  okr n Q (fun s => pbind (p s) k) (fun s => pbind (p' s) k').
Proof.
  intros Hp Hk s Hs. destruct (Hp s Hs) as [E H]. rewrite <- E.
  destruct (p s) as [r a| |w|]; cbn [pbind]; auto.
  destruct H as [[u ->] HP]. destruct (Hk u r a Hs HP) as [E' H']. split; [exact E'|].
  destruct (k r a) as [r' b| |w|]; auto. destruct H' as [[v ->] HQ]. split; [|exact HQ].
  exists (u ++ v). now rewrite app_assoc.
Qed.

Lemma ok_map {A B} n l (P : A -> Prop) (Q : B -> Prop) (f : A -> B) p p' :
  ok n l P p p' -> (forall a, P a -> Q (f a)) -> ok n l Q (pmap f p) (pmap f p').
Proof.
  intros Hp HQ. eapply okr_bind; [exact Hp|]. intros u r a _ [Hl HP]. split; [reflexivity|].
  split; [now exists []|]. auto.
Qed.

Lemma ok_value {A B} n l (P : A -> Prop) (Q : B -> Prop) (b : B) p p' :
  ok n l P p p' -> Q b -> ok n l Q (pvalue b p) (pvalue b p').
Proof. intros Hp HQ. eapply ok_map; [exact Hp|auto]. Qed.

Lemma okr_and {A B} n m (P : str -> str -> A -> Prop) (Q : str -> str -> B -> Prop)
  (R : str -> str -> A * B -> Prop) p p' q q' :
  okr n P p p' -> okr m Q q q' ->
  (forall u r a, len (u ++ r) < n -> P (u ++ r) r a -> len r < m) ->
  (forall u v r a b, P (u ++ v ++ r) (v ++ r) a -> Q (v ++ r) r b -> R (u ++ v ++ r) r (a, b)) ->
  okr n R (pand p q) (pand p' q').
Proof.
  intros Hp Hq Hm HR. eapply okr_bind; [exact Hp|]. intros u r a Hlen HP.
  destruct (Hq r (Hm _ _ _ Hlen HP)) as [E H]. rewrite <- E. split; [reflexivity|].
  destruct (q r) as [r' b| |w|]; cbn [pbind]; auto.
  - destruct H as [[v ->] HQ]. split; [eauto|]. now apply HR with (a := a).
  - now apply may_panic_suffix.
Qed.

Lemma lev_and l l' u v r :
  lev l (u ++ v ++ r) (v ++ r) -> lev l' (v ++ r) r -> lev (Nat.max l l') (u ++ v ++ r) r.
Proof.
  intros H1 H2. pose proof (app_length u (v ++ r)). pose proof (app_length v r).
  pose proof (pc_app u (v ++ r)). pose proof (pc_app v r).
  destruct l as [|[|l]], l' as [|[|l']]; cbn in *; auto; try lia.
Qed.

Lemma ok_and {A B} n l l' (P : A -> Prop) (Q : B -> Prop) p p' q q' :
  ok n l P p p' -> ok n l' Q q q' ->
  ok n (Nat.max l l') (fun x => P (fst x) /\ Q (snd x)) (pand p q) (pand p' q').
Proof.
  intros Hp Hq. eapply okr_and; [exact Hp|exact Hq| |].
  - intros u r a H _. rewrite app_length in H. lia.
  - intros u v r a b [L1 H1] [L2 H2]. split; [now apply lev_and|auto].
Qed.

(** the second parser runs on a strictly shorter input *)
Lemma ok_and_s {A B} n l l' (P : A -> Prop) (Q : B -> Prop) p p' q q' :
  ok (S n) (S l) P p p' -> ok n l' Q q q' ->
  ok (S n) (Nat.max (S l) l') (fun x => P (fst x) /\ Q (snd x)) (pand p q) (pand p' q').
Proof.
  intros Hp Hq. eapply okr_and; [exact Hp|exact Hq| |].
  - intros u r a H [L _]. assert (len r < len (u ++ r)) by (destruct l; cbn in L; lia). lia.
  - intros u v r a b [L1 H1] [L2 H2]. split; [now apply lev_and|auto].
Qed.

Lemma ok_preceded {A B} n l l' (P : A -> Prop) (Q : B -> Prop) p p' q q' :
  ok n l P p p' -> ok n l' Q q q' -> ok n (Nat.max l l') Q (preceded p q) (preceded p' q').
Proof. intros Hp Hq. eapply ok_map; [eapply ok_and; eauto|]. now intros a [_ H]. Qed.
Lemma ok_preceded_s {A B} n l l' (P : A -> Prop) (Q : B -> Prop) p p' q q' :
  ok (S n) (S l) P p p' -> ok n l' Q q q' ->
  ok (S n) (Nat.max (S l) l') Q (preceded p q) (preceded p' q').
Proof. intros Hp Hq. eapply ok_map; [eapply ok_and_s; eauto|]. now intros a [_ H]. Qed.
Lemma ok_terminated {A B} n l l' (P : A -> Prop) (Q : B -> Prop) p p' q q' :
  ok n l P p p' -> ok n l' Q q q' -> ok n (Nat.max l l') P (terminated p q) (terminated p' q').
Proof. intros Hp Hq. eapply ok_map; [eapply ok_and; eauto|]. now intros a [H _]. Qed.

Lemma ok_delimited {A B C} n l l' l'' (P : A -> Prop) (Q : B -> Prop) (R : C -> Prop) p p' q q' t t' :
  ok n l P p p' -> ok n l' Q q q' -> ok n l'' R t t' ->
  ok n (Nat.max l (Nat.max l' l'')) Q (delimited p q t) (delimited p' q' t').
Proof. intros. eapply ok_preceded; [eauto|]. eapply ok_terminated; eauto. Qed.
Lemma ok_delimited_s {A B C} n l l' l'' (P : A -> Prop) (Q : B -> Prop) (R : C -> Prop) p p' q q' t t' :
  ok (S n) (S l) P p p' -> ok n l' Q q q' -> ok n l'' R t t' ->
  ok (S n) (Nat.max (S l) (Nat.max l' l'')) Q (delimited p q t) (delimited p' q' t').
Proof. intros. eapply ok_preceded_s; [eauto|]. eapply ok_terminated; eauto. Qed.
Lemma ok_sep_pair {A B C} n l l' l'' (P : A -> Prop) (Q : B -> Prop) (R : C -> Prop) p p' q q' t t' :
  ok n l P p p' -> ok n l' Q q q' -> ok n l'' R t t' ->
  ok n (Nat.max l (Nat.max l' l'')) (fun x => P (fst x) /\ R (snd x))
     (separated_pair p q t) (separated_pair p' q' t').
Proof. intros. eapply ok_and; [eauto|]. eapply ok_preceded; eauto. Qed.

Lemma okr_or {A} n (P : str -> str -> A -> Prop) p p' q q' :
  okr n P p p' -> okr n P q q' -> okr n P (por p q) (por p' q').
Proof.
  intros Hp Hq s Hs. unfold por. destruct (Hp s Hs) as [E H]. rewrite <- E.
  destruct (p s) as [r a| |w|]; auto.
Qed.
Lemma ok_or {A} n l (P : A -> Prop) p p' q q' :
  ok n l P p p' -> ok n l P q q' -> ok n l P (por p q) (por p' q').
Proof. apply okr_or. Qed.

Definition opt_post {A} (P : A -> Prop) (o : option A) : Prop :=
  match o with Some a => P a | None => True end.

Lemma ok_opt {A} n l (P : A -> Prop) p p' :
  ok n l P p p' -> ok n 0 (opt_post P) (opt p) (opt p').
Proof.
  intros Hp s Hs. unfold opt. destruct (Hp s Hs) as [E H]. rewrite <- E.
  destruct (p s) as [r a| |w|]; cbn; auto.
  - destruct H as [Hu [_ HP]]. auto.
  - split; [reflexivity|]. split; [now exists []|auto].
Qed.

Lemma ok_peek {A} n l (P : A -> Prop) p p' : ok n l P p p' -> ok n 0 P (peek p) (peek p').
Proof.
  intros Hp s Hs. unfold peek. destruct (Hp s Hs) as [E H]. rewrite <- E.
  destruct (p s) as [r a| |w|]; cbn; auto.
  destruct H as [_ [_ HP]]. split; [reflexivity|]. split; [now exists []|auto].
Qed.

Lemma ok_map_opt {A B} n l (P : A -> Prop) (Q : B -> Prop) (f : A -> option B) p p' :
  ok n l P p p' -> (forall a b, P a -> f a = Some b -> Q b) ->
  ok n l Q (map_opt p f) (map_opt p' f).
Proof.
  intros Hp HQ. eapply okr_bind; [exact Hp|]. intros u r a _ [Hl HP]. split; [reflexivity|].
  destruct (f a) as [b|] eqn:E; auto. split; [now exists []|]. split; [exact Hl|]. eapply HQ; eauto.
Qed.

Lemma ok_verify {A} n l (P : A -> Prop) (f : A -> bool) p p' :
  ok n l P p p' -> ok n l (fun a => P a /\ f a = true) (verify p f) (verify p' f).
Proof.
  intros Hp. eapply ok_map_opt; [exact Hp|]. intros a b HP H. destruct (f a) eqn:E; [|discriminate].
  now injection H as <-.
Qed.

(** repetition; [c r s] counts what the items consumed *)
Lemma many_loop_ok {A} n (P : str -> str -> A -> Prop) (p p' : parser A) :
  okr n P p p' ->
  forall k s, len s < n -> len s < k ->
    many_loop k p s = many_loop k p' s /\
    match many_loop k p s with
    | POk r l => exists u, s = u ++ r
    | PErr => True
    | PPanic w => may_panic w s
    | PFuel => False
    end.
Proof.
  intros Hp. induction k as [|k IH]; intros s Hn Hk; [lia|].
  cbn [many_loop]. destruct (Hp s Hn) as [E H]. rewrite <- E.
  destruct (p s) as [r a| |w|]; auto.
  - destruct H as [[u ->] HP].
    destruct (Nat.eqb_spec (len r) (len (u ++ r))) as [El|El]; [auto|].
    rewrite app_length in *. destruct (IH r) as [E' H']; [lia|lia|]. rewrite <- E'.
    split; [reflexivity|]. destruct (many_loop k p r) as [r' l| |w|]; cbn [pbind]; auto.
    + destruct H' as [v ->]. exists (u ++ v). now rewrite app_assoc.
    + now apply may_panic_suffix.
  - split; [reflexivity|]. now exists [].
Qed.

(** an inductive invariant of the successful runs *)
Lemma many_loop_inv {A} n (P : str -> str -> A -> Prop) (Q : str -> str -> list A -> Prop)
  (p p' : parser A) :
  okr n P p p' ->
  (forall s, p s = PErr -> Q s s []) ->
  (forall u v r a l, p (u ++ v ++ r) = POk (v ++ r) a -> u <> [] -> P (u ++ v ++ r) (v ++ r) a ->
      Q (v ++ r) r l -> Q (u ++ v ++ r) r (a :: l)) ->
  forall k s r l, len s < n -> many_loop k p s = POk r l -> Q s r l.
Proof.
  intros Hp H0 H1. induction k as [|k IH]; intros s r l Hn E; [discriminate|].
  cbn [many_loop] in E. destruct (Hp s Hn) as [_ H].
  destruct (p s) as [r1 a| |w|] eqn:Ep; try discriminate.
  - destruct H as [[u ->] HP].
    destruct (Nat.eqb_spec (len r1) (len (u ++ r1))) as [El|El]; [discriminate|].
    rewrite app_length in *.
    destruct (many_loop k p r1) as [r' l'| |w|] eqn:Em; try discriminate.
    cbn in E. injection E as <- <-.
    assert (Hr : len r1 < n) by lia.
    assert (Hu : u <> []) by (intros ->; cbn in El; lia).
    assert (S : exists v, r1 = v ++ r').
    { assert (G : forall k s r l, len s < n -> many_loop k p s = POk r l -> exists v, s = v ++ r).
      { clear - Hp. induction k as [|k IH]; intros s r l Hn E; [discriminate|].
        cbn [many_loop] in E. destruct (Hp s Hn) as [_ H].
        destruct (p s) as [r1 a| |w|] eqn:Ep; try discriminate.
        - destruct H as [[u ->] HP]. rewrite app_length in *.
          destruct (Nat.eqb (len r1) (len u + len r1)); [discriminate|].
          destruct (many_loop k p r1) as [r' l'| |w|] eqn:Em; try discriminate.
          injection E as <- <-. apply IH in Em; [|lia]. destruct Em as [v ->].
          exists (u ++ v). now rewrite app_assoc.
        - injection E as <- <-. now exists []. }
      eapply G; [exact Hr|exact Em]. }
    destruct S as [v ->]. eapply H1; eauto.
  - injection E as <- <-. now apply H0.
Qed.

Lemma okr_many0 {A} n (P : str -> str -> A -> Prop) (Q : str -> str -> list A -> Prop) p p' :
  okr n P p p' ->
  (forall s, p s = PErr -> Q s s []) ->
  (forall u v r a l, p (u ++ v ++ r) = POk (v ++ r) a -> u <> [] -> P (u ++ v ++ r) (v ++ r) a ->
      Q (v ++ r) r l -> Q (u ++ v ++ r) r (a :: l)) ->
  okr n Q (many0 p) (many0 p').
Proof.
  intros Hp H0 H1 s Hs. unfold many0.
  destruct (many_loop_ok n P p p' Hp (S (len s)) s Hs) as [E H]; [lia|]. split; [exact E|].
  destruct (many_loop (S (len s)) p s) as [r l| |w|] eqn:Em; auto.
  split; [exact H|]. eapply many_loop_inv; eauto.
Qed.

Lemma ok_many0 {A} n l (P : A -> Prop) p p' :
  ok n l P p p' -> ok n 0 (Forall P) (many0 p) (many0 p').
Proof.
  intros Hp. eapply okr_many0; [exact Hp| |].
  - intros s _. split; [exact I|constructor].
  - intros u v r a l' _ _ [_ HP] [_ HQ]. split; [exact I|now constructor].
Qed.

(** every item consumes some punctuation *)
Lemma okr_many0_count {A} n (P : A -> Prop) p p' :
  ok n 2 P p p' ->
  okr n (fun s r l => Forall P l /\ List.length l + pc r <= pc s) (many0 p) (many0 p').
Proof.
  intros Hp. eapply okr_many0; [exact Hp| |].
  - intros s _. split; [constructor|cbn; lia].
  - intros u v r a l' _ _ [[_ L] HP] [HQ C]. split; [now constructor|]. cbn [List.length]. lia.
Qed.

Lemma okr_intern {A} n bits (P : str -> str -> list A -> Prop) p p' :
  okr n P p p' ->
  (forall u r l, P (u ++ r) r l -> (2 ^ bits <= N.of_nat (List.length l))%N -> is_crowded (u ++ r)) ->
  okr n P (intern_seq bits p) (intern_seq bits p').
Proof.
  intros Hp Hc. eapply okr_bind; [exact Hp|]. intros u r l _ HP. split; [reflexivity|].
  destruct (N.ltb_spec (N.of_nat (List.length l)) (2 ^ bits)) as [H|H].
  - split; [now exists []|exact HP].
  - cbn [may_panic]. eapply Hc; eauto.
Qed.

Lemma pow_crowd bits : (6 <= bits)%N -> (64 <= 2 ^ bits)%N.
Proof.
  intros H. change 64%N with (2 ^ 6)%N. apply N.pow_le_mono_r; lia.
Qed.

Lemma ok_intern_many0 {A} n bits (P : A -> Prop) p p' :
  (6 <= bits)%N -> ok n 2 P p p' ->
  ok n 0 (Forall P) (intern_seq bits (many0 p)) (intern_seq bits (many0 p')).
Proof.
  intros Hb Hp. eapply okr_weaken.
  - eapply okr_intern; [apply okr_many0_count; exact Hp|].
    intros u r l [_ C] H. pose proof (pow_crowd bits Hb). unfold is_crowded. lia.
  - reflexivity.
  - intros u r l [H _]. split; [exact I|exact H].
Qed.

(** separated lists *)
Lemma sep_loop_ok {A B C} n lt (P : A -> Prop) (Q : B -> Prop) (R : C -> Prop) p p' sep sep' term term' :
  ok n 0 P p p' -> ok n 2 Q sep sep' -> ok n lt R term term' ->
  forall k s, len s < n -> len s < k ->
    sep_loop k p sep term s = sep_loop k p' sep' term' s /\
    match sep_loop k p sep term s with
    | POk r l => (exists u, s = u ++ r) /\ Forall P l /\ List.length l + pc r <= pc s /\ lev lt s r
    | PErr => True
    | PPanic w => may_panic w s
    | PFuel => False
    end.
Proof.
  intros Hp Hs Ht. induction k as [|k IH]; intros s Hn Hk; [lia|].
  cbn [sep_loop]. destruct (Ht s Hn) as [E H]. rewrite <- E.
  destruct (term s) as [r a| |w|]; auto.
  - split; [reflexivity|]. destruct H as [[u Hu] [L _]]. split; [eauto|]. split; [constructor|].
    split; [|exact L]. apply suffix_len in Hu. cbn [List.length]. lia.
  - destruct (Hs s Hn) as [E1 H1]. rewrite <- E1.
    destruct (sep s) as [r1 b| |w|]; cbn [pbind]; auto.
    destruct H1 as [[u1 ->] [[L1 L1'] _]]. rewrite app_length in *.
    destruct (Hp r1) as [E2 H2]; [lia|]. rewrite <- E2.
    destruct (p r1) as [r2 a| |w|]; cbn [pbind]; auto.
    + destruct H2 as [[u2 ->] [_ HP]]. rewrite app_length in *.
      destruct (IH r2) as [E3 H3]; [lia|lia|]. rewrite <- E3. split; [reflexivity|].
      destruct (sep_loop k p sep term r2) as [r3 l| |w|]; cbn [pbind]; auto.
      * destruct H3 as [[u3 ->] [HF [HC HL]]].
        split; [exists (u1 ++ u2 ++ u3); now rewrite <- !app_assoc|].
        split; [now constructor|]. rewrite !pc_app in *. cbn [List.length].
        split; [lia|]. pose proof (app_length u1 (u2 ++ u3 ++ r3)). pose proof (app_length u2 (u3 ++ r3)).
        destruct lt as [|[|lt]]; cbn in *; rewrite ?pc_app in *; auto; lia.
      * now apply may_panic_suffix, may_panic_suffix.
    + split; [reflexivity|]. now apply may_panic_suffix.
Qed.

Lemma okr_separated {A B C} n l lt (P : A -> Prop) (Q : B -> Prop) (R : C -> Prop) p p' sep sep' term term' :
  ok n l P p p' -> ok n 2 Q sep sep' -> ok n lt R term term' ->
  okr n (fun s r l => Forall P l /\ List.length l + pc r <= S (pc s) /\ lev lt s r)
    (separated_terminated p sep term) (separated_terminated p' sep' term').
Proof.
  intros Hp Hs Ht. eapply okr_bind; [exact Hp|]. intros u r a Hn [_ HP].
  rewrite app_length in Hn.
  destruct (sep_loop_ok n lt P Q R p p' sep sep' term term'
              (ok_level _ _ 0 _ _ _ Hp ltac:(lia)) Hs Ht (S (len r)) r) as [E H]; [lia|lia|].
  rewrite <- E. split; [reflexivity|].
  destruct (sep_loop (S (len r)) p sep term r) as [r' l'| |w|]; cbn [pbind]; auto.
  - destruct H as [[v ->] [HF [HC HL]]]. split; [eauto|]. split; [now constructor|].
    rewrite !pc_app in *. cbn [List.length]. split; [lia|].
    pose proof (app_length u (v ++ r')). pose proof (app_length v r').
    destruct lt as [|[|lt]]; cbn in *; rewrite ?pc_app in *; auto; lia.
  - now apply may_panic_suffix.
Qed.

Lemma ok_intern_separated {A B C} n l lt bits (P : A -> Prop) (Q : B -> Prop) (R : C -> Prop)
  p p' sep sep' term term' :
  (6 <= bits)%N -> ok n l P p p' -> ok n 2 Q sep sep' -> ok n lt R term term' ->
  ok n lt (Forall P) (intern_seq bits (separated_terminated p sep term))
                     (intern_seq bits (separated_terminated p' sep' term')).
Proof.
  intros Hb Hp Hs Ht. eapply okr_weaken.
  - eapply okr_intern; [eapply okr_separated; eauto|].
    intros u r l' [_ [C0 _]] H. pose proof (pow_crowd bits Hb). unfold is_crowded. lia.
  - reflexivity.
  - intros u r l' [H [_ L]]. split; [exact L|exact H].
Qed.

(** ** Primitive parsers *)

Lemma ok_satisfy n l f :
  (forall c, f c = true -> l = 2 -> is_punctuation c = true) -> l <= 2 ->
  ok n l (fun c => f c = true) (satisfy f) (satisfy f).
Proof.
  intros H Hl s _. split; [reflexivity|]. destruct s as [|c r]; cbn; auto.
  destruct (f c) eqn:E; auto. split; [now exists [c]|]. split; [|exact E].
  destruct l as [|[|[|l]]]; cbn; auto; try lia. rewrite (H c E eq_refl). lia.
Qed.

Definition chr_level (c : chr) : nat := if is_punctuation c then 2 else 1.

Lemma ok_char n c : ok n (chr_level (N_of_ascii c)) (fun _ => True) (pchar c) (pchar c).
Proof.
  eapply ok_post; [apply ok_satisfy|auto].
  - intros x Hx. apply N.eqb_eq in Hx. subst. unfold chr_level.
    destruct (is_punctuation (N_of_ascii c)); auto. discriminate.
  - unfold chr_level. destruct (is_punctuation (N_of_ascii c)); lia.
Qed.

Lemma strip_tag_spec t s r : strip_tag t s = Some r <-> s = t ++ r.
Proof.
  revert s. induction t as [|a t IH]; intros s; cbn.
  - split; [now intros [= ->]|now intros ->].
  - destruct s as [|b s]; [split; discriminate|].
    destruct (N.eqb_spec a b) as [->|Hne].
    + rewrite IH. split; [now intros ->|now intros [= ->]].
    + split; [discriminate|]. intros [= ->]. congruence.
Qed.

Definition str_level (t : str) : nat :=
  match t with [] => 0 | _ => if existsb is_punctuation t then 2 else 1 end.

Lemma pc_pos t : existsb is_punctuation t = true -> 0 < pc t.
Proof.
  induction t as [|c t IH]; [discriminate|]. cbn. destruct (is_punctuation c); [lia|].
  intros H. now apply IH.
Qed.

Lemma str_level_lev t r : lev (str_level t) (t ++ r) r.
Proof.
  unfold str_level. destruct t as [|c t]; [exact I|].
  destruct (existsb is_punctuation (c :: t)) eqn:E.
  - apply pc_pos in E. cbn [lev]. rewrite pc_app, app_length. cbn [List.length]. lia.
  - cbn [lev]. rewrite app_length. cbn [List.length]. lia.
Qed.

Lemma ok_tag n t : ok n (str_level (of_string t)) (fun _ => True) (tag t) (tag t).
Proof.
  intros s _. split; [reflexivity|]. unfold tag.
  destruct (strip_tag (of_string t) s) as [r|] eqn:E; auto.
  apply strip_tag_spec in E. subst. split; [eauto|]. split; [apply str_level_lev|exact I].
Qed.

Lemma span_spec f s : s = fst (span f s) ++ snd (span f s) /\ forallb f (fst (span f s)) = true /\
  match snd (span f s) with [] => True | c :: _ => f c = false end.
Proof.
  induction s as [|c s IH]; cbn; [auto|]. destruct (f c) eqn:E; [|cbn; auto].
  destruct (span f s) as [a b]. cbn in *. destruct IH as [-> [IH1 IH2]]. now rewrite E.
Qed.

Lemma ok_multispace0 n : ok n 0 (fun _ => True) multispace0 multispace0.
Proof.
  intros s _. split; [reflexivity|]. unfold multispace0. split; [|now split].
  exists (fst (span is_space s)). apply span_spec.
Qed.
Lemma ok_multispace1 n : ok n 1 (fun _ => True) multispace1 multispace1.
Proof.
  intros s _. split; [reflexivity|]. unfold multispace1.
  pose proof (span_spec is_space s) as (H & _). destruct (span is_space s) as [[|c a] r]; auto.
  cbn in H. subst. split; [now exists (c :: a)|]. split; [|exact I]. cbn. rewrite app_length. lia.
Qed.

Lemma ok_eof n : ok n 0 (fun _ => True) eof eof.
Proof. intros [|c s] _; cbn; split; auto. split; [now exists []|auto]. Qed.

(** Words, keywords, qualifiers and numbers. *)
From Coq Require Import Ascii String Permutation DecimalN DecimalPos DecimalFacts.
From Verif Require Import Base Cpp_Lex_Model Cpp_Lex_Spec Cpp_Display_Spec Cpp_Parse_Spec
  Cpp_Parse_Proofs Cpp_Parse_Proofs2.
Local Open Scope nat_scope.
Local Open Scope bool_scope.
Local Open Scope list_scope.

(** ** Character classes *)

Lemma ascii_cases (P : chr -> Prop) (b : chr -> bool) :
  (forall c, b c = true -> P c) ->
  forallb (fun k => b (N.of_nat k)) (seq 0 128) = true ->
  (forall c, (128 <= c)%N -> P c) -> forall c, P c.
Proof.
  intros Hb Hs Hl c. destruct (N.ltb_spec c 128) as [H|H]; [|auto].
  apply Hb. rewrite forallb_forall in Hs. specialize (Hs (N.to_nat c)).
  rewrite N2Nat.id in Hs. apply Hs. apply in_seq. lia.
Qed.

Definition memb (l : str) (c : chr) : bool := existsb (N.eqb c) l.
Lemma memb_In l c : memb l c = true <-> In c l.
Proof.
  unfold memb. rewrite existsb_exists. split.
  - intros (x & Hx & E). apply N.eqb_eq in E. now subst.
  - intros H. exists c. split; [exact H|apply N.eqb_refl].
Qed.
Lemma memb_large l c : forallb (fun x => N.ltb x 128) l = true -> (128 <= c)%N -> memb l c = false.
Proof.
  intros Hl Hc. destruct (memb l c) eqn:E; [|reflexivity]. apply memb_In in E.
  rewrite forallb_forall in Hl. apply Hl in E. apply N.ltb_lt in E. lia.
Qed.
Lemma class_iff (f : chr -> bool) l :
  forallb (fun x => N.ltb x 128) l = true ->
  forallb (fun k => Bool.eqb (f (N.of_nat k)) (memb l (N.of_nat k))) (seq 0 128) = true ->
  (forall c, (128 <= c)%N -> f c = false) -> forall c, f c = true <-> In c l.
Proof.
  intros Hl Hs Hf c. rewrite <- memb_In.
  enough (f c = memb l c) as -> by reflexivity. revert c.
  apply (ascii_cases _ (fun c => Bool.eqb (f c) (memb l c))); [|exact Hs|].
  - intros c H. now apply Bool.eqb_prop.
  - intros c H. rewrite (Hf c H). symmetry. now apply memb_large.
Qed.

Lemma range_large a b c : (128 <= c)%N -> (N_of_ascii b < 128)%N -> in_range a b c = false.
Proof. intros H Hb. unfold in_range. apply andb_false_iff. right. apply N.leb_gt. lia. Qed.
Lemma eqb_large a c : (128 <= c)%N -> (N_of_ascii a < 128)%N -> N.eqb c (N_of_ascii a) = false.
Proof. intros H Ha. apply N.eqb_neq. lia. Qed.

Ltac large :=
  intros c H; unfold is_id_continue, is_id_start, is_alpha, is_digit, is_hex, is_oct, is_int_suffix;
  rewrite ?(fun a b H' => range_large a b c H H') by reflexivity;
  rewrite ?(fun a H' => eqb_large a c H H') by reflexivity; reflexivity.

Lemma id_start_iff c : is_id_start c = true <-> can_start_word c.
Proof. revert c. apply class_iff; [reflexivity|vm_compute; reflexivity|large]. Qed.
Lemma id_continue_iff c : is_id_continue c = true <-> can_continue_word c.
Proof. revert c. apply class_iff; [reflexivity|vm_compute; reflexivity|large]. Qed.
Lemma id_continue_not c : is_id_continue c = false <-> ~ can_continue_word c.
Proof.
  rewrite <- id_continue_iff. destruct (is_id_continue c); split; congruence.
Qed.
Lemma digit_iff c : is_digit c = true <-> In c (of_string "0123456789").
Proof. revert c. apply class_iff; [reflexivity|vm_compute; reflexivity|large]. Qed.
Lemma int_suffix_iff c : is_int_suffix c = true <-> int_suffix c.
Proof. revert c. apply class_iff; [reflexivity|vm_compute; reflexivity|large]. Qed.
Lemma space_iff c : is_space c = true <-> white c.
Proof.
  unfold is_space, white. rewrite !orb_true_iff, !N.eqb_eq. cbn. intuition congruence.
Qed.
Lemma space_not c : is_space c = false <-> ~ white c.
Proof. rewrite <- space_iff. destruct (is_space c); split; congruence. Qed.

Lemma word_ends_iff s :
  word_ends s <-> match s with c :: _ => is_id_continue c = false | [] => True end.
Proof.
  unfold word_ends. destruct s as [|c s].
  - split; [auto|discriminate].
  - rewrite id_continue_not. split; [intros H; now apply (H c s)|now intros H ? ? [= <- <-]].
Qed.
Lemma not_white_iff s : not_white s <-> no_space s.
Proof.
  unfold not_white, no_space. destruct s as [|c s].
  - split; [auto|discriminate].
  - rewrite space_not. split; [intros H; now apply (H c s)|now intros H ? ? [= <- <-]].
Qed.
Lemma word_ends_dec s : {word_ends s} + {~ word_ends s}.
Proof.
  destruct s as [|c s]; [left; now apply word_ends_iff|].
  destruct (is_id_continue c) eqn:E; [right|left]; rewrite word_ends_iff; congruence.
Qed.

Lemma span_app f a r :
  forallb f a = true -> match r with c :: _ => f c = false | [] => True end -> span f (a ++ r) = (a, r).
Proof.
  intros Ha Hr. induction a as [|c a IH]; cbn [app forallb] in *.
  - destruct r as [|c r]; [reflexivity|]. cbn [span]. now rewrite Hr.
  - apply andb_true_iff in Ha as [H1 H2]. cbn [span]. rewrite H1, IH; auto.
Qed.
Lemma forallb_of_Forall {A} (f : A -> bool) (P : A -> Prop) l :
  (forall x, f x = true <-> P x) -> (forallb f l = true <-> Forall P l).
Proof.
  intros H. rewrite forallb_forall, Forall_forall. split; intros G x Hx; now apply H, G.
Qed.

(** ** C27 *)

Lemma end_of_identifier_eq s :
  end_of_identifier s = if word_ends_dec s then POk s tt else PErr.
Proof.
  destruct (word_ends_dec s) as [H|H]; rewrite word_ends_iff in H; destruct s as [|c s]; cbn; auto.
  - now rewrite H.
  - now destruct H.
  - destruct (is_id_continue c); [reflexivity|now destruct H].
Qed.

Lemma keyword_ok w r : word_ends r -> keyword_parser w (of_string w ++ r) = POk r tt.
Proof.
  intros H. unfold keyword_parser, pvalue, terminated, pmap, pand, tag.
  assert (E : strip_tag (of_string w) (of_string w ++ r) = Some r) by now apply strip_tag_spec.
  rewrite E. cbn [pbind]. rewrite end_of_identifier_eq. now destruct (word_ends_dec r).
Qed.
Lemma keyword_err w s : ~ starts_with_word w s -> keyword_parser w s = PErr.
Proof.
  intros H. unfold keyword_parser, pvalue, terminated, pmap, pand, tag.
  destruct (strip_tag (of_string w) s) as [r|] eqn:E; [|reflexivity]. cbn [pbind].
  apply strip_tag_spec in E. rewrite end_of_identifier_eq.
  destruct (word_ends_dec r) as [Hr|Hr]; [|reflexivity]. destruct H. now exists r.
Qed.
Lemma starts_with_word_dec w s : {starts_with_word w s} + {~ starts_with_word w s}.
Proof.
  destruct (strip_tag (of_string w) s) as [r|] eqn:E.
  - apply strip_tag_spec in E. destruct (word_ends_dec r) as [H|H].
    + left. now exists r.
    + right. intros (r' & E' & H'). rewrite E in E'. apply app_inv_head in E'. now subst.
  - right. intros (r & E' & _). apply strip_tag_spec in E'. congruence.
Qed.

Lemma keyword_iff w s r : keyword_parser w s = POk r tt <-> s = of_string w ++ r /\ word_ends r.
Proof.
  split.
  - intros H. destruct (starts_with_word_dec w s) as [(r' & -> & Hr)|Hn].
    + rewrite keyword_ok in H by exact Hr. now injection H as <-.
    + now rewrite keyword_err in H.
  - intros [-> H]. now apply keyword_ok.
Qed.
Lemma keyword_total w s : (exists r, keyword_parser w s = POk r tt) \/ keyword_parser w s = PErr.
Proof.
  destruct (starts_with_word_dec w s) as [(r & -> & H)|H].
  - left. exists r. now apply keyword_ok.
  - right. now apply keyword_err.
Qed.

Lemma identifier_iff s r i :
  identifier s = POk r i <-> s = i ++ r /\ word i /\ word_ends r.
Proof.
  split.
  - destruct s as [|c s]; cbn [identifier]; [discriminate|].
    destruct (is_id_start c) eqn:E; [|discriminate].
    pose proof (span_spec is_id_continue s) as (H & Hf & He). destruct (span is_id_continue s) as [a b].
    cbn [fst snd] in *. intros [= <- <-]. subst s. split; [reflexivity|]. split; [|now apply word_ends_iff].
    exists c, a. split; [reflexivity|]. split; [now apply id_start_iff|].
    apply (forallb_of_Forall _ _ _ id_continue_iff), Hf.
  - intros (-> & (c & a & -> & Hc & Ha) & He). cbn [app identifier].
    apply id_start_iff in Hc. rewrite Hc. rewrite span_app; [reflexivity| |now apply word_ends_iff].
    apply (forallb_of_Forall _ _ _ id_continue_iff), Ha.
Qed.
Lemma identifier_none s :
  identifier s = PErr <-> forall c r, s = c :: r -> ~ can_start_word c.
Proof.
  destruct s as [|c s]; cbn [identifier].
  - split; [discriminate|reflexivity].
  - destruct (is_id_start c) eqn:E.
    + destruct (span is_id_continue s). split; [discriminate|]. intros H. specialize (H c s eq_refl).
      apply id_start_iff in E. contradiction.
    + split; [|reflexivity]. intros _ ? ? [= <- <-]. rewrite <- id_start_iff. congruence.
Qed.

(** A set of keywords, all of them words: the first one that matches is the only one *)
Lemma same_word w w' s : (* [w] and [w'] made of word characters *)
  Forall can_continue_word (of_string w) -> Forall can_continue_word (of_string w') ->
  starts_with_word w s -> starts_with_word w' s -> of_string w = of_string w'.
Proof.
  intros H H' (r & E & Hr) (r' & E' & Hr').
  apply (forallb_of_Forall _ _ _ id_continue_iff) in H, H'. apply word_ends_iff in Hr, Hr'.
  pose proof (span_app is_id_continue _ r H Hr) as S1. rewrite <- E in S1.
  pose proof (span_app is_id_continue _ r' H' Hr') as S2. rewrite <- E' in S2. congruence.
Qed.
Lemma of_string_inj a b : of_string a = of_string b -> a = b.
Proof.
  revert b. induction a as [|x a IH]; intros [|y b]; cbn; try discriminate; auto.
  intros [= H1 H2]. f_equal; [|auto].
  apply (f_equal ascii_of_N) in H1. now rewrite !ascii_N_embedding in H1.
Qed.

Definition all_words {O} (kws : list (string * O)) : Prop :=
  Forall (fun k => Forall can_continue_word (of_string (fst k))) kws.

Lemma keywords_err {O} (kws : list (string * O)) s :
  (forall k, In k kws -> ~ starts_with_word (fst k) s) -> keywords_parser kws s = PErr.
Proof.
  induction kws as [|[k v] kws IH]; intros H; [reflexivity|]. cbn [keywords_parser].
  unfold por, pvalue, pmap. rewrite keyword_err by (apply (H (k, v)); now left). cbn [pbind].
  apply IH. intros k' Hk. apply H. now right.
Qed.
Lemma keywords_ok {O} (kws : list (string * O)) w v r :
  all_words kws -> NoDup (map fst kws) -> In (w, v) kws -> word_ends r ->
  keywords_parser kws (of_string w ++ r) = POk r v.
Proof.
  intros Ha Hd Hi Hr. induction kws as [|[k u] kws IH]; [easy|]. cbn [keywords_parser].
  inversion Ha as [|? ? Hk Hks]; subst. inversion Hd as [|? ? Hnk Hnd]; subst. cbn [fst map] in *.
  unfold por, pvalue, pmap. destruct Hi as [[= -> ->]|Hi].
  - now rewrite keyword_ok.
  - rewrite keyword_err; [cbn [pbind]; now apply IH|].
    intros Hs. apply Hnk. replace k with w; [now apply (in_map fst) in Hi|].
    apply of_string_inj. eapply same_word; [| | |exact Hs].
    + unfold all_words in Hks. rewrite Forall_forall in Hks. exact (Hks (w, v) Hi).
    + exact Hk.
    + now exists r.
Qed.

(** ** Lists of words *)

Lemma multispace0_app sp s :
  Forall white sp -> not_white s -> multispace0 (sp ++ s) = POk s tt.
Proof.
  intros H1 H2. unfold multispace0. rewrite span_app; [reflexivity| |].
  - apply (forallb_of_Forall _ _ _ space_iff), H1.
  - apply not_white_iff in H2. exact H2.
Qed.

Definition values_of {O} (kws : list (string * O)) (ws : list string) (l : list O) : Prop :=
  Forall2 (fun w v => In (w, v) kws) ws l.

Lemma words_loop {O} (kws : list (string * O)) :
  all_words kws -> NoDup (map fst kws) -> ~ In ""%string (map fst kws) ->
  forall ws s r, words_then (map fst kws) ws s r ->
  forall n, len s < n ->
  exists l, many_loop n (terminated (keywords_parser kws) multispace0) s = POk r l /\ values_of kws ws l.
Proof.
  intros Ha Hd Hne ws s r H. induction H as [r Hr|w ws sp s r Hw Hsp He Hs Hws IH]; intros n Hn;
    (destruct n as [|n]; [lia|]); cbn [many_loop].
  - exists []. split; [|constructor]. unfold terminated, pmap, pand.
    rewrite keywords_err; [reflexivity|]. intros k Hk. apply Hr. now apply in_map.
  - apply in_map_iff in Hw as ([w' v] & E & Hi). cbn [fst] in E. subst w'.
    destruct (IH n) as (l & E & Hl).
    { rewrite !app_length in Hn. destruct w as [|x w]; [|cbn in Hn; lia].
      destruct Hne. apply (in_map fst) in Hi. exact Hi. }
    exists (v :: l). split; [|now constructor].
    unfold terminated at 1, pmap, pand. rewrite (keywords_ok kws w v) by assumption.
    cbn [pbind]. rewrite multispace0_app by assumption. cbn [pbind fst].
    replace (Nat.eqb (len s) (len (of_string w ++ sp ++ s))) with false.
    + now rewrite E.
    + symmetry. apply Nat.eqb_neq. rewrite !app_length.
      destruct w as [|x w]; [|cbn; lia]. destruct Hne. apply (in_map fst) in Hi. exact Hi.
Qed.

Lemma words_then_total vocabulary :
  ~ In ""%string vocabulary ->
  forall n s, len s < n -> exists ws r, words_then vocabulary ws s r.
Proof.
  intros Hne. induction n as [|n IH]; intros s Hn; [lia|].
  assert (D : {w | In w vocabulary /\ starts_with_word w s} +
              {forall w, In w vocabulary -> ~ starts_with_word w s}).
  { clear. induction vocabulary as [|w l IHl]; [right; easy|].
    destruct (starts_with_word_dec w s) as [H|H].
    - left. exists w. split; [now left|exact H].
    - destruct IHl as [(w' & Hi & Hs)|IHl]; [left; exists w'; split; [now right|exact Hs]|].
      right. intros w' [<-|Hi]; auto. }
  destruct D as [(w & Hi & r & -> & Hr)|D]; [|exists [], s; now constructor].
  pose proof (span_spec is_space r) as (E & Hf & He). destruct (span is_space r) as [sp r'].
  cbn [fst snd] in *. subst r.
  destruct (IH r') as (ws & r & H).
  { rewrite !app_length in Hn. destruct w; [contradiction|cbn in Hn; lia]. }
  exists (w :: ws), r. constructor; auto.
  - apply (forallb_of_Forall _ _ _ space_iff), Hf.
  - now apply not_white_iff.
Qed.

(** * Proofs about the screen: a cancelled load never appears, whatever happens *)

From Coq Require Import List PeanoNat NArith Bool Lia.
From Verif Require Import Screen_Model Screen_Spec Screen_Proofs Screen_Proofs2 Screen_Proofs4.
Import ListNotations.
Local Open Scope nat_scope.

(** The table is at the bottom, prompts are just above it. *)
Fixpoint shape (l : list layer) : Prop :=
  match l with
  | [] => True
  | x :: b =>
      match x with LTable => b = [] | LPrompt _ => b = [LTable] | _ => True end /\ shape b
  end.

(** The load whose trace the current thread will hold. *)
Definition future (W : nat -> option trace) (s : state) : option nat :=
  match nth_error (threads s) (cur s) with
  | Some t => load_all W (t_queue t) (t_data t)
  | None => None
  end.

(** Activities that come from a load. *)
Definition from (W : nat -> option trace) (s : state) (rows : list act) (a : nat) : Prop :=
  a < next_load s /\ ~ In a (canceled s) /\ ~ In (LLoading a) (screen s)
  /\ exists tr, W a = Some tr /\ incl rows (map info (all_nodes tr)).

Definition view_ok (W : nat -> option trace) (s : state) (v : view) : Prop :=
  from W s (p_rows v) (p_src v)
  /\ match p_other v with Saved r a => from W s r a | Query _ => True end.

Definition inv (W : nat -> option trace) (s : state) : Prop :=
  shape (screen s)
  /\ (forall th l, nth_error (threads s) (cur s) = Some th ->
        In l (t_queue th) \/ t_data th = Some l -> ~ In l (canceled s) /\ l < next_load s)
  /\ (forall v, In (LProfile v) (screen s) -> view_ok W s v)
  /\ (forall l tops bots, future W s = Some l -> screen s = tops ++ LLoading l :: bots ->
        length bots = below s /\ no_profile tops)
  /\ (forall l, In (LLoading l) (screen s) -> l < next_load s)
  /\ (forall l, In l (canceled s) -> l < next_load s).

Definition fine (W : nat -> option trace) (w : world) : Prop :=
  match w with Running s => inv W s | _ => True end.

(** ** Smaller screens *)

Definition suffix (l' l : list layer) : Prop := exists a, l = a ++ l'.

Lemma suffix_In l' l x : suffix l' l -> In x l' -> In x l.
Proof. intros [a ->] H. apply in_or_app. right. exact H. Qed.

Lemma shape_suffix l' l : suffix l' l -> shape l -> shape l'.
Proof.
  intros [a ->]. induction a as [|x a IH]; [auto|]. cbn. intros [_ H]. exact (IH H).
Qed.

Lemma suffix_skipn n l : suffix (skipn n l) l.
Proof. exists (firstn n l). symmetry. apply firstn_skipn. Qed.

Lemma suffix_tl l : suffix (tl l) l.
Proof. destruct l as [|x r]; [exists []|exists [x]]; reflexivity. Qed.

Lemma inv_suffix W s s' :
  suffix (screen s') (screen s) -> threads s' = threads s -> cur s' = cur s ->
  canceled s' = canceled s -> next_load s' = next_load s -> below s' = below s ->
  inv W s -> inv W s'.
Proof.
  intros Hs E1 E2 E3 E4 E5 [I1 [I2 [I3 [I4 [I5 I6]]]]].
  unfold inv, view_ok, from, future in *. rewrite E1, E2, E3, E4, E5.
  split; [exact (shape_suffix _ _ Hs I1)|]. split; [exact I2|]. split; [|split; [|split]].
  - intros v Hv. destruct (I3 v (suffix_In _ _ _ Hs Hv)) as [[A [B [C D]]] F].
    split.
    + repeat split; auto. intros G. apply C. exact (suffix_In _ _ _ Hs G).
    + destruct (p_other v); [exact I|]. destruct F as [A' [B' [C' D']]].
      repeat split; auto. intros G. apply C'. exact (suffix_In _ _ _ Hs G).
  - intros l tops bots F E. destruct Hs as [a Ha].
    destruct (I4 l (a ++ tops) bots F) as [L N].
    + rewrite Ha, E, app_assoc. reflexivity.
    + split; [exact L|]. intros v Hv. apply (N v). apply in_or_app. right. exact Hv.
  - intros l Hl. apply I5. exact (suffix_In _ _ _ Hs Hl).
  - exact I6.
Qed.

(** ** Layers pushed *)

Lemma inv_push W s x :
  match x with
  | LInfo | LDialog _ => True
  | LPrompt _ => screen s = [LTable]
  | LMeasuring _ => True
  | _ => False
  end -> inv W s -> inv W (push x s).
Proof.
  intros Hx [I1 [I2 [I3 [I4 [I5 I6]]]]].
  assert (NL : forall l, x <> LLoading l) by (intros l ->; exact Hx).
  assert (NP : forall v, x <> LProfile v) by (intros v ->; exact Hx).
  unfold inv, view_ok, from, future in *. cbn [push set_screen screen threads cur canceled next_load below].
  split; [|split; [exact I2|split; [|split; [|split]]]].
  - cbn. destruct x; auto; contradiction.
  - intros v [F|Hv]; [exfalso; exact (NP v F)|].
    destruct (I3 v Hv) as [[A [B [C D]]] F]. split.
    + repeat split; auto. intros [G|G]; [exact (NL _ G)|exact (C G)].
    + destruct (p_other v); [exact I|]. destruct F as [A' [B' [C' D']]].
      repeat split; auto. intros [G|G]; [exact (NL _ G)|exact (C' G)].
  - intros l [|y tops] bots F E; cbn in E; inversion E as [[Ey Er]].
    + exfalso. exact (NL l Ey).
    + destruct (I4 l tops bots F Er) as [L N]. split; [exact L|].
      intros v [G|G]; [|exact (N v G)]. subst y. exact (NP v G).
  - intros l [F|Hl]; [exfalso; exact (NL l F)|exact (I5 l Hl)].
  - exact I6.
Qed.

Lemma inv_repeat W s n : inv W s -> inv W (set_screen (repeat LInfo n ++ screen s) s).
Proof.
  induction n as [|n IH]; intros H.
  - cbn. destruct s; exact H.
  - cbn [repeat app]. specialize (IH H). apply (inv_push W _ LInfo I) in IH. exact IH.
Qed.

Lemma inv_fields W s s' :
  screen s' = screen s -> threads s' = threads s -> cur s' = cur s ->
  canceled s' = canceled s -> next_load s' = next_load s -> below s' = below s ->
  inv W s -> inv W s'.
Proof.
  intros E0. apply inv_suffix. rewrite E0. exists []. reflexivity.
Qed.

(** ** Requests *)

Lemma load_all_in W : forall q d l, load_all W q d = Some l -> In l q \/ d = Some l.
Proof.
  induction q as [|x q IH]; intros d l H; cbn in H; [auto|].
  destruct (IH _ _ H) as [G|G]; [left; right; exact G|].
  destruct (W x); inversion G; subst. left. left. reflexivity.
Qed.

Lemma ask_inv W s l tr s' :
  ask W s = Some (l, tr, s') -> inv W s ->
  W l = Some tr /\ future W s = Some l /\ inv W s' /\ future W s' = Some l
  /\ ~ In l (canceled s) /\ l < next_load s
  /\ screen s' = screen s /\ stack s' = stack s /\ canceled s' = canceled s
  /\ next_load s' = next_load s /\ below s' = below s.
Proof.
  intros H [I1 [I2 [I3 [I4 [I5 I6]]]]]. unfold ask in H.
  destruct (nth_error (threads s) (cur s)) as [t|] eqn:Ht; [|discriminate].
  destruct (load_all W (t_queue t) (t_data t)) as [k|] eqn:Hk; [|discriminate].
  destruct (W k) as [tr'|] eqn:Hw; [|discriminate]. inversion H; subst k tr' s'. clear H.
  assert (F : future W s = Some l) by (unfold future; rewrite Ht; exact Hk).
  destruct (I2 t l eq_refl (load_all_in W _ _ _ Hk)) as [Nc Lt].
  set (s' := set_callbacks _ _).
  assert (Ht' : nth_error (threads s') (cur s') = Some {| t_queue := []; t_data := Some l |})
    by (cbn; exact (replace_get _ _ _ _ Ht)).
  assert (F' : future W s' = Some l) by (unfold future; rewrite Ht'; reflexivity).
  split; [exact Hw|]. split; [exact F|]. split; [|repeat split; auto].
  split; [exact I1|]. split; [|split; [exact I3|split; [|split; [exact I5|exact I6]]]].
  - intros th k E1 E2. rewrite Ht' in E1. inversion E1; subst th. cbn in E2.
    destruct E2 as [[]|E2]. inversion E2; subst. auto.
  - intros k tops bots E1 E2. rewrite F' in E1. inversion E1; subst k.
    exact (I4 l tops bots F E2).
Qed.

(** ** Profiles *)

Lemma from_weak W s s' rows a :
  canceled s' = canceled s -> next_load s' = next_load s ->
  (In (LLoading a) (screen s') -> In (LLoading a) (screen s)) ->
  from W s rows a -> from W s' rows a.
Proof.
  intros E1 E2 E3 [A [B [C D]]]. unfold from. rewrite E1, E2. repeat split; auto.
Qed.

Lemma show_fine W s name norm rows src o k :
  inv W s -> from W s rows src ->
  match o with Saved r a => from W s r a | Query _ => True end ->
  (forall l, future W s = Some l -> ~ In (LLoading l) (screen s)) ->
  fine W (show_profile W s name norm rows src o k).
Proof.
  intros H Hr Ho Hf. unfold show_profile.
  destruct (match cfg_dd s with Some d => Some d | None => _ end) as [d0|]; [|exact I].
  cbn [bind].
  set (s0 := set_config _ _ _ s).
  assert (H0 : inv W s0) by (apply (inv_fields W s); auto).
  destruct (ask W s0) as [[[l tr] s1]|] eqn:Ea; [|exact I]. cbn [bind].
  destruct (negb (describable tr rows)); [exact I|].
  destruct rows as [|a rows]; [exact I|].
  destruct (ask_inv W s0 l tr s1 Ea H0) as [Wl [Fu [[I1 [I2 [I3 [I4 [I5 I6]]]]] [Fu1 [Nc [Lt [Es [Et [Ec [En Eb]]]]]]]]]].
  cbn [fine].
  set (v := {| p_table := length (stack s1) |}).
  set (s2 := set_stack _ s1).
  assert (Esc : screen (push (LProfile v) s2) = LProfile v :: screen s1) by reflexivity.
  assert (Hw : forall r a, from W s r a -> from W (push (LProfile v) s2) r a).
  { intros r b. apply from_weak; [exact Ec|exact En|].
    rewrite Esc, Es. intros [F|F]; [discriminate|exact F]. }
  unfold inv. rewrite Esc. split; [exact (conj I I1)|].
  split; [exact I2|]. split; [|split; [|split]].
  - intros w [F|Hw']; [|].
    + inversion F; subst w. split; [apply Hw; exact Hr|].
      cbn. destruct o; [exact I|]. apply Hw. exact Ho.
    + destruct (I3 w Hw') as [A B].
      assert (Hw2 : forall r a, from W s1 r a -> from W (push (LProfile v) s2) r a).
      { intros r b. apply from_weak; auto. rewrite Esc. intros [F|F]; [discriminate|exact F]. }
      split; [apply Hw2; exact A|]. destruct (p_other w); [exact I|]. apply Hw2. exact B.
  - intros k0 tops bots E1 E2. exfalso.
    assert (E1' : future W s1 = Some k0) by exact E1.
    rewrite Fu1 in E1'. inversion E1'; subst k0.
    assert (Hin : In (LLoading l) (LProfile v :: screen s1))
      by (rewrite E2; apply in_or_app; right; left; reflexivity).
    destruct Hin as [F|F]; [discriminate|]. rewrite Es in F. exact (Hf l Fu F).
  - intros k0 [F|F]; [discriminate|exact (I5 k0 F)].
  - exact I6.
Qed.

(** With a profile on top, the dialog of the last load is not on screen. *)
Lemma top_profile_no_load W s v r l :
  inv W s -> screen s = LProfile v :: r -> future W s = Some l -> ~ In (LLoading l) (screen s).
Proof.
  intros [_ [_ [_ [I4 _]]]] E F H. apply in_split in H. destruct H as [tops [bots H]].
  destruct (I4 l tops bots F H) as [_ N]. rewrite E in H.
  destruct tops as [|x tops]; [discriminate|]. inversion H; subst.
  apply (N v). left. reflexivity.
Qed.

Lemma zoom_fine W s v r row :
  inv W s -> screen s = LProfile v :: r -> fine W (zoom W s v row).
Proof.
  intros H E. unfold zoom.
  destruct (find_table (p_table v) (screen s)) as [v'|]; [|exact I]. cbn [bind].
  destruct (nth_error (p_rows v') row) as [a|]; [|exact I]. cbn [bind].
  destruct (a_kids a); cbn [negb]; [|exact H].
  destruct (ask W s) as [[[l tr] s1]|] eqn:Ea; [|exact I]. cbn [bind].
  destruct (ask_inv W s l tr s1 Ea H) as [Wl [Fu [H1 [Fu1 [Nc [Lt [Es [Et [Ec [En Eb]]]]]]]]]].
  destruct (direct_children tr (a_id a)) as [kids|] eqn:Ek; [|exact I]. cbn [bind].
  destruct kids as [|k0 kr]; [exact I|].
  destruct (percent_norm (a_dur a)) as [norm|]; [|exact I]. cbn [bind].
  pose proof (top_profile_no_load W s v r l H E Fu) as NL.
  apply show_fine; auto.
  - unfold from. rewrite En, Ec, Es. repeat split; auto. exists tr. split; [exact Wl|].
    unfold direct_children in Ek. destruct (find_node tr (a_id a)) as [n|] eqn:Ef; [|discriminate].
    cbn in Ek. assert (Ek' : map info (n_kids n) = k0 :: kr) by congruence.
    intros x Hx. rewrite <- Ek' in Hx.
    apply in_map_iff in Hx. destruct Hx as [m [<- Hm]]. apply in_map.
    apply find_node_sound in Ef. destruct Ef as [Hn _]. exact (all_kids tr n m Hn Hm).
  - intros l' F. rewrite Fu1 in F. inversion F; subst. rewrite Es. exact NL.
Qed.

Lemma toggle_fine W s v r :
  inv W s -> screen s = LProfile v :: r -> fine W (toggle W s v).
Proof.
  intros H E. unfold toggle.
  destruct (stack s) as [|e st]; [exact I|].
  set (s1 := set_stack st s).
  assert (H1 : inv W s1) by (apply (inv_fields W s); auto).
  assert (Hv : view_ok W s v).
  { apply (proj1 (proj2 (proj2 H))). rewrite E. left. reflexivity. }
  destruct Hv as [Hv1 Hv2].
  assert (G : forall rows src s2,
    (match p_other v with
     | Saved rows src => Some (rows, src, s1)
     | Query about =>
         match ask W s1 with
         | None => None
         | Some (l, tr, s2) =>
             match (match about with
                    | None => Some (all_activities tr)
                    | Some id => all_children tr id
                    end) with
             | None => None
             | Some rows => Some (rows, l, s2)
             end
         end
     end) = Some (rows, src, s2) ->
     inv W s2 /\ screen s2 = screen s /\ canceled s2 = canceled s /\ next_load s2 = next_load s
     /\ from W s2 rows src /\ (forall l, future W s2 = Some l -> ~ In (LLoading l) (screen s2))).
  { intros rows src s2 Eq. destruct (p_other v) as [q|rows' src'].
    - destruct (ask W s1) as [[[l tr] s3]|] eqn:Ea; [|discriminate].
      destruct (ask_inv W s1 l tr s3 Ea H1) as [Wl [Fu [H3 [Fu3 [Nc [Lt [Es [Et [Ec [En Eb]]]]]]]]]].
      destruct (match q with Some _ => _ | None => _ end) as [rows'|] eqn:Er; [|discriminate].
      inversion Eq; subst rows' src s3. clear Eq.
      pose proof (top_profile_no_load W s1 v r l H1 E Fu) as NL.
      split; [exact H3|]. split; [exact Es|]. split; [exact Ec|]. split; [exact En|]. split.
      + unfold from. rewrite En, Ec, Es. repeat split; auto. exists tr. split; [exact Wl|].
        destruct q as [id|].
        * unfold all_children in Er. destruct (find_node tr id) as [n|] eqn:Ef; [|discriminate].
          cbn in Er. assert (Er' : map info (flat_map nodes (n_kids n)) = rows) by congruence.
          intros x Hx. rewrite <- Er' in Hx.
          apply in_map_iff in Hx. destruct Hx as [m [<- Hm]]. apply in_map.
          apply find_node_sound in Ef. destruct Ef as [Hn _]. exact (all_below tr n m Hn Hm).
        * assert (Er' : all_activities tr = rows) by congruence. intros x Hx. rewrite <- Er' in Hx. exact Hx.
      + intros l' F. rewrite Fu3 in F. inversion F; subst. rewrite Es. exact NL.
    - injection Eq as E1 E2 E3. rewrite <- E1, <- E2, <- E3. split; [exact H1|]. split; [reflexivity|]. split; [reflexivity|].
      split; [reflexivity|]. split; [exact Hv2|].
      intros l F. exact (top_profile_no_load W s1 v r l H1 E F). }
  destruct (match p_other v with Query _ => _ | Saved _ _ => _ end) as [[[rows src] s2]|]; [|exact I].
  destruct (G rows src s2 eq_refl) as [H2 [Es [Ec [En [Hr Hf]]]]]. cbn [bind].
  assert (Sub : forall x, In x (screen (pop s2)) -> In x (screen s2)).
  { intros x. apply suffix_In. cbn. apply suffix_tl. }
  apply show_fine.
  - apply (inv_suffix W s2); auto. cbn. apply suffix_tl.
  - apply (from_weak W s2); auto.
  - apply (from_weak W s); auto. intros F. rewrite <- Es. apply Sub. exact F.
  - intros l F G0. exact (Hf l F (Sub _ G0)).
Qed.

(** ** Changes of the display settings *)

Definition like (x y : layer) : Prop :=
  x = y \/ exists v w, x = LProfile v /\ y = LProfile w /\ p_rows w = p_rows v
                       /\ p_src w = p_src v /\ p_other w = p_other v.

Definition keeps (f : view -> view) : Prop :=
  forall v, p_rows (f v) = p_rows v /\ p_src (f v) = p_src v /\ p_other (f v) = p_other v.

Lemma like_refl l : Forall2 like l l.
Proof. induction l; constructor; [left; reflexivity|assumption]. Qed.

Lemma like_trans1 x y z : like x y -> like y z -> like x z.
Proof.
  intros [->|[v [w [-> [-> [E1 [E2 E3]]]]]]] H; [exact H|].
  destruct H as [<-|[v' [w' [E [-> [E4 [E5 E6]]]]]]].
  - right. exists v, w. auto.
  - injection E as <-. right. exists v, w'. repeat split; congruence.
Qed.

Lemma like_trans a b c : Forall2 like a b -> Forall2 like b c -> Forall2 like a c.
Proof.
  intros H. revert c. induction H as [|x y a b Hx H IH]; intros c H2;
    inversion H2 as [|y' z b' c' Hz H3]; subst; constructor.
  - exact (like_trans1 _ _ _ Hx Hz).
  - apply IH. exact H3.
Qed.

Lemma update_like i f l l' : keeps f -> update_table i f l = Some l' -> Forall2 like l l'.
Proof.
  intros Kf. revert l'. induction l as [|x r IH]; intros l' H; cbn in H; [discriminate|].
  destruct (update_table i f r) as [r'|].
  - inversion H; subst. constructor; [left; reflexivity|apply IH; reflexivity].
  - destruct x; try discriminate. destruct (p_table v =? i); [|discriminate].
    inversion H; subst. constructor; [|apply like_refl].
    right. exists v, (f v). destruct (Kf v) as [A [B C]]. auto.
Qed.

Lemma restyle_like es : forall d key l l', restyle_all es d key l = Some l' -> Forall2 like l l'.
Proof.
  induction es as [|e r IH]; intros d key l l' H; cbn in H; [inversion H; apply like_refl|].
  destruct (update_table _ _ l) as [l1|] eqn:E; [|discriminate].
  apply (like_trans l l1); [|exact (IH _ _ _ _ H)].
  refine (update_like _ _ _ _ _ E). intros v. repeat split.
Qed.

Lemma sort_by_keeps c d : keeps (sort_by c d).
Proof. intros v. unfold sort_by. destruct (has_column v c d); auto. Qed.

Lemma sort_like es : forall d key l l', sort_all es d key l = Some l' -> Forall2 like l l'.
Proof.
  induction es as [|e r IH]; intros d key l l' H; cbn in H; [inversion H; apply like_refl|].
  destruct (update_table _ _ l) as [l1|] eqn:E; [|discriminate].
  apply (like_trans l l1); [|exact (IH _ _ _ _ H)].
  apply (update_like _ _ _ _ (sort_by_keeps _ _) E).
Qed.

Lemma like_In l l' y : Forall2 like l l' -> In y l' -> exists x, In x l /\ like x y.
Proof.
  intros F. induction F as [|a b l l' H F IH]; intros Hy; [destruct Hy|].
  destruct Hy as [<-|Hy]; [exists a; split; [left; reflexivity|exact H]|].
  destruct (IH Hy) as [x [Hx Hl]]. exists x. split; [right; exact Hx|exact Hl].
Qed.

Lemma like_loading l l' k : Forall2 like l l' -> In (LLoading k) l' -> In (LLoading k) l.
Proof.
  intros F H. destruct (like_In _ _ _ F H) as [x [Hx [->|[v [w [_ [E _]]]]]]]; [exact Hx|discriminate].
Qed.

Lemma like_shape l l' : Forall2 like l l' -> shape l -> shape l'.
Proof.
  intros F. induction F as [|x y l l' H F IH]; [auto|]. cbn. intros [A B].
  split; [|exact (IH B)].
  destruct H as [<-|[v [w [-> [-> _]]]]]; [|exact I].
  destruct x; auto.
  - subst l. inversion F; reflexivity.
  - subst l. inversion F as [|a b c d H F']; subst. inversion F'; subst.
    destruct H as [<-|[v [w [E _]]]]; [reflexivity|discriminate].
Qed.

Lemma inv_like W s s' :
  Forall2 like (screen s) (screen s') -> threads s' = threads s -> cur s' = cur s ->
  canceled s' = canceled s -> next_load s' = next_load s -> below s' = below s ->
  inv W s -> inv W s'.
Proof.
  intros Hs E1 E2 E3 E4 E5 [I1 [I2 [I3 [I4 [I5 I6]]]]].
  unfold inv, view_ok, from, future in *. rewrite E1, E2, E3, E4, E5.
  split; [exact (like_shape _ _ Hs I1)|]. split; [exact I2|]. split; [|split; [|split]].
  - intros w Hw. destruct (like_In _ _ _ Hs Hw) as [x [Hx [->|[v [w' [-> [E [R1 [R2 R3]]]]]]]]].
    + destruct (I3 w Hx) as [[A [B [C D]]] F]. split.
      * repeat split; auto. intros G. apply C. exact (like_loading _ _ _ Hs G).
      * destruct (p_other w); [exact I|]. destruct F as [A' [B' [C' D']]].
        repeat split; auto. intros G. apply C'. exact (like_loading _ _ _ Hs G).
    + inversion E; subst w'. rewrite R1, R2, R3.
      destruct (I3 v Hx) as [[A [B [C D]]] F]. split.
      * repeat split; auto. intros G. apply C. exact (like_loading _ _ _ Hs G).
      * destruct (p_other v); [exact I|]. destruct F as [A' [B' [C' D']]].
        repeat split; auto. intros G. apply C'. exact (like_loading _ _ _ Hs G).
  - intros l tops' bots' F E. rewrite E in Hs.
    apply Forall2_app_inv_r in Hs. destruct Hs as [tops [rest [F1 [F2 Er]]]].
    inversion F2 as [|x y bots b' Hx F3 Ea Eb]; subst.
    destruct Hx as [->|[v [w [_ [G _]]]]]; [|discriminate].
    destruct (I4 l tops bots F Er) as [L N].
    rewrite <- (Forall2_length _ _ _ F3). split; [exact L|].
    intros w Hw. destruct (like_In _ _ _ F1 Hw) as [x [Hx [->|[v [w' [-> _]]]]]];
      [exact (N w Hx)|exact (N v Hx)].
  - intros l Hl. apply I5. exact (like_loading _ _ _ Hs Hl).
  - exact I6.
Qed.

(** ** Loads *)

Lemma load_all_app W : forall q d n,
  load_all W (q ++ [n]) d = match W n with Some _ => Some n | None => None end.
Proof. induction q as [|x q IH]; intros d n; cbn; [reflexivity|apply IH]. Qed.

Lemma show_loader_fine W s : inv W s -> fine W (show_loader s).
Proof.
  intros [I1 [I2 [I3 [I4 [I5 I6]]]]]. unfold show_loader.
  cbn [push set_screen set_wait threads cur canceled].
  destruct (nth_error (threads s) (cur s)) as [t|] eqn:Ht; [|exact I]. cbn [fine].
  set (s' := set_loads _ _ _).
  assert (Ht' : nth_error (threads s') (cur s')
                = Some {| t_queue := t_queue t ++ [next_load s]; t_data := t_data t |})
    by (cbn; exact (replace_get _ _ _ _ Ht)).
  assert (Esc : screen s' = LLoading (next_load s) :: screen s) by reflexivity.
  assert (Nn : ~ In (next_load s) (canceled s)) by (intros F; specialize (I6 _ F); lia).
  unfold inv. rewrite Esc. split; [exact (conj I I1)|]. split; [|split; [|split; [|split]]].
  - intros th l E1 E2. rewrite Ht' in E1. inversion E1; subst th. cbn in E2 |- *.
    destruct E2 as [E2|E2].
    + apply in_app_or in E2. destruct E2 as [E2|[<-|[]]].
      * destruct (I2 t l eq_refl (or_introl E2)). split; [assumption|lia].
      * split; [exact Nn|lia].
    + destruct (I2 t l eq_refl (or_intror E2)). split; [assumption|lia].
  - intros v [F|Hv]; [discriminate|].
    assert (Hw : forall r a, from W s r a -> from W s' r a).
    { intros r a [A [B [C D]]]. unfold from. rewrite Esc.
      change (next_load s') with (S (next_load s)). change (canceled s') with (canceled s).
      split; [lia|]. split; [exact B|]. split; [|exact D].
      intros [F|F]; [inversion F; lia|exact (C F)]. }
    destruct (I3 v Hv) as [A B]. split; [apply Hw; exact A|].
    destruct (p_other v); [exact I|]. apply Hw. exact B.
  - intros l tops bots F E. unfold future in F. rewrite Ht' in F. cbn [t_queue t_data] in F.
    rewrite load_all_app in F. destruct (W (next_load s)); inversion F; subst l.
    destruct tops as [|x tops]; cbn [app] in E.
    + assert (Er : screen s = bots) by congruence. split; [rewrite <- Er; reflexivity|]. intros v [].
    + assert (Er : screen s = tops ++ LLoading (next_load s) :: bots) by congruence. exfalso. assert (G : In (LLoading (next_load s)) (screen s))
        by (rewrite Er; apply in_or_app; right; left; reflexivity).
      specialize (I5 _ G). lia.
  - change (next_load s') with (S (next_load s)).
    intros l [F|Hl]; [inversion F; lia|]. specialize (I5 l Hl). lia.
  - change (next_load s') with (S (next_load s)). intros l Hl. specialize (I6 l Hl). lia.
Qed.

Lemma end_wait_inv W s : inv W s -> inv W (end_wait s).
Proof. apply inv_suffix; try reflexivity. cbn. apply suffix_skipn. Qed.

Lemma end_wait_no_load W s l :
  inv W s -> future W s = Some l -> ~ In (LLoading l) (screen (end_wait s)).
Proof.
  intros [_ [_ [_ [I4 _]]]] F H.
  unfold end_wait, pop_to in H. cbn [set_screen set_wait screen below] in H.
  destruct (suffix_skipn (length (screen s) - below s) (screen s)) as [a Ha].
  pose proof (skipn_length (length (screen s) - below s) (screen s)) as Len.
  remember (skipn (length (screen s) - below s) (screen s)) as k.
  apply in_split in H. destruct H as [tops [bots H]].
  rewrite H, app_assoc in Ha.
  destruct (I4 l (a ++ tops) bots F Ha) as [L _].
  rewrite H, app_length in Len. cbn in Len.
  assert (G : length (screen s) = length a + length tops + S (length bots))
    by (rewrite Ha, !app_length; cbn; lia).
  lia.
Qed.

Lemma loaded_fine W s l : inv W s -> fine W (loaded W s l).
Proof.
  intros H. unfold loaded. destruct (mem l (canceled s)); [exact H|].
  pose proof (end_wait_inv W s H) as H1.
  destruct (W l) as [tr0|]; [|apply inv_push; [exact I|exact H1]].
  destruct (ask W (end_wait s)) as [[[src tr] s2]|] eqn:Ea; [|exact I]. cbn [bind].
  destruct (percent_norm (sum_durations (root_activities tr))) as [norm|]; [|exact I]. cbn [bind].
  destruct (ask_inv W _ src tr s2 Ea H1) as [Wl [Fu [H2 [Fu2 [Nc [Lt [Es [Et [Ec [En Eb]]]]]]]]]].
  pose proof (end_wait_no_load W s src H Fu) as NL.
  apply show_fine.
  - apply (inv_fields W s2); auto.
  - unfold from. cbn [set_config next_load canceled screen]. rewrite En, Ec, Es.
    repeat split; auto. exists tr. split; [exact Wl|].
    intros x Hx. apply in_map_iff in Hx. destruct Hx as [n [<- Hn]]. apply in_map.
    apply all_roots. exact Hn.
  - exact I.
  - intros k F. change (future W s2 = Some k) in F. rewrite Fu2 in F. inversion F; subst k.
    cbn [set_config screen]. rewrite Es. exact NL.
Qed.

Lemma abort_fine W s l r : inv W s -> screen s = LLoading l :: r -> fine W (abort_load s l).
Proof.
  intros H E. unfold abort_load.
  set (s0 := set_loads (l :: canceled s) (next_load s) s).
  destruct (screen (end_wait s0)); [exact I|]. cbn [fine].
  pose proof (end_wait_inv W s H) as [I1 [I2 [I3 [I4 [I5 I6]]]]].
  pose proof H as [_ [_ [J3 [_ [J5 J6]]]]].
  set (s1 := set_threads _ _ _).
  assert (Esc : screen s1 = screen (end_wait s)) by reflexivity.
  assert (Hth : nth_error (threads s1) (cur s1) = Some {| t_queue := []; t_data := None |}).
  { cbn. rewrite nth_error_app2 by lia. rewrite Nat.sub_diag. reflexivity. }
  assert (Hl : In (LLoading l) (screen s)) by (rewrite E; left; reflexivity).
  unfold inv. rewrite Esc. split; [exact I1|]. split; [|split; [|split; [|split; [exact I5|]]]].
  - intros th k E1 E2. rewrite Hth in E1. inversion E1; subst. destruct E2 as [[]|E2]; discriminate.
  - intros v Hv. assert (Hv0 : In (LProfile v) (screen s)).
    { apply (suffix_In (screen (end_wait s))); [cbn; apply suffix_skipn|exact Hv]. }
    assert (Hw : forall r a, from W (end_wait s) r a -> ~ In (LLoading a) (screen s) -> from W s1 r a).
    { intros r0 a [A [B [C D]]] N. repeat split; auto.
      cbn. intros [F|F]; [subst a; exact (N Hl)|exact (B F)]. }
    destruct (I3 v Hv) as [A B]. destruct (J3 v Hv0) as [[_ [_ [C _]]] D].
    split; [apply Hw; assumption|]. destruct (p_other v); [exact I|].
    apply Hw; [exact B|apply D].
  - intros k tops bots F. unfold future in F. rewrite Hth in F. discriminate.
  - intros k [<-|Hk]; [exact (J5 l Hl)|exact (J6 k Hk)].
Qed.

(** ** All events *)

Lemma table_only r : shape (LTable :: r) -> r = [].
Proof. intros [H _]. exact H. Qed.

Lemma prompt_only b r : shape (LPrompt b :: r) -> r = [LTable].
Proof. intros [H _]. exact H. Qed.

Lemma start_measure_inv W s f : inv W s -> screen s = [LTable] -> inv W (start_measure s f).
Proof.
  intros H E. destruct f as [n|]; cbn [start_measure]; [apply inv_repeat; exact H|].
  destruct H as [I1 [I2 [I3 [I4 [I5 I6]]]]].
  unfold inv. cbn [set_jobs push set_screen set_wait screen threads cur canceled next_load below].
  rewrite E. split; [repeat split|]. split; [exact I2|]. split; [|split; [|split; [|exact I6]]].
  - intros v [F|[F|[]]]; discriminate.
  - intros l tops bots F G. exfalso.
    assert (Hin : In (LLoading l) [LMeasuring (next_job s); LTable])
      by (rewrite G; apply in_or_app; right; left; reflexivity).
    destruct Hin as [X|[X|[]]]; discriminate.
  - intros l [F|[F|[]]]; discriminate.
Qed.

Lemma step_fine W s e w : inv W s -> step W s e = Some w -> fine W w.
Proof.
  intros H Hs. pose proof (proj1 H) as Sh.
  assert (Gd : forall d, inv W (global_dialog s d)).
  { intros d. unfold global_dialog. destruct (existsb is_global (screen s)); [exact H|].
    destruct d; [|exact H]. apply inv_push; [exact I|exact H]. }
  destruct e as [ | | | | | |wz|create f|row|c| | |idx| |t|m r|m| ]; cbn [step] in Hs.
  - inversion Hs; subst. unfold exit_current_layer. cbn [fine].
    destruct (1 <? length (screen s)); [|exact H].
    destruct (no_escape s); [exact H|].
    destruct (_ =? _); (apply (inv_suffix W s); auto; cbn; apply suffix_tl).
  - inversion Hs; subst. unfold switch_duration_unit.
    destruct (stack s) eqn:Est; [exact H|]. rewrite <- Est. clear Est.
    destruct (cfg_dd s) as [d|]; [|exact H].
    destruct (match d with Time => _ | Percentage _ _ => _ end) as [d'|]; [|exact I]. cbn [bind].
    destruct (restyle_all _ _ _ _) as [l'|] eqn:E; [|exact I]. cbn [bind fine].
    apply (inv_like W s); auto. cbn. exact (restyle_like _ _ _ _ _ E).
  - inversion Hs; subst. apply Gd.
  - inversion Hs; subst. apply Gd.
  - inversion Hs; subst. apply Gd.
  - destruct (screen s) as [|[| | | | | |v] r] eqn:Sc; try discriminate. inversion Hs; subst.
    exact (toggle_fine W s v r H Sc).
  - destruct (screen s) as [|[| | | | | |v] r] eqn:Sc; try discriminate. inversion Hs; subst.
    destruct wz as [|ex|].
    + apply inv_push; [exact I|exact H].
    + apply inv_push; [|exact H]. rewrite Sc, (table_only r Sh). reflexivity.
    + exact (show_loader_fine W s H).
  - destruct (screen s) as [|[|ex| | | | |v] r] eqn:Sc; try discriminate. inversion Hs; subst.
    assert (Hp : inv W (pop s)) by (apply (inv_suffix W s); auto; cbn; apply suffix_tl).
    destruct create.
    + apply start_measure_inv; [exact Hp|]. cbn. rewrite Sc. exact (prompt_only ex r Sh).
    + destruct ex; [exact (show_loader_fine W _ Hp)|exact Hp].
  - destruct (screen s) as [|[| | | | | |v] r] eqn:Sc; try discriminate.
    destruct (p_kind v) eqn:Kv; [|discriminate].
    destruct (row <? length (p_rows v)); [|discriminate].
    inversion Hs; subst. exact (zoom_fine W s v r row H Sc).
  - destruct (screen s) as [|[| | | | | |v] r] eqn:Sc; try discriminate.
    destruct (has_column v c (p_dd v)) eqn:Hc; [|discriminate]. inversion Hs; subst.
    unfold sort_profiles. destruct (stack s) as [|e past]; [exact I|].
    destruct (cfg_dd s) as [d|]; [|exact I]. cbn [bind].
    destruct (sort_all _ _ _ _) as [l'|] eqn:E; [|exact I]. cbn [bind fine].
    apply (inv_like W s); auto. cbn. rewrite Sc in *. cbn [tl] in E.
    apply (like_trans _ (LProfile (sort_by c (p_dd v) v) :: r)); [|exact (sort_like _ _ _ _ _ E)].
    constructor; [|apply like_refl]. right. exists v, (sort_by c (p_dd v) v).
    destruct (sort_by_keeps c (p_dd v) v) as [A [B C]]. auto.
  - destruct (screen s) as [|[| | |d| | |v] r] eqn:Sc; try discriminate; inversion Hs; subst;
      (apply (inv_suffix W s); auto; cbn; apply suffix_tl).
  - destruct (screen s) as [|[| | |[| |n b]| | |v] r] eqn:Sc; try discriminate. inversion Hs; exact I.
  - destruct (screen s) as [|[| | |[| |n b]| | |v] r] eqn:Sc; try discriminate.
    destruct (idx <? n); [|discriminate]. inversion Hs; subst.
    apply (inv_suffix W s); auto. cbn. apply suffix_skipn.
  - destruct (screen s) as [|[| | | |l|m|v] r] eqn:Sc; try discriminate; inversion Hs; subst.
    + exact (abort_fine W s l r H Sc).
    + exact H.
  - destruct (nth_error (threads s) t) as [th|] eqn:Hn; [|discriminate].
    destruct (load_next W th) as [[th' c]|] eqn:Hl; [|discriminate].
    inversion Hs; subst w. cbn [fine].
    set (s' := set_callbacks _ _).
    assert (Hf : future W s' = future W s
              /\ forall uh k, nth_error (threads s') (cur s') = Some uh ->
                  In k (t_queue uh) \/ t_data uh = Some k ->
                  exists th0, nth_error (threads s) (cur s) = Some th0
                    /\ (In k (t_queue th0) \/ t_data th0 = Some k)).
    { unfold load_next in Hl. destruct (t_queue th) as [|x q] eqn:Eq; [discriminate|].
      inversion Hl; subst th' c. clear Hl.
      destruct (Nat.eq_dec t (cur s)) as [->|N].
      - assert (Ht' : nth_error (threads s') (cur s')
                = Some {| t_queue := q; t_data := match W x with Some _ => Some x | None => None end |})
          by (cbn; exact (replace_get _ _ _ _ Hn)).
        split.
        + unfold future. rewrite Ht', Hn, Eq. reflexivity.
        + intros uh k E1 E2. rewrite Ht' in E1. inversion E1; subst uh. cbn in E2.
          exists th. split; [exact Hn|]. rewrite Eq.
          destruct E2 as [E2|E2]; [left; right; exact E2|].
          destruct (W x); inversion E2; subst. left. left. reflexivity.
      - assert (Ht' : nth_error (threads s') (cur s') = nth_error (threads s) (cur s))
          by (cbn; apply replace_other; exact N).
        unfold future. rewrite Ht'. split; [reflexivity|]. intros uh k E1 E2. exists uh. auto. }
    destruct Hf as [Hf1 Hf2]. destruct H as [I1 [I2 [I3 [I4 [I5 I6]]]]].
    split; [exact I1|]. split; [|split; [exact I3|split; [|split; [exact I5|exact I6]]]].
    + intros uh k E1 E2. destruct (Hf2 uh k E1 E2) as [th0 [E3 E4]]. exact (I2 th0 k E3 E4).
    + intros l tops bots F. rewrite Hf1 in F. exact (I4 l tops bots F).
  - destruct (get_job m (jobs s)) as [[c|]|]; try discriminate. inversion Hs; subst.
    apply (inv_fields W s); auto.
  - destruct (get_job m (jobs s)) as [[[|c r]|]|]; try discriminate. inversion Hs; subst.
    apply (inv_fields W s); auto.
  - destruct (callbacks s) as [|c r]; [discriminate|]. inversion Hs; subst.
    assert (H' : inv W (set_callbacks r s)) by (apply (inv_fields W s); auto).
    destruct c as [l|m|m|]; cbn [run_callback].
    + exact (loaded_fine W _ l H').
    + exact (end_wait_inv W _ H').
    + exact (show_loader_fine W _ H').
    + apply inv_push; [exact I|exact H'].
Qed.

Lemma exec_fine W : forall evs s w, inv W s -> exec W s evs = Some w -> fine W w.
Proof.
  induction evs as [|e r IH]; intros s w H E; cbn [exec] in E; [inversion E; exact H|].
  destruct (step W s e) as [w'|] eqn:Es; [|discriminate].
  pose proof (step_fine W s e w' H Es) as G.
  destruct w' as [s'| |]; [exact (IH s' w G E)| |];
    (destruct r; [|discriminate]; inversion E; exact I).
Qed.

Lemma initial_inv W s : initial s -> inv W s.
Proof.
  assert (H : inv W empty_state).
  { split; [exact I|]. split; [|split; [|split; [|split]]].
    - intros th l E1 E2. cbn in E1. injection E1 as <-. destruct E2 as [[]|E2]; discriminate.
    - intros v [].
    - intros l tops bots E. discriminate.
    - intros l [].
    - intros l []. }
  intros [E|E]; subst s.
  - exact (show_loader_fine W empty_state H).
  - split; [repeat split|]. split; [exact (proj1 (proj2 H))|]. split; [|split; [|split]].
    + intros v [F|[]]; discriminate.
    + intros l tops bots E. discriminate.
    + intros l [F|[]]; discriminate.
    + intros l [].
Qed.

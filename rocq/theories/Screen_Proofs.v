(** * Proofs about the screen: traces and tables *)

From Coq Require Import List PeanoNat NArith Bool Lia.
From Verif Require Import Screen_Model Screen_Spec.
Import ListNotations.
Local Open Scope nat_scope.

(** ** Traces *)

Lemma node_ind2 (P : node -> Prop) :
  (forall i d k, Forall P k -> P (Node i d k)) -> forall n, P n.
Proof.
  intros H. fix IH 1. intros [i d k]. apply H.
  induction k as [|x r IHr]; constructor; [apply IH|exact IHr].
Qed.

Lemma nodes_self n : In n (nodes n).
Proof. destruct n; left; reflexivity. Qed.

Lemma nodes_kids n : nodes n = n :: flat_map nodes (n_kids n).
Proof. destruct n; reflexivity. Qed.

Lemma nodes_trans n : forall m k, In m (nodes n) -> In k (nodes m) -> In k (nodes n).
Proof.
  induction n as [i d ks IH] using node_ind2; intros m k Hm Hk.
  rewrite nodes_kids in Hm. destruct Hm as [<-|Hm]; [exact Hk|].
  rewrite nodes_kids. right. cbn [n_kids] in *.
  apply in_flat_map in Hm. destruct Hm as [x [Hx Hm]].
  apply in_flat_map. exists x. split; [exact Hx|].
  rewrite Forall_forall in IH. exact (IH x Hx m k Hm Hk).
Qed.

Lemma all_roots tr n : In n tr -> In n (all_nodes tr).
Proof. intros H. apply in_flat_map. exists n. split; [exact H|apply nodes_self]. Qed.

Lemma all_below tr n k :
  In n (all_nodes tr) -> In k (flat_map nodes (n_kids n)) -> In k (all_nodes tr).
Proof.
  intros Hn Hk. apply in_flat_map in Hn. destruct Hn as [r [Hr Hn]].
  apply in_flat_map. exists r. split; [exact Hr|].
  apply (nodes_trans r n); [exact Hn|]. rewrite nodes_kids. right. exact Hk.
Qed.

Lemma all_kids tr n k : In n (all_nodes tr) -> In k (n_kids n) -> In k (all_nodes tr).
Proof.
  intros Hn Hk. apply (all_below tr n); [exact Hn|].
  apply in_flat_map. exists k. split; [exact Hk|apply nodes_self].
Qed.

Lemma find_node_in tr n :
  NoDup (map n_id (all_nodes tr)) -> In n (all_nodes tr) -> find_node tr (n_id n) = Some n.
Proof.
  unfold find_node. intros ND H.
  induction (all_nodes tr) as [|x r IH]; [destruct H|].
  cbn [map] in ND. apply NoDup_cons_iff in ND. destruct ND as [Nx ND].
  cbn [find]. destruct H as [->|H].
  - rewrite Nat.eqb_refl. reflexivity.
  - destruct (Nat.eqb_spec (n_id x) (n_id n)) as [E|E]; [|exact (IH ND H)].
    exfalso. apply Nx. rewrite E. apply in_map. exact H.
Qed.

Lemma find_node_sound tr i n : find_node tr i = Some n -> In n (all_nodes tr) /\ n_id n = i.
Proof.
  unfold find_node. intros H. apply find_some in H. destruct H as [H E].
  apply Nat.eqb_eq in E. auto.
Qed.

Lemma describable_in tr rows :
  NoDup (map n_id (all_nodes tr)) ->
  (forall a, In a rows -> exists n, In n (all_nodes tr) /\ a = info n) ->
  describable tr rows = true.
Proof.
  intros ND H. unfold describable. apply forallb_forall. intros a Ha.
  destruct (H a Ha) as [n [Hn ->]]. cbn [info a_id].
  rewrite (find_node_in tr n ND Hn). reflexivity.
Qed.

Lemma lists_in tr name k rows :
  lists tr name k rows ->
  forall a, In a rows -> exists n, In n (all_nodes tr) /\ a = info n.
Proof.
  intros H a Ha. destruct name as [i|]; cbn [lists] in H.
  - destruct H as [n [Hn [_ ->]]]. apply in_map_iff in Ha. destruct Ha as [m [<- Hm]].
    exists m. split; [|reflexivity].
    destruct k; [exact (all_kids tr n m Hn Hm)|exact (all_below tr n m Hn Hm)].
  - subst rows. apply in_map_iff in Ha. destruct Ha as [m [<- Hm]].
    exists m. split; [|reflexivity].
    destruct k; [exact (all_roots tr m Hm)|exact Hm].
Qed.

(** ** Small facts *)

Lemma with_norm_twice d x y : with_norm (with_norm d x) y = with_norm d y.
Proof. destruct d as [|n [|]]; reflexivity. Qed.

Lemma replace_same {A} n (x : A) l : nth_error l n = Some x -> replace n x l = l.
Proof.
  revert n. induction l as [|y r IH]; intros [|n] H; cbn in *; try discriminate.
  - inversion H; reflexivity.
  - rewrite (IH n H). reflexivity.
Qed.

Lemma replace_get {A} n (x y : A) l :
  nth_error l n = Some y -> nth_error (replace n x l) n = Some x.
Proof.
  revert n. induction l as [|z r IH]; intros [|n] H; cbn in *; try discriminate; auto.
Qed.

Lemma replace_other {A} n m (x : A) l :
  n <> m -> nth_error (replace n x l) m = nth_error l m.
Proof.
  revert n m. induction l as [|z r IH]; intros [|n] [|m] H; cbn; try reflexivity; try congruence.
  apply IH. congruence.
Qed.

Lemma replace_length {A} n (x : A) l : length (replace n x l) = length l.
Proof. revert n. induction l as [|z r IH]; intros [|n]; cbn; auto. Qed.

Lemma skipn_all_app {A} (a b : list A) : skipn (length (a ++ b) - length b) (a ++ b) = b.
Proof.
  rewrite app_length. replace (length a + length b - length b) with (length a) by lia.
  rewrite skipn_app. rewrite skipn_all. rewrite Nat.sub_diag. reflexivity.
Qed.

Lemma mem_In n l : mem n l = true <-> In n l.
Proof.
  induction l as [|x r IH]; cbn; [split; [discriminate|tauto]|].
  rewrite orb_true_iff, Nat.eqb_eq, IH. tauto.
Qed.

(** ** Tables *)

Definition no_table (i : nat) (l : list layer) : Prop :=
  forall v, In (LProfile v) l -> p_table v <> i.

Lemma update_none i f l : no_table i l -> update_table i f l = None.
Proof.
  intros H. induction l as [|x r IH]; [reflexivity|]. cbn [update_table].
  rewrite IH by (intros v Hv; apply H; right; exact Hv).
  destruct x; try reflexivity.
  destruct (Nat.eqb_spec (p_table v) i) as [E|E]; [|reflexivity].
  exfalso. exact (H v (or_introl eq_refl) E).
Qed.

Lemma update_app i f pre l l' :
  update_table i f l = Some l' -> update_table i f (pre ++ l) = Some (pre ++ l').
Proof.
  intros H. induction pre as [|x r IH]; [exact H|].
  cbn [app update_table]. rewrite IH. reflexivity.
Qed.

Lemma update_here i f v l :
  p_table v = i -> no_table i l ->
  update_table i f (LProfile v :: l) = Some (LProfile (f v) :: l).
Proof.
  intros E H. cbn [update_table]. rewrite (update_none i f l H).
  rewrite (proj2 (Nat.eqb_eq _ _) E). reflexivity.
Qed.

Lemma find_none i l : no_table i l -> find_table i l = None.
Proof.
  intros H. induction l as [|x r IH]; [reflexivity|]. cbn [find_table].
  rewrite IH by (intros v Hv; apply H; right; exact Hv).
  destruct x; try reflexivity.
  destruct (Nat.eqb_spec (p_table v) i) as [E|E]; [|reflexivity].
  exfalso. exact (H v (or_introl eq_refl) E).
Qed.

Lemma find_here v l :
  no_table (p_table v) l -> find_table (p_table v) (LProfile v :: l) = Some v.
Proof.
  intros H. cbn [find_table]. rewrite (find_none _ l H). rewrite Nat.eqb_refl. reflexivity.
Qed.

(** Tables are numbered from the bottom. *)
Definition numbered (profs : list view) : Prop :=
  forall a v b, profs = a ++ v :: b -> p_table v = length b.

Lemma numbered_tail v profs : numbered (v :: profs) -> numbered profs.
Proof. intros H a w b E. apply (H (v :: a) w b). rewrite E. reflexivity. Qed.

Lemma numbered_head v profs : numbered (v :: profs) -> p_table v = length profs.
Proof. intros H. exact (H [] v profs eq_refl). Qed.

Lemma numbered_cons v profs : p_table v = length profs -> numbered profs -> numbered (v :: profs).
Proof.
  intros E H a w b F. destruct a as [|x a]; cbn in F; inversion F; subst.
  - exact E.
  - exact (H a w b eq_refl).
Qed.

Lemma numbered_nil : numbered [].
Proof. intros [|? ?] ? ? E; discriminate. Qed.

Lemma numbered_small profs v : numbered profs -> In v profs -> p_table v < length profs.
Proof.
  intros H Hv. apply in_split in Hv. destruct Hv as [a [b ->]].
  rewrite (H a v b eq_refl). rewrite app_length. cbn. lia.
Qed.

Lemma numbered_NoDup profs : numbered profs -> NoDup (map p_table profs).
Proof.
  induction profs as [|v r IH]; intros H; cbn [map]; [constructor|].
  constructor; [|exact (IH (numbered_tail v r H))].
  intros F. apply in_map_iff in F. destruct F as [w [E Hw]].
  pose proof (numbered_small r w (numbered_tail v r H) Hw).
  pose proof (numbered_head v r H). lia.
Qed.

Definition no_profile (l : list layer) : Prop := forall v, ~ In (LProfile v) l.

Lemma no_table_rest profs bots :
  numbered profs -> no_profile bots -> no_table (length profs) (map LProfile profs ++ bots).
Proof.
  intros H B v Hv E. apply in_app_or in Hv. destruct Hv as [Hv|Hv]; [|exact (B v Hv)].
  apply in_map_iff in Hv. destruct Hv as [w [F Hw]]. inversion F; subst.
  pose proof (numbered_small profs v H Hw). lia.
Qed.

(** The views after a change of unit. *)
Fixpoint restyled (es : list entry) (d : dd) (key : column) (vs : list view) : list view :=
  match es, vs with
  | e :: es, v :: vs => restyle e (with_norm d (e_norm e)) key v :: restyled es d key vs
  | _, _ => vs
  end.

Lemma restyled_length es d key vs : length (restyled es d key vs) = length vs.
Proof. revert vs. induction es as [|e r IH]; intros [|v vs]; cbn; auto. Qed.

Lemma restyled_numbered es d key vs : numbered vs -> numbered (restyled es d key vs).
Proof.
  revert vs. induction es as [|e r IH]; intros [|v vs] H; cbn [restyled]; auto.
  apply numbered_cons.
  - rewrite restyled_length. cbn. exact (numbered_head v vs H).
  - apply IH. exact (numbered_tail v vs H).
Qed.

Lemma restyle_all_norm es d x key l :
  restyle_all es (with_norm d x) key l = restyle_all es d key l.
Proof. destruct es as [|e r]; [reflexivity|]. cbn [restyle_all]. rewrite with_norm_twice. reflexivity. Qed.

Lemma restyle_all_app a b d key l :
  restyle_all (a ++ b) d key l =
  match restyle_all a d key l with Some l' => restyle_all b d key l' | None => None end.
Proof.
  revert d l. induction a as [|e r IH]; intros d l; [reflexivity|].
  cbn [app restyle_all].
  destruct (update_table (e_table e) (restyle e (with_norm d (e_norm e)) key) l); [|reflexivity].
  rewrite !restyle_all_norm. apply IH.
Qed.

Lemma restyle_all_ok es : forall vs d key pre bots,
  Forall2 (fun e v => e_table e = p_table v) es vs -> numbered vs -> no_profile bots ->
  restyle_all (rev es) d key (pre ++ map LProfile vs ++ bots)
  = Some (pre ++ map LProfile (restyled es d key vs) ++ bots).
Proof.
  induction es as [|e r IH]; intros vs d key pre bots F H B; inversion F; subst; [reflexivity|].
  cbn [rev map]. rewrite restyle_all_app.
  specialize (IH l' d key (pre ++ [LProfile y]) bots H4 (numbered_tail _ _ H) B).
  rewrite <- !app_assoc in IH. cbn [app] in IH. cbn [app]. rewrite IH.
  cbn [restyle_all restyled map app].
  rewrite (update_app (e_table e) _ pre _
             (LProfile (restyle e (with_norm d (e_norm e)) key y)
                :: map LProfile (restyled r d key l') ++ bots)); [reflexivity|].
  apply update_here; [congruence|].
  rewrite H2, (numbered_head y l' H), <- (restyled_length r d key l').
  apply no_table_rest; [|exact B]. apply restyled_numbered. exact (numbered_tail y l' H).
Qed.

(** The views after a sort. *)
Fixpoint sorted (es : list entry) (d : dd) (key : column) (vs : list view) : list view :=
  match es, vs with
  | e :: es, v :: vs => sort_by key (with_norm d (e_norm e)) v :: sorted es d key vs
  | _, _ => vs
  end.

Lemma sort_by_table key d v : p_table (sort_by key d v) = p_table v.
Proof. unfold sort_by. destruct (has_column v key d); reflexivity. Qed.

Lemma sorted_length es d key vs : length (sorted es d key vs) = length vs.
Proof. revert vs. induction es as [|e r IH]; intros [|v vs]; cbn; auto. Qed.

Lemma sorted_numbered es d key vs : numbered vs -> numbered (sorted es d key vs).
Proof.
  revert vs. induction es as [|e r IH]; intros [|v vs] H; cbn [sorted]; auto.
  apply numbered_cons.
  - rewrite sorted_length, sort_by_table. exact (numbered_head v vs H).
  - apply IH. exact (numbered_tail v vs H).
Qed.

Lemma sort_all_norm es d x key l :
  sort_all es (with_norm d x) key l = sort_all es d key l.
Proof. destruct es as [|e r]; [reflexivity|]. cbn [sort_all]. rewrite with_norm_twice. reflexivity. Qed.

Lemma sort_all_app a b d key l :
  (forall e, In e a -> e_kind e = Hierarchical) ->
  sort_all (a ++ b) d key l =
  match sort_all a d key l with Some l' => sort_all b d key l' | None => None end.
Proof.
  revert d l. induction a as [|e r IH]; intros d l H; [reflexivity|].
  cbn [app sort_all]. rewrite (H e (or_introl eq_refl)). cbn [kind_column].
  destruct (update_table (e_table e) (sort_by key (with_norm d (e_norm e))) l); [|reflexivity].
  rewrite !sort_all_norm. apply IH. intros x Hx. apply H. right. exact Hx.
Qed.

Lemma sort_all_ok es : forall vs d key pre bots,
  Forall2 (fun e v => e_table e = p_table v) es vs -> numbered vs -> no_profile bots ->
  (forall e, In e es -> e_kind e = Hierarchical) ->
  sort_all (rev es) d key (pre ++ map LProfile vs ++ bots)
  = Some (pre ++ map LProfile (sorted es d key vs) ++ bots).
Proof.
  induction es as [|e r IH]; intros vs d key pre bots F H B K; inversion F; subst; [reflexivity|].
  cbn [rev map]. rewrite sort_all_app
    by (intros x Hx; apply K; right; apply in_rev; exact Hx).
  specialize (IH l' d key (pre ++ [LProfile y]) bots H4 (numbered_tail _ _ H) B
                (fun x Hx => K x (or_intror Hx))).
  rewrite <- !app_assoc in IH. cbn [app] in IH. cbn [app]. rewrite IH.
  cbn [sort_all sorted map app].
  rewrite (K e (or_introl eq_refl)). cbn [kind_column].
  rewrite (update_app (e_table e) _ pre _
             (LProfile (sort_by key (with_norm d (e_norm e)) y)
                :: map LProfile (sorted r d key l') ++ bots)); [reflexivity|].
  apply update_here; [congruence|].
  rewrite H2, (numbered_head y l' H), <- (sorted_length r d key l').
  apply no_table_rest; [|exact B]. apply sorted_numbered. exact (numbered_tail y l' H).
Qed.

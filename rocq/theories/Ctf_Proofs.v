(** * Fields, maps and scalars of JSON documents *)

From Coq Require Import String Permutation Sorted.
From Verif Require Import Base Load_Model Load_Spec Ctf_Model Ctf_Spec.
Local Open Scope bool_scope.
Local Open Scope list_scope.

(** ** Look-up *)

Lemma lookup_in {V} k (v : V) l : lookup k l = Some v -> In (k, v) l.
Proof.
  induction l as [|[a b] r IH]; cbn; [discriminate|].
  destruct (str_eqb_spec a k) as [->|N]; [intros H; injection H as ->; now left|right; auto].
Qed.

Lemma lookup_none {V} k (l : list (str * V)) : lookup k l = None <-> forall v, ~ In (k, v) l.
Proof.
  induction l as [|[a b] r IH]; cbn; [split; [intros _ v []|reflexivity]|].
  destruct (str_eqb_spec a k) as [->|N].
  - split; [discriminate|]. intros H. exfalso. apply (H b). now left.
  - rewrite IH. split; [intros H v [E|Hin]; [congruence|exact (H v Hin)]|].
    intros H v Hin. apply (H v). now right.
Qed.

Lemma lookup_single k v l : single l k -> (lookup k l = Some v <-> In (k, v) l).
Proof.
  intros S. split; [apply lookup_in|]. intros Hin.
  destruct (lookup k l) as [w|] eqn:E; [|exfalso; exact (proj1 (lookup_none k l) E v Hin)].
  f_equal. apply in_split in Hin. destruct Hin as [pre [post ->]].
  revert S E. clear. induction pre as [|[a b] r IH]; cbn.
  - rewrite str_eqb_refl. intros _ H. now injection H.
  - intros S. destruct (str_eqb_spec a k) as [->|N].
    + exfalso. exact (S [] b r v post eq_refl).
    + apply IH. intros p v1 m w1 q F. apply (S ((a, b) :: p) v1 m w1 q). cbn. now rewrite F.
Qed.

Lemma known_In names k : known names k = true <-> In k names.
Proof.
  unfold known. rewrite existsb_exists. split.
  - intros [x [H E]]. apply str_eqb_eq in E. now subst.
  - intros H. exists k. split; [exact H|apply str_eqb_refl].
Qed.
Lemma known_not names k : known names k = false <-> ~ In k names.
Proof. rewrite <- known_In. destruct (known names k); split; congruence. Qed.

(** ** Occurrences *)

Lemma filter_split {A} (f : A -> bool) l p x q :
  filter f l = p ++ x :: q -> exists a b, l = a ++ x :: b /\ filter f a = p /\ filter f b = q.
Proof.
  revert p. induction l as [|y r IH]; cbn; intros p H; [destruct p; discriminate|].
  destruct (f y) eqn:Fy.
  - destruct p as [|z p]; cbn in H; injection H as -> H.
    + exists [], r. auto.
    + destruct (IH p H) as [a [b [-> [Ha Hb]]]]. exists (z :: a), b. cbn. rewrite Fy, Ha. auto.
  - destruct (IH p H) as [a [b [-> [Ha Hb]]]]. exists (y :: a), b. cbn. rewrite Fy. auto.
Qed.

Lemma single_filter (f : str * doc -> bool) l k :
  (forall v, f (k, v) = true) -> (single (filter f l) k <-> single l k).
Proof.
  intros Hf. split; intros S pre v mid w post E.
  - apply (S (filter f pre) v (filter f mid) w (filter f post)). rewrite E.
    rewrite filter_app. cbn. rewrite Hf, filter_app. cbn. now rewrite Hf.
  - apply filter_split in E. destruct E as [a [b [-> [_ E]]]].
    apply filter_split in E. destruct E as [c [d [-> [_ _]]]].
    exact (S a v c w d eq_refl).
Qed.

Lemma in_others names l k v : ~ In k names -> (In (k, v) (others names l) <-> In (k, v) l).
Proof.
  intros N. unfold others. rewrite filter_In. cbn. apply known_not in N. rewrite N. cbn. tauto.
Qed.

Lemma single_others names l k : ~ In k names -> (single (others names l) k <-> single l k).
Proof. intros N. apply single_filter. intros v. cbn. apply known_not in N. now rewrite N. Qed.

Lemma lookup_filter (f : str * doc -> bool) l k :
  (forall v, f (k, v) = true) -> lookup k (filter f l) = lookup k l.
Proof.
  intros Hf. induction l as [|[a b] r IH]; [reflexivity|]. cbn [filter].
  destruct (f (a, b)) eqn:Fa; cbn [lookup]; rewrite ?IH; [reflexivity|].
  destruct (str_eqb_spec a k) as [->|N]; [rewrite Hf in Fa; discriminate|reflexivity].
Qed.

Lemma lookup_others names l k : ~ In k names -> lookup k (others names l) = lookup k l.
Proof. intros N. apply lookup_filter. intros v. cbn. apply known_not in N. now rewrite N. Qed.

Lemma absent_others names l k : ~ In k names -> (absent (others names l) k <-> absent l k).
Proof. intros N. unfold absent. split; intros H v Hin; apply (H v); apply (in_others names l k v N); exact Hin. Qed.

Lemma others_others a b l : others a (others b l) = others (a ++ b) l.
Proof.
  unfold others. induction l as [|[x y] r IH]; [reflexivity|]. cbn [filter fst].
  assert (E : known (a ++ b) x = known a x || known b x) by apply existsb_app.
  rewrite E. destruct (known b x); cbn [negb filter fst].
  - rewrite orb_true_r. exact IH.
  - rewrite orb_false_r. destruct (known a x); cbn [negb]; [exact IH|now rewrite IH].
Qed.

(** ** Visits *)

Definition dup_free (l : fields) : Prop := NoDup (map fst l).

Lemma dup_free_single l k : dup_free l -> single l k.
Proof.
  intros D pre v mid w post ->. unfold dup_free in D. rewrite map_app in D. cbn in D.
  apply NoDup_remove_2 in D. apply D. apply in_or_app. right. rewrite map_app. apply in_or_app.
  right. now left.
Qed.

Lemma single_dup_free names l :
  (forall k, In k names -> single l k) ->
  dup_free (filter (fun e => known names (fst e)) l).
Proof.
  intros S. unfold dup_free. induction l as [|[a b] r IH]; [constructor|].
  assert (Sr : forall k, In k names -> single r k).
  { intros k Hk pre v mid w post ->. exact (S k Hk ((a, b) :: pre) v mid w post eq_refl). }
  specialize (IH Sr). cbn [filter fst]. destruct (known names a) eqn:Ka; [|exact IH].
  cbn. constructor; [|exact IH]. intros Hin. apply in_map_iff in Hin.
  destruct Hin as [[a' w] [E Hin]]. cbn in E. subst a'. apply filter_In in Hin. destruct Hin as [Hin _].
  apply in_split in Hin. destruct Hin as [m [p ->]].
  apply known_In in Ka. exact (S a Ka [] b m w p eq_refl).
Qed.

Lemma visit_iff names : forall l seen rest s r, dup_free seen ->
  (visit names seen rest l = Some (s, r) <->
   s = seen ++ filter (fun e => known names (fst e)) l /\ r = rest ++ others names l
   /\ dup_free (seen ++ filter (fun e => known names (fst e)) l)).
Proof.
  induction l as [|[k v] l IH]; intros seen rest s r D; cbn [visit filter others fst].
  - rewrite !app_nil_r. split; [intros H; injection H as <- <-; auto|intros [-> [-> _]]; reflexivity].
  - destruct (known names k) eqn:Kk; cbn [negb].
    + destruct (lookup k seen) as [w|] eqn:E.
      * split; [discriminate|]. intros [_ [_ F]]. exfalso. apply lookup_in in E.
        apply in_split in E. destruct E as [a [b ->]].
        apply (dup_free_single _ k F a w b v (filter (fun e => known names (fst e)) l)).
        rewrite <- app_assoc. reflexivity.
      * rewrite IH.
        -- rewrite <- app_assoc. reflexivity.
        -- unfold dup_free. rewrite map_app. cbn. apply NoDup_Add with (a := k) (l := map fst seen).
           ++ replace (map fst seen ++ [k]) with (map fst seen ++ k :: []) by reflexivity.
              pose proof (Add_app k (map fst seen) []) as A. rewrite app_nil_r in A. exact A.
           ++ split; [exact D|]. intros Hin. apply in_map_iff in Hin. destruct Hin as [[k' w] [Ek Hin]].
              cbn in Ek. subst k'. exact (proj1 (lookup_none k seen) E w Hin).
    + rewrite IH by exact D. rewrite <- app_assoc. reflexivity.
Qed.

Lemma visit_spec names l s r :
  visit names [] [] l = Some (s, r) <->
  s = filter (fun e => known names (fst e)) l /\ r = others names l
  /\ forall k, In k names -> single l k.
Proof.
  rewrite visit_iff by constructor. cbn [app]. split.
  - intros [-> [-> D]]. repeat split; auto. intros k Hk.
    apply (single_filter (fun e => known names (fst e))); [intros v; now apply known_In|].
    now apply dup_free_single.
  - intros [-> [-> S]]. repeat split; auto. now apply single_dup_free.
Qed.

Lemma lookup_seen names (l : fields) k : In k names ->
  lookup k (filter (fun e => known names (fst e)) l) = lookup k l.
Proof. intros H. apply lookup_filter. intros v. now apply known_In. Qed.

Lemma tag_iff tag l v rest :
  take_tag tag l = Some (v, rest) <-> tagged l tag v /\ rest = others [tag] l.
Proof.
  unfold take_tag, tagged. split.
  - destruct (visit [tag] [] [] l) as [[s r]|] eqn:E; [|discriminate].
    apply visit_spec in E. destruct E as [Es [Er S]].
    destruct s as [|[k w] [|]]; try discriminate. intros H. injection H as <- <-.
    assert (Hin : In (k, w) (filter (fun e => known [tag] (fst e)) l)) by (rewrite <- Es; now left).
    apply filter_In in Hin. destruct Hin as [Hin Kn]. cbn [fst] in Kn. apply known_In in Kn.
    destruct Kn as [<-|[]]. split; [|exact Er]. split; [apply S; now left|exact Hin].
  - intros [[S Hin] ->].
    assert (E : visit [tag] [] [] l =
                Some (filter (fun e => known [tag] (fst e)) l, others [tag] l)).
    { apply visit_spec. repeat split; auto. intros k [<-|[]]. exact S. }
    rewrite E.
    assert (Hf : In (tag, v) (filter (fun e => known [tag] (fst e)) l)).
    { apply filter_In. split; [exact Hin|]. apply known_In. now left. }
    assert (D : dup_free (filter (fun e => known [tag] (fst e)) l)).
    { apply single_dup_free. intros k [<-|[]]. exact S. }
    assert (A : forall e, In e (filter (fun e => known [tag] (fst e)) l) -> fst e = tag).
    { intros e He. apply filter_In in He. destruct He as [_ He]. apply known_In in He.
      destruct He as [<-|[]]. reflexivity. }
    clear E. destruct (filter (fun e => known [tag] (fst e)) l) as [|[a b] q]; [destruct Hf|].
    pose proof (A (a, b) (or_introl eq_refl)) as Ea. cbn in Ea. subst a.
    destruct q as [|[a2 b2] q].
    + destruct Hf as [E|[]]. injection E as ->. reflexivity.
    + exfalso. pose proof (A (a2, b2) (or_intror (or_introl eq_refl))) as Ea. cbn in Ea. subst a2.
      inversion D as [|x y N _ E]. apply N. now left.
Qed.

(** ** Reading fields *)

(** [conv] reads exactly what [R] describes. *)
Definition exactly {A} (conv : doc -> option A) (R : doc -> A -> Prop) : Prop :=
  forall v x, conv v = Some x <-> R v x.

Lemma required_iff {A} (conv : doc -> option A) R l k x :
  exactly conv R -> single l k -> (required conv k l = Some x <-> has l k R x).
Proof.
  intros Ex S. unfold required, has, obnd. split.
  - destruct (lookup k l) as [v|] eqn:E; [|discriminate]. intros H. exists v.
    split; [now apply lookup_in|now apply Ex].
  - intros [v [Hin HR]]. apply (lookup_single k v l S) in Hin. rewrite Hin. now apply Ex.
Qed.

Lemma optional_iff {A} (conv : doc -> option A) R l k o :
  exactly conv R -> conv DNull = None -> single l k ->
  (optional conv k l = Some o <-> may_have l k R o).
Proof.
  intros Ex Nn S. unfold optional, may_have, has. destruct o as [x|].
  - split.
    + destruct (lookup k l) as [v|] eqn:E; [|discriminate]. apply lookup_in in E.
      intros H. exists v. split; [exact E|].
      destruct v; try discriminate;
        match type of H with option_map _ ?c = _ => destruct c eqn:C end; try discriminate;
        injection H as ->; now apply Ex.
    + intros [v [Hin HR]]. apply (lookup_single k v l S) in Hin. rewrite Hin.
      apply Ex in HR. destruct v; try (rewrite HR; reflexivity). congruence.
  - split.
    + destruct (lookup k l) as [v|] eqn:E.
      * apply lookup_in in E. destruct v; try (intros; now right);
          match goal with |- option_map _ ?c = _ -> _ => destruct c; discriminate end.
      * intros _. left. exact (proj1 (lookup_none k l) E).
    + intros [H|H].
      * apply (proj2 (lookup_none k l)) in H. now rewrite H.
      * apply (lookup_single k DNull l S) in H. now rewrite H.
Qed.

(** ** Scalars *)

Lemma i32_exactly : exactly as_i32 int32.
Proof.
  intros v z. unfold as_i32, within, int32.
  destruct v as [| |[z'|]| | |]; try (split; [discriminate|intros [E _]; discriminate]).
  destruct ((-2147483648 <=? z')%Z && (z' <=? 2147483647)%Z) eqn:B.
  - apply andb_true_iff in B. destruct B as [B1 B2]. apply Z.leb_le in B1, B2.
    split; [intros H; injection H as ->; split; [reflexivity|lia]|intros [E _]; injection E as ->; reflexivity].
  - split; [discriminate|]. intros [E F]. injection E as ->.
    apply andb_false_iff in B. destruct B as [B|B]; apply Z.leb_gt in B; lia.
Qed.

Lemma i64_exactly : exactly as_i64 int64.
Proof.
  intros v z. unfold as_i64, within, int64.
  destruct v as [| |[z'|]| | |]; try (split; [discriminate|intros [E _]; discriminate]).
  destruct ((-9223372036854775808 <=? z')%Z && (z' <=? 9223372036854775807)%Z) eqn:B.
  - apply andb_true_iff in B. destruct B as [B1 B2]. apply Z.leb_le in B1, B2.
    split; [intros H; injection H as ->; split; [reflexivity|lia]|intros [E _]; injection E as ->; reflexivity].
  - split; [discriminate|]. intros [E F]. injection E as ->.
    apply andb_false_iff in B. destruct B as [B|B]; apply Z.leb_gt in B; lia.
Qed.

Lemma text_exactly : exactly as_text text.
Proof.
  intros v s. unfold as_text, text. destruct v; split; try discriminate; intros H; now injection H as ->.
Qed.

Lemma time_exactly time : exactly (as_time time) (instant time).
Proof.
  intros v t. unfold as_time, instant. destruct v as [| |n| | |];
    try (split; [discriminate|intros [m [E _]]; discriminate]).
  split; [intros H; injection H as <-; eauto|intros [m [E ->]]; injection E as ->; reflexivity].
Qed.

Lemma split_joined : forall s cur, joined (split_commas cur s) = cur ++ s /\ split_commas cur s <> [].
Proof.
  induction s as [|c r IH]; intros cur; cbn [split_commas].
  - cbn. rewrite app_nil_r. split; [reflexivity|discriminate].
  - destruct (N.eqb_spec c 44) as [->|N].
    + destruct (IH []) as [E NE]. split; [|discriminate]. 
      destruct (split_commas [] r) as [|p q]; [contradiction|].
      change (cur ++ of_string "," ++ joined (p :: q) = cur ++ 44%N :: r). rewrite E. reflexivity.
    + destruct (IH (cur ++ [c])) as [E NE]. split; [|exact NE]. rewrite E, <- app_assoc. reflexivity.
Qed.

Lemma split_no_comma : forall s cur, ~ In 44%N cur -> forall p, In p (split_commas cur s) -> ~ In 44%N p.
Proof.
  induction s as [|c r IH]; intros cur H p; cbn [split_commas].
  - intros [<-|[]]. exact H.
  - destruct (N.eqb_spec c 44) as [->|N].
    + intros [<-|Hp]; [exact H|]. apply (IH [] (fun F => F) p Hp).
    + apply IH. rewrite in_app_iff. intros [F|[F|[]]]; [exact (H F)|congruence].
Qed.

Lemma split_unique : forall l cur, l <> [] -> (forall p, In p l -> ~ In 44%N p) -> ~ In 44%N cur ->
  split_commas cur (joined l) = (cur ++ hd [] l) :: tl l.
Proof.
  induction l as [|p r IH]; intros cur NE H Hc; [contradiction|].
  assert (P : forall q cur t, ~ In 44%N q -> split_commas cur (q ++ t) = split_commas (cur ++ q) t).
  { clear. induction q as [|c q IH]; intros cur t Hq; [now rewrite app_nil_r|].
    cbn [app split_commas]. destruct (N.eqb_spec c 44) as [->|N]; [exfalso; apply Hq; now left|].
    rewrite IH by (intros F; apply Hq; now right). now rewrite <- app_assoc. }
  assert (Hp : ~ In 44%N p) by (apply H; now left).
  destruct r as [|p2 r].
  - cbn [joined hd tl]. rewrite <- (app_nil_r p) at 1. rewrite P by exact Hp. reflexivity.
  - change (joined (p :: p2 :: r)) with (p ++ 44%N :: joined (p2 :: r)). rewrite P by exact Hp.
    cbn [split_commas]. rewrite N.eqb_refl. cbn [hd tl]. f_equal.
    rewrite IH; [reflexivity|discriminate|intros q Hq; apply H; now right|intros []].
Qed.

Lemma categories_exactly : exactly as_categories categories.
Proof.
  intros v c. unfold as_categories, categories.
  assert (F : forall l, filter (fun p : str => negb (str_eqb p [])) l =
                        filter (fun p => match p with [] => false | _ => true end) l).
  { intros l. apply filter_ext. intros [|]; reflexivity. }
  split.
  - destruct v; try discriminate. cbn [as_text option_map]. intros H. injection H as <-.
    exists (split_commas [] s). destruct (split_joined s []) as [E NE]. split; [exact NE|].
    split; [rewrite E; reflexivity|]. split; [|apply F].
    apply split_no_comma. intros [].
  - intros [pieces [NE [-> [H ->]]]]. cbn [as_text option_map]. f_equal. rewrite F. f_equal.
    rewrite split_unique by (auto; intros []). destruct pieces; [contradiction|reflexivity].
Qed.

(** ** Stack traces *)

Lemma frame_id_iff v : as_frame_id v <> None <-> frame_id v.
Proof.
  unfold as_frame_id, frame_id, text. destruct v as [| |n|s| |].
  4:{ split; [intros _; left; eauto|discriminate]. }
  all: match goal with |- option_map _ (as_i64 ?d) <> None <-> _ =>
         destruct (as_i64 d) as [z|] eqn:E end.
  all: try (apply i64_exactly in E; split; [intros _; right; eauto|discriminate]).
  all: split; [intros F; exfalso; apply F; reflexivity|];
       intros [[s Es]|[z Hz]]; [discriminate|apply i64_exactly in Hz; congruence].
Qed.

Lemma all_some_iff {A B} (f : A -> option B) l :
  all_some f l <> None <-> forall x, In x l -> f x <> None.
Proof.
  induction l as [|a r IH]; cbn [all_some]; [split; [intros _ x []|discriminate]|].
  destruct (f a) as [b|] eqn:E; cbn [obnd].
  - destruct (all_some f r) as [bs|]; cbn [obnd].
    + split; [|discriminate]. intros _ x [<-|Hx]; [congruence|].
      apply IH; [discriminate|exact Hx].
    + split; [intros F; exfalso; now apply F|]. intros F _. apply (proj2 IH); [|reflexivity].
      intros x Hx. apply F. now right.
  - split; [intros F; exfalso; now apply F|]. intros F _. exact (F a (or_introl eq_refl) E).
Qed.

Lemma texts_iff v : as_list as_text v <> None <-> texts v.
Proof.
  unfold as_list, texts. destruct v; try (split; [intros F; exfalso; now apply F|];
    intros [l' [E _]]; discriminate).
  rewrite all_some_iff. split.
  - intros H. exists l. split; [reflexivity|]. intros x Hx. specialize (H x Hx).
    destruct (as_text x) as [s|] eqn:E; [|contradiction]. apply text_exactly in E. eauto.
  - intros [l' [E H]]. injection E as <-. intros x Hx. destruct (H x Hx) as [s Hs].
    apply text_exactly in Hs. congruence.
Qed.

Lemma stack_iff id inline l o : id <> inline ->
  (stack_trace id inline l = o <-> stack_is id inline l o).
Proof.
  intros Nid. unfold stack_is.
  assert (Fn : forall (pre : fields) e post, (forall x, In x pre -> known [id; inline] (fst x) = false) ->
                 find (fun e => known [id; inline] (fst e)) (pre ++ e :: post) =
                 if known [id; inline] (fst e) then Some e
                 else find (fun e => known [id; inline] (fst e)) post).
  { induction pre as [|x r IH]; intros e post H; [reflexivity|]. cbn [app find].
    rewrite (H x (or_introl eq_refl)). apply IH. intros y Hy. apply H. now right. }
  assert (Hs : has_stack id inline l <-> stack_trace id inline l = Some 0%N).
  { unfold has_stack, stack_trace. split.
    - intros [pre [k [v [post [-> [A1 [A2 H]]]]]]]. rewrite Fn.
      + assert (K : known [id; inline] (fst (k, v)) = true).
        { apply known_In. cbn. destruct H as [[-> _]|[-> _]]; auto. }
        rewrite K. destruct H as [[-> H]|[-> H]].
        * rewrite str_eqb_refl. apply frame_id_iff in H. destruct (as_frame_id v); [reflexivity|contradiction].
        * destruct (str_eqb_spec inline id) as [E|_]; [congruence|].
          apply texts_iff in H. destruct (as_list as_text v); [reflexivity|contradiction].
      + intros [a b] Hin. apply known_not. cbn [fst]. intros [<-|[<-|[]]]; [exact (A1 b Hin)|exact (A2 b Hin)].
    - destruct (find (fun e => known [id; inline] (fst e)) l) as [[k v]|] eqn:E; [|discriminate].
      assert (S : exists pre post, l = pre ++ (k, v) :: post
                    /\ (forall x, In x pre -> known [id; inline] (fst x) = false)
                    /\ known [id; inline] k = true).
      { clear - E. induction l as [|x r IH]; cbn [find] in E; [discriminate|].
        destruct (known [id; inline] (fst x)) eqn:K.
        - injection E as ->. exists [], r. repeat split; [intros y []|exact K].
        - destruct (IH E) as [pre [post [-> [H K']]]]. exists (x :: pre), post. repeat split; auto.
          intros y [<-|Hy]; [exact K|exact (H y Hy)]. }
      destruct S as [pre [post [-> [H K]]]]. intros Ht. exists pre, k, v, post.
      split; [reflexivity|].
      split; [|split].
      + intros w Hin. apply H in Hin. apply known_not in Hin. apply Hin. now left.
      + intros w Hin. apply H in Hin. apply known_not in Hin. apply Hin. right. now left.
      + apply known_In in K. destruct K as [<-|[<-|[]]].
        * left. split; [reflexivity|]. rewrite str_eqb_refl in Ht. apply frame_id_iff.
          destruct (as_frame_id v); [discriminate|cbn in Ht; discriminate].
        * right. split; [reflexivity|]. destruct (str_eqb_spec inline id) as [F|_]; [congruence|].
          apply texts_iff. destruct (as_list as_text v); [discriminate|cbn in Ht; discriminate]. }
  rewrite Hs. assert (Z : stack_trace id inline l = Some 0%N \/ stack_trace id inline l = None).
  { unfold stack_trace. destruct (find _ l) as [[k v]|]; [|now right].
    destruct (str_eqb k id); [destruct (as_frame_id v)|destruct (as_list as_text v)]; cbn; auto. }
  split.
  - intros <-. destruct Z as [-> | ->]; [now left|]. right. split; [discriminate|reflexivity].
  - intros [[E ->]|[E ->]]; [exact E|]. destruct Z as [Z|Z]; [contradiction|exact Z].
Qed.

Lemma stack_others id inline names l :
  ~ In id names -> ~ In inline names ->
  stack_trace id inline (others names l) = stack_trace id inline l.
Proof.
  intros A B. unfold stack_trace.
  assert (E : find (fun e => known [id; inline] (fst e)) (others names l) =
              find (fun e => known [id; inline] (fst e)) l).
  { induction l as [|[a b] r IH]; [reflexivity|]. unfold others. cbn [filter find fst].
    destruct (known [id; inline] a) eqn:K.
    - apply known_In in K.
      assert (Kn : known names a = false).
      { apply known_not. destruct K as [<-|[<-|[]]]; assumption. }
      rewrite Kn. cbn [negb find fst]. apply known_In in K. now rewrite K.
    - destruct (known names a); cbn [negb find fst]; [|rewrite K]; exact IH. }
  now rewrite E.
Qed.

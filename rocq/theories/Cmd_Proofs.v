(** Proofs about the compilation database. *)
From Coq Require Import NArith ZArith String.
From Verif Require Import Base Asylum_Model Cmd_Model Cmd_Spec.
Local Open Scope list_scope.
Local Open Scope nat_scope.

Lemma component_eqb_eq a b : component_eqb a b = true <-> a = b.
Proof.
  destruct a, b; simpl; split; intros H; try discriminate; try reflexivity.
  - apply str_eqb_eq in H. congruence.
  - injection H as <-. apply str_eqb_refl.
Qed.
Lemma components_eqb_eq a b : components_eqb a b = true <-> a = b.
Proof.
  revert b. induction a as [|x a IH]; destruct b as [|y b]; simpl; split; intros H; try discriminate; try reflexivity.
  - apply andb_true_iff in H. destruct H as [H1 H2]. apply component_eqb_eq in H1. apply IH in H2. congruence.
  - injection H as <- <-. apply andb_true_iff. split; [apply component_eqb_eq; easy|apply IH; easy].
Qed.
Lemma path_eqb_eq p q : path_eqb p q = true <-> same_path p q.
Proof. apply components_eqb_eq. Qed.
Lemma path_eqb_spec p q : reflect (same_path p q) (path_eqb p q).
Proof. apply iff_reflect. symmetry. apply path_eqb_eq. Qed.

(** *** Maps *)
Definition keys_ok (db : database) : Prop :=
  (forall k e, In (k, e) db -> same_path k (e_file e)) /\
  NoDup (map (fun ke => path_components (fst ke)) db).

Lemma insert_none db k e db' : map_insert db k e = (db', None) ->
  db' = db ++ [(k, e)] /\ forall k' e', In (k', e') db -> ~ same_path k' k.
Proof.
  revert db'. induction db as [|[k0 e0] db IH]; intros db' H; simpl in H.
  - injection H as <-. split; [easy|intros k' e' []].
  - destruct (path_eqb_spec k0 k) as [Hs|Hs]; [discriminate|].
    destruct (map_insert db k e) as [r old] eqn:E. injection H as <- ->.
    destruct (IH r eq_refl) as [-> H]. split; [easy|].
    intros k' e' [Hin|Hin]; [injection Hin as <- <-; easy|eapply H; eassumption].
Qed.
Lemma insert_some db k e db' old : map_insert db k e = (db', Some old) ->
  exists a k0 b, db = a ++ (k0, old) :: b /\ db' = a ++ (k0, e) :: b /\ same_path k0 k.
Proof.
  revert db'. induction db as [|[k0 e0] db IH]; intros db' H; simpl in H; [discriminate|].
  destruct (path_eqb_spec k0 k) as [Hs|Hs].
  - injection H as <- <-. exists [], k0, db. easy.
  - destruct (map_insert db k e) as [r o] eqn:E. injection H as <- ->.
    destruct (IH r eq_refl) as (a & k1 & b & -> & -> & Hk). exists ((k0, e0) :: a), k1, b. easy.
Qed.
Lemma NoDup_snoc {A} (l : list A) x : NoDup l -> ~ In x l -> NoDup (l ++ [x]).
Proof.
  intros H Hx. induction H as [|y l Hy H IH]; simpl; [constructor; [easy|constructor]|].
  constructor.
  - rewrite in_app_iff. intros [H'|[->|[]]]; [easy|]. apply Hx. left. easy.
  - apply IH. intros H'. apply Hx. right. easy.
Qed.
Lemma insert_keys db e : keys_ok db -> keys_ok (fst (map_insert db (e_file e) e)).
Proof.
  intros [H1 H2]. destruct (map_insert db (e_file e) e) as [db' [old|]] eqn:E; simpl.
  - apply insert_some in E. destruct E as (a & k0 & b & -> & -> & Hk). split.
    + intros k e' Hin. apply in_app_iff in Hin. destruct Hin as [Hin|[Hin|Hin]].
      * apply H1, in_app_iff. auto.
      * injection Hin as <- <-. easy.
      * apply H1, in_app_iff. right. right. easy.
    + rewrite map_app in *. exact H2.
  - apply insert_none in E. destruct E as [-> Hno]. split.
    + intros k e' Hin. apply in_app_iff in Hin. destruct Hin as [Hin|[Hin|[]]]; [apply H1; easy|].
      injection Hin as <- <-. easy.
    + rewrite map_app. apply NoDup_snoc; [easy|]. intros Hin. apply in_map_iff in Hin.
      destruct Hin as ([k' e'] & Hk & Hin). eapply Hno; [exact Hin|]. exact Hk.
Qed.
Lemma from_entries_snoc l e : from_entries (l ++ [e]) = fst (map_insert (from_entries l) (e_file e) e).
Proof. unfold from_entries. rewrite fold_left_app. easy. Qed.
Lemma push_insert db e db' : db_push db e = Ret db' -> db' = fst (map_insert db (e_file e) e).
Proof.
  unfold db_push. destruct (map_insert db (e_file e) e) as [d [old|]]; intros H; [discriminate|].
  injection H as <-. easy.
Qed.
Lemma reach_keys db : db_reach db -> keys_ok db.
Proof.
  induction 1 as [l|db e db' H IH Hp].
  - induction l as [|e l IH] using rev_ind; [split; [intros k e []|constructor]|].
    rewrite from_entries_snoc. apply insert_keys. easy.
  - apply push_insert in Hp. subst db'. apply insert_keys. easy.
Qed.

Lemma entry_in db p e : keys_ok db ->
  db_entry db p = Some e <-> In e (db_entries db) /\ same_path (e_file e) p.
Proof.
  intros [H1 H2]. unfold db_entry, db_entries. induction db as [|[k e0] db IH]; simpl.
  - split; [discriminate|intros [[] _]].
  - assert (Hk : same_path k (e_file e0)) by (apply H1; left; easy).
    simpl in H2. apply NoDup_cons_iff in H2. destruct H2 as [Hn H2].
    assert (Hno : forall e', In e' (map snd db) -> same_path (e_file e') p -> ~ same_path k p).
    { intros e' Hin Hs Hkp. apply Hn. apply in_map_iff in Hin. destruct Hin as ([k' e''] & Ee & Hin).
      simpl in Ee. subst e''. apply in_map_iff. exists (k', e'). split; [|easy].
      specialize (H1 k' e' (or_intror Hin)). unfold same_path in *. simpl. congruence. }
    destruct (path_eqb_spec k p) as [Hs|Hs].
    + split.
      * intros E. injection E as <-. split; [left; easy|]. unfold same_path in *. congruence.
      * intros [[->|Hin] Hp]; [easy|]. exfalso. eapply Hno; eassumption.
    + rewrite IH by (try (intros; apply H1; right; easy); easy). split.
      * intros [Hin Hp]. split; [right; easy|easy].
      * intros [[->|Hin] Hp]; [exfalso; apply Hs; unfold same_path in *; congruence|easy].
Qed.
Lemma insert_entries db e : keys_ok db -> forall e',
  In e' (db_entries (fst (map_insert db (e_file e) e))) <->
  e' = e \/ In e' (db_entries db) /\ ~ same_path (e_file e') (e_file e).
Proof.
  intros [H1 H2] e'. unfold db_entries.
  destruct (map_insert db (e_file e) e) as [db' [old|]] eqn:E; simpl.
  - apply insert_some in E. destruct E as (a & k0 & b & -> & -> & Hs).
    rewrite !map_app, !in_app_iff. cbn [map snd].
    assert (Hold : same_path (e_file old) (e_file e)).
    { assert (Ho : same_path k0 (e_file old)) by (apply H1, in_app_iff; right; left; easy).
      unfold same_path in *. congruence. }
    assert (Hother : forall x, In x (map snd a) \/ In x (map snd b) -> ~ same_path (e_file x) (e_file e)).
    { intros x Hx Hsx. rewrite map_app in H2. cbn [map] in H2. apply NoDup_remove_2 in H2. apply H2.
      rewrite <- map_app. apply in_map_iff.
      assert (Hin : exists k, In (k, x) (a ++ b)).
      { destruct Hx as [Hx|Hx]; apply in_map_iff in Hx; destruct Hx as ([k y] & Hy & Hx); simpl in Hy; subst y;
          exists k; apply in_app_iff; auto. }
      destruct Hin as (k & Hin). exists (k, x). split; [|easy]. cbn [fst].
      assert (Hkx : same_path k (e_file x)).
      { apply H1. apply in_app_iff in Hin. apply in_app_iff. destruct Hin; [auto|right; right; easy]. }
      unfold same_path in *. congruence. }
    split.
    + intros [Hx|[Hx|Hx]]; [right|left; easy|right].
      * split; [auto|]. apply Hother. auto.
      * split; [right; right; easy|]. apply Hother. auto.
    + intros [He|[[Hx|[Hx|Hx]] Hn]]; [right; left; easy|left; easy|rewrite <- Hx in Hn; easy|right; right; easy].
  - apply insert_none in E. destruct E as [-> Hno]. rewrite map_app, in_app_iff. cbn [map snd].
    split.
    + intros [Hx|[Hx|[]]]; [right|left; easy]. split; [easy|]. apply in_map_iff in Hx.
      destruct Hx as ([k y] & Hy & Hx). simpl in Hy. subst y. intros Hs. eapply Hno; [exact Hx|].
      specialize (H1 k e' Hx). unfold same_path in *. congruence.
    + intros [->|[Hx _]]; auto. right. left. easy.
Qed.

Lemma last_for_snoc l e p e' : last_for (l ++ [e]) p e' <->
  (e' = e /\ same_path (e_file e) p) \/ (last_for l p e' /\ ~ same_path (e_file e) p).
Proof.
  split.
  - intros (l1 & l2 & E & Hs & Hno). destruct l2 as [|y l2 _] using rev_ind.
    + apply app_inj_tail in E. destruct E as [_ <-]. left. easy.
    + right. rewrite app_comm_cons, app_assoc in E. apply app_inj_tail in E. destruct E as [-> <-].
      split.
      * exists l1, l2. split; [easy|]. split; [easy|]. intros x Hx. apply Hno, in_app_iff. auto.
      * apply Hno, in_app_iff. right. left. easy.
  - intros [[-> Hs]|[(l1 & l2 & -> & Hs & Hno) Hn]].
    + exists l, []. split; [easy|]. split; [easy|intros x []].
    + exists l1, (l2 ++ [e]). split; [rewrite <- app_assoc; easy|]. split; [easy|].
      intros x Hx. apply in_app_iff in Hx. destruct Hx as [Hx|[<-|[]]]; auto.
Qed.
Lemma from_entries_in l e : In e (db_entries (from_entries l)) <-> last_for l (e_file e) e.
Proof.
  revert e. induction l as [|x l IH] using rev_ind; intros e.
  - split; [intros []|]. intros (l1 & l2 & E & _). destruct l1; discriminate.
  - rewrite from_entries_snoc, insert_entries by (apply reach_keys; constructor).
    rewrite IH, last_for_snoc. split.
    + intros [->|[H Hn]]; [left; easy|right]. split; [easy|].
      intros Hs. apply Hn. unfold same_path in *. congruence.
    + intros [[-> _]|[H Hn]]; [left; easy|right]. split; [easy|].
      intros Hs. apply Hn. unfold same_path in *. congruence.
Qed.

Theorem from_entries_lookup l p e : db_entry (from_entries l) p = Some e <-> last_for l p e.
Proof.
  rewrite entry_in by (apply reach_keys; constructor). rewrite from_entries_in. split.
  - intros [(l1 & l2 & E & _ & Hno) Hs]. exists l1, l2. split; [easy|]. split; [easy|].
    intros x Hx H. apply (Hno x Hx). unfold same_path in *. congruence.
  - intros (l1 & l2 & E & Hs & Hno). split; [|easy]. exists l1, l2. split; [easy|]. split; [easy|].
    intros x Hx H. apply (Hno x Hx). unfold same_path in *. congruence.
Qed.
Lemma last_exists l p : (exists e, In e l /\ same_path (e_file e) p) -> exists e, last_for l p e.
Proof.
  induction l as [|x l IH] using rev_ind; intros (e & Hin & Hs); [destruct Hin|].
  destruct (path_eqb_spec (e_file x) p) as [Hx|Hx].
  - exists x. apply last_for_snoc. left. easy.
  - destruct IH as (y & Hy).
    + exists e. split; [|easy]. apply in_app_iff in Hin. destruct Hin as [Hin|[->|[]]]; easy.
    + exists y. apply last_for_snoc. right. easy.
Qed.
Theorem from_entries_none l p : db_entry (from_entries l) p = None <->
  forall e, In e l -> ~ same_path (e_file e) p.
Proof.
  split.
  - intros H e Hin Hs. destruct (last_exists l p) as (y & Hy); [exists e; easy|].
    apply from_entries_lookup in Hy. congruence.
  - intros H. destruct (db_entry (from_entries l) p) as [e|] eqn:E; [|easy].
    apply from_entries_lookup in E. destruct E as (l1 & l2 & -> & Hs & _).
    exfalso. apply (H e); [apply in_app_iff; right; left; easy|easy].
Qed.
Theorem entries_distinct db : db_reach db ->
  NoDup (map (fun e => path_components (e_file e)) (db_entries db)) /\
  forall p e, db_entry db p = Some e <-> In e (db_entries db) /\ same_path (e_file e) p.
Proof.
  intros H. pose proof (reach_keys db H) as Hk. split; [|intros; apply entry_in; easy].
  destruct Hk as [H1 H2]. unfold db_entries. rewrite map_map.
  erewrite map_ext_in; [exact H2|]. intros [k e] Hin. simpl. symmetry. apply H1. easy.
Qed.
Theorem push_ok db e : db_reach db ->
  (db_push db e = Panic <-> exists e', In e' (db_entries db) /\ same_path (e_file e') (e_file e)) /\
  forall db', db_push db e = Ret db' ->
    (forall e', In e' (db_entries db') <-> e' = e \/ In e' (db_entries db)) /\
    length (db_entries db') = S (length (db_entries db)).
Proof.
  intros H. pose proof (reach_keys db H) as Hk. unfold db_push.
  destruct (map_insert db (e_file e) e) as [d [old|]] eqn:E; split.
  - split; [|easy]. intros _. apply insert_some in E. destruct E as (a & k0 & b & -> & -> & Hs).
    exists old. split; [unfold db_entries; rewrite map_app; apply in_app_iff; right; left; easy|].
    destruct Hk as [H1 _]. specialize (H1 k0 old ltac:(apply in_app_iff; right; left; easy)).
    unfold same_path in *. congruence.
  - discriminate.
  - split; [discriminate|]. intros (e' & Hin & Hs). exfalso. apply insert_none in E. destruct E as [_ Hno].
    unfold db_entries in Hin. apply in_map_iff in Hin. destruct Hin as ([k y] & Hy & Hin). simpl in Hy. subst y.
    apply (Hno k e' Hin). destruct Hk as [H1 _]. specialize (H1 k e' Hin). unfold same_path in *. congruence.
  - intros db' Hr. injection Hr as <-. apply insert_none in E. destruct E as [-> _].
    unfold db_entries. rewrite map_app. split.
    + intros e'. rewrite in_app_iff. simpl. split; [intros [Hx|[Hx|[]]]|intros [Hx|Hx]]; auto.
    + rewrite app_length. simpl. lia.
Qed.

(** *** Output path *)
Lemma skip_while_spec l : match skip_while (fun a => negb (str_eqb a dash_o)) l with
  | [] => ~ In dash_o l
  | x :: r => x = dash_o /\ exists before, l = before ++ dash_o :: r /\ ~ In dash_o before
  end.
Proof.
  induction l as [|x l IH]; simpl; [easy|]. destruct (str_eqb_spec x dash_o) as [->|Hne]; simpl.
  - split; [easy|]. exists []. easy.
  - destruct (skip_while _ l) as [|y r].
    + intros [H|H]; [easy|]. apply IH; easy.
    + destruct IH as [-> (b & -> & Hb)]. split; [easy|]. exists (x :: b). split; [easy|].
      intros [H|H]; [easy|]. apply Hb; easy.
Qed.
Lemma output_arg_iff e o : output_argument e o <->
  nth_error (skip_while (fun a => negb (str_eqb a dash_o)) (entry_args e)) 1 = Some o.
Proof.
  assert (Ha : output_argument e o <->
    exists before after, entry_args e = before ++ dash_o :: o :: after /\ ~ In dash_o before).
  { unfold output_argument, entry_args. change (of_string "-o") with dash_o. split.
    - intros (pr & b & a & -> & Hb). exists b, a. easy.
    - intros (b & a & E & Hb). destruct (e_words e) as [|pr w]; simpl in E; [destruct b; discriminate|].
      exists pr, b, a. subst w. easy. }
  rewrite Ha. clear Ha. pose proof (skip_while_spec (entry_args e)) as H.
  assert (Huniq : forall (b b' r r' : list str), b ++ dash_o :: r = b' ++ dash_o :: r' ->
            ~ In dash_o b -> ~ In dash_o b' -> b = b' /\ r = r').
  { induction b as [|x b IH]; intros [|y b'] r r' E Hb Hb'; simpl in E.
    - injection E as <-. easy.
    - injection E as E1 E2. exfalso. apply Hb'. left. easy.
    - injection E as E1 E2. exfalso. apply Hb. left. easy.
    - injection E as <- E. apply IH in E; [destruct E as [-> ->]; easy| |];
        intros Hin; [apply Hb|apply Hb']; right; easy. }
  destruct (skip_while _ (entry_args e)) as [|x r].
  - split; [|discriminate]. intros (b & a & E & _). exfalso. apply H. rewrite E.
    apply in_app_iff. right. left. easy.
  - destruct H as [-> (b & E & Hb)]. rewrite E. split.
    + intros (b' & a & E' & Hb'). apply Huniq in E'; [|easy|easy]. destruct E' as [_ ->]. easy.
    + intros H. destruct r as [|y r]; [discriminate|]. injection H as ->. exists b, r. easy.
Qed.

(** Joining paths *)
Lemma split_slash_nonempty s : split_slash s <> [].
Proof. destruct s as [|c s]; simpl; [discriminate|]. destruct (N.eqb c slash); [discriminate|]. destruct (split_slash s); discriminate. Qed.
Lemma split_slash_app a b : split_slash (a ++ slash :: b) = split_slash a ++ split_slash b.
Proof.
  induction a as [|c a IH]; simpl; [easy|]. destruct (N.eqb c slash); [rewrite IH; easy|].
  rewrite IH. pose proof (split_slash_nonempty a) as H. destruct (split_slash a); [easy|]. easy.
Qed.
Lemma filter_some_app {A} (a b : list (option A)) : filter_some (a ++ b) = filter_some a ++ filter_some b.
Proof. induction a as [|[x|] a IH]; simpl; rewrite ?IH; easy. Qed.
Definition body (o : str) : list component := filter_some (map segment_component (split_slash o)).
Lemma body_not_cur o : filter (fun c => negb (is_cur_dir c)) (body o) = body o /\ ~ In RootDir (body o).
Proof.
  unfold body. induction (split_slash o) as [|s l [IH1 IH2]]; [easy|]. cbn [map filter_some].
  destruct (segment_component s) as [c|] eqn:E; [|easy].
  assert (Hc : is_cur_dir c = false /\ c <> RootDir).
  { unfold segment_component in E. destruct s as [|x s]; [discriminate|].
    destruct (is_dot (x :: s)); [discriminate|]. destruct (is_dotdot (x :: s)); injection E as <-; easy. }
  destruct Hc as [Hc1 Hc2]. cbn [filter]. rewrite Hc1. cbn [negb]. rewrite IH1. split; [easy|].
  intros [H|H]; [apply Hc2; easy|apply IH2; easy].
Qed.
Lemma components_relative o : path_has_root o = false ->
  filter (fun c => negb (is_cur_dir c)) (path_components o) = body o /\ ~ In RootDir (path_components o) /\
  (path_components o = body o \/ path_components o = CurDir :: body o).
Proof.
  intros H. unfold path_components. rewrite H. fold (body o). destruct (body_not_cur o) as [H1 H2].
  destruct (split_slash o) as [|s l]; [auto|]. destruct (is_dot s); [|auto]. simpl. rewrite H1.
  split; [easy|]. split; [|auto]. intros [E|E]; easy.
Qed.
Lemma components_join dir o : dir <> [] ->
  path_components (dir ++ slash :: o) = path_components dir ++ body o /\ path_components dir <> [].
Proof.
  intros Hd. unfold path_components.
  assert (Hr : path_has_root (dir ++ slash :: o) = path_has_root dir) by (destruct dir; easy).
  rewrite Hr, split_slash_app, map_app, filter_some_app. fold (body o). 
  destruct (path_has_root dir) eqn:E; [split; [reflexivity|discriminate]|].
  pose proof (split_slash_nonempty dir) as Hs. destruct (split_slash dir) as [|s l] eqn:Es; [easy|].
  cbn [app map]. destruct (is_dot s) eqn:Ed; [split; [reflexivity|discriminate]|]. split; [reflexivity|]. cbn [filter_some].
  unfold segment_component. destruct s as [|c s].
  - destruct dir as [|c dir]; [easy|]. simpl in E, Es. rewrite E in Es. destruct (split_slash dir); discriminate.
  - rewrite Ed. destruct (is_dotdot (c :: s)); discriminate.
Qed.

Lemma last_normal (l : list component) name : file_name l = Some name <-> exists par, l = par ++ [Normal name].
Proof.
  unfold file_name. destruct l as [|x l _] using rev_ind.
  - simpl. split; [discriminate|]. intros (par & E). destruct par; discriminate.
  - rewrite rev_app_distr. simpl. split.
    + destruct x; try discriminate. intros E. injection E as ->. exists l. easy.
    + intros (par & E). apply app_inj_tail in E. destruct E as [_ ->]. easy.
Qed.

Lemma push_normal p name : path_push p [Normal name] = p ++ [Normal name].
Proof. destruct p; easy. Qed.

Theorem output_ok canon e : e_directory e <> [] ->
  (forall o, e_output e = Some o -> entry_output canon e = Some (path_components o)) /\
  (e_output e = None ->
     forall p, entry_output canon e = Some p <->
       exists o name par, output_argument e o /\ (exists par', path_components o = par' ++ [Normal name]) /\
         path_components (seen_from (e_directory e) o) = par ++ [Normal name] /\
         p = match canon par with Some d => d ++ [Normal name] | None => par ++ [Normal name] end).
Proof.
  intros Hdir. unfold entry_output. split; [intros o ->; easy|]. intros -> p.
  (* the parent of the output, as the code finds it *)
  assert (Hpar : forall o name par', path_components o = par' ++ [Normal name] ->
    path_components (seen_from (e_directory e) o) =
    path_push (path_components (e_directory e)) (parent_path (path_components o)) ++ [Normal name]).
  { intros o name par' Ho. unfold parent_path. rewrite Ho, removelast_last.
    destruct (components_join (e_directory e) o Hdir) as [Hj Hne].
    destruct (path_has_root o) eqn:Er.
    - assert (Hs : seen_from (e_directory e) o = o).
      { destruct o as [|c o]; [discriminate|]. simpl in *. rewrite Er. easy. }
      rewrite Hs, Ho. f_equal. unfold path_components in Ho. rewrite Er in Ho.
      destruct par' as [|y par']; [discriminate|]. injection Ho as <- _. easy.
    - assert (Hs : seen_from (e_directory e) o = e_directory e ++ slash :: o).
      { destruct o as [|c o]; [easy|]. simpl in *. rewrite Er. easy. }
      rewrite Hs, Hj. destruct (components_relative o Er) as (Hf & Hnr & _).
      rewrite Ho in Hf, Hnr. rewrite filter_app in Hf. simpl in Hf. rewrite <- Hf, app_assoc. f_equal.
      destruct (path_components (e_directory e)) as [|y d]; [easy|]. unfold path_push.
      destruct par' as [|z par']; [simpl; rewrite app_nil_r; easy|]. destruct z; try easy.
      exfalso. apply Hnr. left. easy. }
  destruct (nth_error _ 1) as [o|] eqn:E.
  - apply output_arg_iff in E. cbv zeta.
    assert (Hu : forall o', output_argument e o' -> o' = o).
    { intros o' H. apply output_arg_iff in H, E. congruence. }
    destruct (file_name (path_components o)) as [name|] eqn:En.
    + apply last_normal in En. destruct En as (par' & Ho). rewrite push_normal.
      specialize (Hpar o name par' Ho).
      split.
      * intros H. injection H as <-. exists o, name. eexists. split; [easy|]. split; [exists par'; exact Ho|].
        split; [exact Hpar|]. destruct (canon _); easy.
      * intros (o' & name' & par & Ho' & (par1 & H1) & H2 & ->). apply Hu in Ho'. subst o'.
        rewrite Hpar in H2. apply app_inj_tail in H2. destruct H2 as [<- E']. injection E' as <-. destruct (canon _); easy.
    + split; [discriminate|]. intros (o' & name' & par & Ho & Hn & _). apply Hu in Ho. subst o'.
      apply last_normal in Hn. congruence.
  - split; [discriminate|]. intros (o & name & par & Ho & _). apply output_arg_iff in Ho. congruence.
Qed.

(** *** Freshness *)
Lemma check_inputs_ok query now product inputs time :
  (forall p, In p inputs -> query p = MTime (time p)) ->
  check_inputs query now product inputs =
  if existsb (fun p => (product <? time p)%Z) inputs then IoOk Outdated
  else IoOk (MaybeOutdated (if (product <=? now)%Z then Some (now - product)%Z else None)).
Proof.
  induction inputs as [|i inputs IH]; intros H; simpl; [easy|].
  rewrite (H i) by (left; easy). destruct (product <? time i)%Z; [easy|].
  apply IH. intros p Hp. apply H. right. easy.
Qed.
Theorem freshness_ok query now inputs output time product :
  times query inputs time -> query output = MTime product ->
  (product_freshness query now inputs output = IoOk Outdated <->
     exists p, (p = db_location \/ In p inputs) /\ (product < time p)%Z) /\
  ((forall p, p = db_location \/ In p inputs -> (time p <= product)%Z) ->
     ((product <= now)%Z -> product_freshness query now inputs output = IoOk (MaybeOutdated (Some (now - product)%Z))) /\
     ((now < product)%Z -> product_freshness query now inputs output = IoOk (MaybeOutdated None))).
Proof.
  intros Ht Ho. unfold product_freshness. rewrite Ho, (Ht db_location) by (left; easy).
  rewrite (check_inputs_ok query now product inputs time) by (intros p Hp; apply Ht; right; easy).
  split.
  - destruct (Z.ltb_spec product (time db_location)) as [H|H].
    + split; [|easy]. intros _. exists db_location. auto.
    + destruct (existsb _ inputs) eqn:E.
      * split; [|easy]. intros _. apply existsb_exists in E. destruct E as (p & Hp & Hl).
        exists p. split; [auto|]. apply Z.ltb_lt. easy.
      * split; [discriminate|]. intros (p & [->|Hp] & Hl); [lia|]. exfalso.
        apply not_true_iff_false in E. apply E, existsb_exists. exists p. split; [easy|]. apply Z.ltb_lt. easy.
  - intros Hall.
    destruct (Z.ltb_spec product (time db_location)) as [H|H].
    { specialize (Hall db_location (or_introl eq_refl)). lia. }
    destruct (existsb _ inputs) eqn:E.
    { apply existsb_exists in E. destruct E as (p & Hp & Hl). apply Z.ltb_lt in Hl.
      specialize (Hall p (or_intror Hp)). lia. }
    split; intros Hn; f_equal; f_equal.
    + destruct (Z.leb_spec product now); [easy|lia].
    + destruct (Z.leb_spec product now); [lia|easy].
Qed.
Theorem freshness_missing query now inputs output :
  (product_freshness query now inputs output = IoOk Nonexistent <-> query output = MNotFound) /\
  (query output = MError -> product_freshness query now inputs output = IoErr).
Proof.
  unfold product_freshness.
  assert (Hc : forall p, check_inputs query now p inputs <> IoOk Nonexistent).
  { intros p. induction inputs as [|i l IH]; simpl; [discriminate|].
    destruct (query i); try discriminate. destruct (p <? t)%Z; [discriminate|easy]. }
  split.
  - destruct (query output); try easy. destruct (query db_location); try easy.
    destruct (t <? t0)%Z; try easy. split; [|easy]. intros H. exfalso. eapply Hc. exact H.
  - intros ->. easy.
Qed.
(** An error is only reported because some query failed. *)
Theorem freshness_error query now inputs output :
  product_freshness query now inputs output = IoErr ->
  query output = MError \/ exists p, (p = db_location \/ In p inputs) /\ forall t, query p <> MTime t.
Proof.
  unfold product_freshness. destruct (query output) as [product| |]; auto; [|discriminate].
  destruct (query db_location) as [t| |] eqn:E.
  - destruct (product <? t)%Z; [discriminate|]. intros H. right.
    induction inputs as [|i l IH]; simpl in H; [discriminate|].
    destruct (query i) as [t'| |] eqn:Ei.
    + destruct (product <? t')%Z; [discriminate|]. destruct (IH H) as (p & [->|Hp] & Hq).
      * exists db_location. auto.
      * exists p. split; [right; right; easy|easy].
    + exists i. split; [right; left; easy|]. intros t'. congruence.
    + exists i. split; [right; left; easy|]. intros t'. congruence.
  - intros _. right. exists db_location. split; [auto|]. intros t. congruence.
  - intros _. right. exists db_location. split; [auto|]. intros t. congruence.
Qed.

(** A failing query is reported unless something was already found to be outdated. *)
Theorem freshness_error_conv query now inputs output product :
  query output = MTime product ->
  (exists p, (p = db_location \/ In p inputs) /\ forall t, query p <> MTime t) ->
  product_freshness query now inputs output = IoErr \/
  product_freshness query now inputs output = IoOk Outdated /\
    exists p t, (p = db_location \/ In p inputs) /\ query p = MTime t /\ (product < t)%Z.
Proof.
  intros Ho (p & Hp & Hq). unfold product_freshness. rewrite Ho.
  destruct (query db_location) as [t| |] eqn:E; [|left; easy|left; easy].
  destruct (Z.ltb_spec product t) as [Hl|Hl].
  { right. split; [easy|]. exists db_location, t. auto. }
  destruct Hp as [->|Hp]; [congruence|].
  induction inputs as [|i l IH]; [destruct Hp|]. cbn [check_inputs].
  destruct (query i) as [t'| |] eqn:Ei; [|left; easy|left; easy].
  destruct (Z.ltb_spec product t') as [Hl'|Hl'].
  { right. split; [easy|]. exists i, t'. split; [right; left; easy|easy]. }
  destruct Hp as [->|Hp]; [congruence|]. destruct (IH Hp) as [H|(H & p' & t'' & Hp' & H')]; [left; easy|right].
  split; [easy|]. exists p', t''. split; [|easy]. destruct Hp' as [->|Hp']; [auto|right; right; easy].
Qed.

(** *** Prompts *)
Theorem prompt_ok f manual :
  (from_freshness f manual = None <->
     exists age, f = MaybeOutdated age /\ (manual = true \/ exists d, age = Some d /\ (d < 60 * ns_per_s)%Z)) /\
  (f = Nonexistent -> from_freshness f manual = Some NewProfile) /\
  (f = Outdated -> from_freshness f manual = Some StaleProfile).
Proof.
  split; [|split; intros ->; easy].
  destruct f as [| |[d|]]; simpl.
  - split; [discriminate|intros (age & H & _); discriminate].
  - split; [discriminate|intros (age & H & _); discriminate].
  - destruct (Z.ltb_spec 0 (d / ns_per_s / 60)) as [H|H], manual; simpl.
    + split; [|easy]. intros _. exists (Some d). auto.
    + split; [discriminate|]. intros (age & E & [H'|(d' & Hd & Hlt)]); [discriminate|].
      injection E as <-. injection Hd as <-. exfalso. unfold ns_per_s in *.
      rewrite Z.div_div in H by lia. pose proof (Z.div_lt_upper_bound d (1000000000 * 60) 1 ltac:(lia) ltac:(lia)). lia.
    + split; [|easy]. intros _. exists (Some d). auto.
    + split; [|easy]. intros _. exists (Some d). split; [easy|]. right. exists d. split; [easy|].
      unfold ns_per_s in *. rewrite Z.div_div in H by lia.
      pose proof (Z.mul_succ_div_gt d (1000000000 * 60) ltac:(lia)). lia.
  - destruct manual; simpl.
    + split; [|easy]. intros _. exists None. auto.
    + split; [discriminate|]. intros (age & E & [H'|(d' & Hd & Hlt)]); [discriminate|].
      injection E as <-. discriminate.
Qed.

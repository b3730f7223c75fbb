(** Proofs about paths of units. *)
From Coq Require Import String.
From Verif Require Import Base Asylum_Model Asylum_Spec Asylum_Proofs4.
From Verif Require Import Cpp_Lex_Model Cmd_Model Cmd_Spec Cmd_Proofs Shell_Model Locate_Model Locate_Spec.
Local Open Scope nat_scope.
Local Open Scope bool_scope.
Local Open Scope list_scope.
Local Notation length := List.length.

(** ** realpath *)
Lemma seg_none s : segment_component s = None <-> s = [] \/ s = of_string ".".
Proof.
  unfold segment_component. destruct s as [|c s]; [tauto|]. unfold is_dot, is_dotdot.
  destruct (str_eqb_spec (c :: s) [dot]) as [E|N]; [rewrite E; cbn; tauto|].
  split; [destruct (str_eqb (c :: s) [dot; dot]); discriminate|]. intros [X|X]; [discriminate|contradiction].
Qed.
Lemma seg_up s : segment_component s = Some ParentDir <-> s = of_string "..".
Proof.
  unfold segment_component. destruct s as [|c s]; [split; discriminate|]. unfold is_dot, is_dotdot.
  destruct (str_eqb_spec (c :: s) [dot]) as [E|N]; [rewrite E; split; discriminate|].
  destruct (str_eqb_spec (c :: s) [dot; dot]) as [E|N2]; [rewrite E; split; reflexivity|].
  split; [discriminate|]. intros X. contradiction.
Qed.
Lemma seg_normal s : s <> [] -> s <> of_string "." -> s <> of_string ".." -> segment_component s = Some (Normal s).
Proof.
  intros A B C. unfold segment_component. destruct s as [|c s]; [contradiction|]. unfold is_dot, is_dotdot.
  destruct (str_eqb_spec (c :: s) [dot]) as [E|N]; [contradiction|].
  destruct (str_eqb_spec (c :: s) [dot; dot]) as [E|N2]; [contradiction|]. reflexivity.
Qed.
Lemma seg_cases s : (s = [] \/ s = of_string ".") \/ s = of_string ".." \/ (s <> [] /\ s <> of_string "." /\ s <> of_string "..").
Proof.
  destruct (list_eq_dec N.eq_dec s []); [tauto|]. destruct (list_eq_dec N.eq_dec s (of_string ".")); [tauto|].
  destruct (list_eq_dec N.eq_dec s (of_string "..")); tauto.
Qed.

Lemma resolve_walk k fs : resolve k fs = walk (match k with O => fun _ _ => None | S k' => resolve k' fs end) fs.
Proof. destruct k; reflexivity. Qed.

Lemma resolve_leads fs : forall k d segs p, resolve k fs d segs = Some p -> exists n, n <= k /\ leads fs n d segs p.
Proof.
  induction k as [k IHk] using lt_wf_ind. intros d segs. rewrite resolve_walk. revert d.
  induction segs as [|s segs IH]; intros d p; cbn [walk].
  - intros E. injection E as <-. exists 0. split; [lia|constructor].
  - destruct (fs d) as [[| |t]|] eqn:Hd; try discriminate.
    destruct (seg_cases s) as [Hs|[Hs|(H1 & H2 & H3)]].
    + rewrite (proj2 (seg_none s) Hs). intros E. destruct (IH _ _ E) as (n & Hn & L).
      exists n. split; [exact Hn|]. now constructor.
    + rewrite (proj2 (seg_up s) Hs). intros E. destruct (IH _ _ E) as (n & Hn & L).
      exists n. split; [exact Hn|]. subst s. now constructor.
    + rewrite (seg_normal s H1 H2 H3). destruct (fs (d ++ [s])) as [[| |t]|] eqn:Hn.
      * intros E. destruct (IH _ _ E) as (n & Hk & L). exists n. split; [exact Hk|]. apply leads_down; auto.
      * intros E. destruct (IH _ _ E) as (n & Hk & L). exists n. split; [exact Hk|]. apply leads_down; auto.
      * destruct k as [|k]; [discriminate|]. intros E. destruct (IHk k (Nat.lt_succ_diag_r k) _ _ _ E) as (n & Hk & L).
        exists (S n). split; [lia|]. eapply leads_link; eauto.
      * discriminate.
Qed.
Lemma leads_resolve fs n d segs p : leads fs n d segs p -> forall k, n <= k -> resolve k fs d segs = Some p.
Proof.
  induction 1 as [d|n d s segs p Hd Hs L IH|n d segs p Hd L IH|n d s segs p Hd H1 H2 H3 Hn L IH|n d s t segs p Hd H1 H2 H3 Hn L IH];
    intros k Hk; rewrite resolve_walk; cbn [walk]; [reflexivity| | | |]; rewrite Hd.
  - rewrite (proj2 (seg_none s) Hs). rewrite <- resolve_walk. auto.
  - rewrite (proj2 (seg_up (of_string "..")) eq_refl). rewrite <- resolve_walk. auto.
  - rewrite (seg_normal s H1 H2 H3). destruct Hn as [-> | ->]; rewrite <- resolve_walk; auto.
  - rewrite (seg_normal s H1 H2 H3), Hn. destruct k as [|k]; [lia|]. apply IH. lia.
Qed.

Lemma canonicalize_iff links fs cwd text p :
  canonicalize links fs (Some cwd) text = Some p <-> names_place links fs cwd text p.
Proof.
  unfold canonicalize, names_place. destruct text as [|c text]; [split; [discriminate|intros [X _]; now destruct X]|].
  destruct (path_has_root (c :: text)); (split; [intros E; split; [discriminate|]; now apply resolve_leads|
    intros (_ & n & Hn & L); now apply (leads_resolve _ _ _ _ _ L)]).
Qed.

(** ** Dropping segments that do nothing *)
Inductive thinner : list str -> list str -> Prop :=
| th_nil : thinner [] []
| th_keep s a b : thinner a b -> thinner (s :: a) (s :: b)
| th_drop s a b : s = [] \/ s = of_string "." -> thinner a b -> thinner (s :: a) b.
Lemma thinner_refl a : thinner a a.
Proof. induction a; now constructor. Qed.
Lemma thinner_app c a b : thinner a b -> thinner (c ++ a) (c ++ b).
Proof. intros H. induction c; cbn; [exact H|now constructor]. Qed.

Lemma leads_thin fs n d segs p : leads fs n d segs p -> forall segs', thinner segs segs' -> leads fs n d segs' p.
Proof.
  induction 1 as [d|n d s segs p Hd Hs L IH|n d segs p Hd L IH|n d s segs p Hd H1 H2 H3 Hn L IH|n d s t segs p Hd H1 H2 H3 Hn L IH];
    intros segs' T; inversion T as [|s' a b T'|s' a b Hs' T']; subst.
  - constructor.
  - constructor; auto.
  - auto.
  - apply leads_up; auto.
  - destruct Hs'; discriminate.
  - apply leads_down; auto.
  - exfalso. destruct Hs'; contradiction.
  - eapply leads_link; eauto. apply IH. now apply thinner_app.
  - exfalso. destruct Hs'; contradiction.
Qed.

(** ** Components and segments *)
Definition seg_strs (segs : list str) : list str := map component_str (filter_some (map segment_component segs)).
Lemma seg_strs_thin segs : thinner segs (seg_strs segs).
Proof.
  unfold seg_strs. induction segs as [|s segs IH]; cbn [map filter_some]; [constructor|].
  destruct (seg_cases s) as [Hs|[Hs|(H1 & H2 & H3)]].
  - rewrite (proj2 (seg_none s) Hs). now constructor.
  - rewrite (proj2 (seg_up s) Hs). cbn [map filter_some component_str]. subst s. constructor. exact IH.
  - rewrite (seg_normal s H1 H2 H3). cbn [map component_str]. constructor. exact IH.
Qed.

Definition real_comp (c : component) : Prop :=
  match c with ParentDir => True | Normal s => real_name s | _ => False end.
Lemma body_real segs : Forall (fun s => ~ In slash s) segs -> Forall real_comp (filter_some (map segment_component segs)).
Proof.
  induction segs as [|s segs IH]; intros H; cbn [map filter_some]; [constructor|]. inversion H as [|? ? Hs Hr]; subst.
  destruct (seg_cases s) as [X|[X|(H1 & H2 & H3)]].
  - rewrite (proj2 (seg_none s) X). auto.
  - rewrite (proj2 (seg_up s) X). constructor; [exact I|auto].
  - rewrite (seg_normal s H1 H2 H3). constructor; [|auto]. repeat split; assumption.
Qed.

Lemma abs_components p : path_has_root p = true ->
  exists body, path_components p = RootDir :: body /\ Forall real_comp body /\ thinner (split_slash p) (map component_str body).
Proof.
  intros H. unfold path_components. rewrite H. eexists. split; [reflexivity|]. split.
  - apply body_real. apply split_slash_no_slash.
  - apply seg_strs_thin.
Qed.

(** Text of a list of components *)
Lemma real_comp_str c : real_comp c -> component_str c <> [] /\ ~ In slash (component_str c).
Proof.
  destruct c; cbn; try tauto.
  - intros _. split; [discriminate|]. intros [X|[X|[]]]; discriminate.
  - intros (A & _ & _ & B). tauto.
Qed.
Lemma no_slash_root (s : str) : ~ In slash s -> path_has_root s = false.
Proof. destruct s as [|c s]; [reflexivity|]. intros H. cbn. apply N.eqb_neq. intros ->. apply H. now left. Qed.

Lemma push_split : forall l (b : str), b <> [] -> ends_with_slash b = false ->
  Forall (fun s : str => s <> [] /\ ~ In slash s) l ->
  split_slash (fold_left pathbuf_push l b) = split_slash b ++ l /\ fold_left pathbuf_push l b <> [] /\
  path_has_root (fold_left pathbuf_push l b) = path_has_root b.
Proof.
  induction l as [|s l IH]; intros b Hb He H; cbn [fold_left].
  - now rewrite app_nil_r.
  - inversion H as [|? ? [Hs1 Hs2] Hr]; subst.
    assert (E : pathbuf_push b s = b ++ slash :: s).
    { unfold pathbuf_push. rewrite (no_slash_root s Hs2). destruct b; [contradiction|]. rewrite He. reflexivity. }
    rewrite E. destruct (IH (b ++ slash :: s)) as (A & B & C); [now destruct b| |exact Hr|].
    + change (b ++ slash :: s) with (b ++ [slash] ++ s). rewrite app_assoc. now apply ends_with_slash_app.
    + split; [|split; [exact B|]].
      * rewrite A, split_slash_app, (split_one s Hs2), <- app_assoc. reflexivity.
      * rewrite C. destruct b; [contradiction|reflexivity].
Qed.
Lemma comps_split comps : Forall real_comp comps -> comps <> [] ->
  let t := fold_left pathbuf_push (map component_str comps) [] in
  split_slash t = map component_str comps /\ t <> [] /\ path_has_root t = false.
Proof.
  intros H Hn. destruct comps as [|c comps]; [contradiction|]. cbn [map fold_left].
  inversion H as [|? ? Hc Hr]; subst. destruct (real_comp_str c Hc) as [A B].
  assert (E : pathbuf_push [] (component_str c) = component_str c).
  { unfold pathbuf_push. rewrite (no_slash_root _ B). reflexivity. }
  rewrite E. destruct (push_split (map component_str comps) (component_str c)) as (X & Y & Z).
  - exact A.
  - exact (ends_with_slash_app [] _ A B).
  - apply Forall_map. eapply Forall_impl; [|exact Hr]. intros a Ha. now apply real_comp_str.
  - rewrite X, Z, (split_one _ B). split; [reflexivity|]. split; [exact Y|]. now apply no_slash_root.
Qed.

(** ** pathdiff *)
Lemma component_eqb_ok a b : component_eqb a b = true <-> a = b.
Proof.
  destruct a, b; cbn; split; intros H; try discriminate; try reflexivity.
  - destruct (str_eqb_spec s s0); congruence.
  - injection H as ->. destruct (str_eqb_spec s0 s0); congruence.
Qed.
Lemma diff_up b : Forall (fun c => exists s, c = Normal s) b -> diff_loop true [] b = Some (repeat ParentDir (length b)).
Proof. induction 1 as [|c b _ _ IH]; [reflexivity|]. cbn [diff_loop List.length repeat]. rewrite IH. reflexivity. Qed.
Lemma diff_loop_real : forall b a, Forall (fun c => exists s, c = Normal s) b ->
  exists common ra rb, a = common ++ ra /\ b = common ++ rb /\ (ra = [] -> rb = [] -> a = b) /\
    diff_loop false a b = Some (repeat ParentDir (length rb) ++ ra).
Proof.
  induction b as [|y b IH]; intros a H.
  - exists [], a, []. destruct a; repeat split; auto.
  - inversion H as [|? ? Hy Hb]; subst. destruct a as [|x a].
    + exists [], [], (y :: b). split; [reflexivity|]. split; [reflexivity|]. split; [discriminate|].
      cbn [diff_loop List.length repeat]. rewrite (diff_up b Hb), app_nil_r. reflexivity.
    + cbn [diff_loop negb andb]. destruct (component_eqb x y) eqn:E.
      * apply component_eqb_ok in E. subst x. destruct (IH a Hb) as (c & ra & rb & -> & -> & X & Y).
        exists (y :: c), ra, rb. repeat split; auto. intros P Q. now rewrite (X P Q).
      * destruct Hy as [s ->]. exists [], (x :: a), (Normal s :: b). repeat split; [discriminate|].
        f_equal. cbn [List.length repeat app]. f_equal. f_equal. clear. induction b as [|z b IHb]; [reflexivity|].
        cbn. now f_equal.
Qed.

(** The text of an absolute path *)
Lemma path_text_components d : Forall real_name d -> path_components (path_text d) = RootDir :: map Normal d /\ path_has_root (path_text d) = true.
Proof.
  intros H. assert (G : forall l, Forall real_name l -> split_slash (join_names l) = [] :: l).
  { induction l as [|s l IH]; intros Hl; [reflexivity|]. inversion Hl as [|? ? (A & B & C & D) Hr]; subst.
    cbn [join_names split_slash]. rewrite N.eqb_refl. f_equal. destruct l as [|t l].
    - cbn [join_names]. rewrite app_nil_r. now apply split_one.
    - cbn [join_names]. rewrite split_slash_app, (split_one _ D). cbn [app]. f_equal.
      specialize (IH Hr). cbn [join_names split_slash] in IH. rewrite N.eqb_refl in IH. congruence. }
  assert (F : forall l, Forall real_name l -> filter_some (map segment_component l) = map Normal l).
  { induction 1 as [|s l (A & B & C & D) _ IH]; [reflexivity|]. cbn [map filter_some].
    rewrite (seg_normal s A B C). now f_equal. }
  destruct d as [|s d]; [split; reflexivity|]. unfold path_text. split; [|reflexivity].
  unfold path_components. rewrite (G _ H). cbn [join_names path_has_root]. rewrite N.eqb_refl.
  cbn [map segment_component filter_some]. f_equal. exact (F _ H).
Qed.

(** ** Going up and down *)
Lemma real_directory_prefix fs d e : real_directory fs (d ++ e) -> real_directory fs d.
Proof.
  intros [A B]. apply Forall_app in A as [A _]. split; [exact A|]. intros k.
  specialize (B (Nat.min k (length d))). rewrite firstn_app in B.
  replace (Nat.min k (length d) - length d) with 0 in B by lia. cbn [firstn] in B. rewrite app_nil_r in B.
  destruct (Nat.le_gt_cases k (length d)) as [L|L].
  - now rewrite Nat.min_l in B by lia.
  - rewrite Nat.min_r in B by lia. rewrite firstn_all in B. now rewrite firstn_all2 by lia.
Qed.
Lemma real_directory_is fs d : real_directory fs d -> fs d = Some Directory.
Proof. intros [_ B]. specialize (B (length d)). now rewrite firstn_all in B. Qed.

Lemma go_up fs n segs p : forall r d, real_directory fs (d ++ r) -> leads fs n d segs p ->
  leads fs n (d ++ r) (map component_str (repeat ParentDir (length r)) ++ segs) p.
Proof.
  induction r as [|x r IH] using rev_ind; intros d H L.
  - cbn. now rewrite app_nil_r.
  - rewrite app_length. cbn [List.length]. rewrite Nat.add_1_r. cbn [repeat map app component_str].
    apply leads_up; [now apply real_directory_is|]. rewrite app_assoc, removelast_last. apply IH; [|exact L].
    rewrite app_assoc in H. now apply real_directory_prefix in H.
Qed.
Lemma down fs : forall e n d segs p, real_directory fs (d ++ e) ->
  leads fs n d (e ++ segs) p -> leads fs n (d ++ e) segs p.
Proof.
  induction e as [|x e IH]; intros n d segs p H L; [now rewrite app_nil_r|].
  change (x :: e) with ([x] ++ e). rewrite app_assoc. apply IH; [now rewrite <- app_assoc|].
  assert (Hx : real_directory fs (d ++ [x])).
  { apply (real_directory_prefix fs _ e). now rewrite <- app_assoc. }
  pose proof (real_directory_is _ _ Hx) as Dx. destruct Hx as [Hx _]. apply Forall_app in Hx as [_ Hx].
  inversion Hx as [|? ? (A & B & C & D) _]; subst. cbn [app] in L.
  inversion L as [|? ? ? ? ? ? Hs L'|? ? ? ? ? L'|? ? ? ? ? ? ? ? ? ? L'|? ? ? ? ? ? ? ? ? ? Y L']; subst.
  - exfalso. destruct Hs; contradiction.
  - now destruct C.
  - exact L'.
  - congruence.
Qed.

(** ** The path of a unit names the input *)
Lemma normal_prefix : forall (d : list str) (common : list component) rb, map Normal d = common ++ rb ->
  exists c r, common = map Normal c /\ rb = map Normal r /\ d = c ++ r.
Proof.
  induction d as [|s d IH]; intros common rb E.
  - destruct common; [|discriminate]. destruct rb; [|discriminate]. now exists [], [].
  - destruct common as [|x common]; cbn in E.
    + subst rb. exists [], (s :: d). auto.
    + injection E as <- E. destruct (IH _ _ E) as (c & r & -> & -> & ->). exists (s :: c), r. auto.
Qed.
Lemma map_normal_str c : map component_str (map Normal c) = c.
Proof. induction c; cbn; congruence. Qed.

Lemma unit_path_body links fs cwd input body p n : real_directory fs cwd -> path_has_root input = true ->
  path_components input = RootDir :: body -> Forall real_comp body ->
  leads fs n [] (map component_str body) p -> n <= links -> p <> cwd ->
  names_place links fs cwd (unit_path (Some cwd) input) p.
Proof.
  intros Hc Hr Eb Rb T Hn Hp.
  destruct (path_text_components cwd (proj1 Hc)) as [Ec Hrc].
  unfold unit_path, diff_paths. rewrite Hr, Hrc, Eb, Ec. cbn [Bool.eqb diff_loop component_eqb negb andb].
  assert (HN : Forall (fun c => exists s, c = Normal s) (map Normal cwd)).
  { apply Forall_map. apply Forall_forall. intros s _. now exists s. }
  destruct (diff_loop_real (map Normal cwd) body HN) as (common & ra & rb & -> & E & X & ->).
  cbn [option_map]. destruct (normal_prefix _ _ _ E) as (c & r & -> & -> & ->).
  rewrite map_app, map_normal_str in T. rewrite map_length. apply Forall_app in Rb as [_ Rb].
  assert (L1 : leads fs n c (map component_str ra) p).
  { apply (down fs c n [] _ _); [exact (real_directory_prefix _ _ _ Hc)|]. exact T. }
  assert (NE : repeat ParentDir (length r) ++ ra <> []).
  { intros Z. apply app_eq_nil in Z as [Z1 Z2]. destruct r; [|discriminate]. subst ra. inversion L1; subst.
    apply Hp. now rewrite app_nil_r. }
  assert (RR : Forall real_comp (repeat ParentDir (length r) ++ ra)).
  { apply Forall_app. split; [|exact Rb]. apply Forall_forall. intros z Hz. apply repeat_spec in Hz. now subst z. }
  destruct (comps_split _ RR NE) as (S1 & S2 & S3). split; [exact S2|]. exists n. split; [exact Hn|].
  rewrite S3, S1, map_app. now apply go_up.
Qed.

Theorem unit_path_same links fs cwd input p : real_directory fs cwd -> path_has_root input = true ->
  names_place links fs cwd input p -> p <> cwd -> names_place links fs cwd (unit_path (Some cwd) input) p.
Proof.
  intros Hc Hr (Hne & n & Hn & L) Hp. rewrite Hr in L.
  destruct (abs_components input Hr) as (body & Eb & Rb & T).
  apply (leads_thin _ _ _ _ _ L) in T. now apply (unit_path_body links fs cwd input body p n).
Qed.

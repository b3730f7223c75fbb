(** Proofs about the trace of a unit. *)
From Coq Require Import String.
From Verif Require Import Base Asylum_Model Asylum_Spec Asylum_Proofs4.
From Verif Require Import Cpp_Lex_Model Cpp_Lex_Spec Cpp_Lex_Proofs4 Cmd_Model Cmd_Spec Cmd_Proofs Cmd_Properties.
From Verif Require Import Shell_Model Locate_Model Locate_Spec Locate_Proofs.
Local Open Scope nat_scope.
Local Open Scope bool_scope.
Local Open Scope list_scope.
Local Notation length := List.length.

(** ** Components and text *)
Definition path_ok (l : list component) : Prop :=
  match l with RootDir :: b | CurDir :: b => Forall real_comp b | b => Forall real_comp b end.

Lemma path_components_ok p : path_ok (path_components p).
Proof.
  pose proof (body_real (split_slash p) (split_slash_no_slash p)) as B. unfold path_components.
  destruct (path_has_root p); [exact B|].
  assert (G : path_ok (filter_some (map segment_component (split_slash p)))).
  { destruct (filter_some _) as [|[| | |s] l]; auto; now inversion B. }
  destruct (split_slash p) as [|s l]; [exact G|]. destruct (is_dot s); [exact B|exact G].
Qed.

Lemma body_strs b : Forall real_comp b -> filter_some (map segment_component (map component_str b)) = b.
Proof.
  induction 1 as [|c b Hc _ IH]; [reflexivity|]. cbn [map filter_some]. destruct c; cbn in Hc; try contradiction.
  - cbn [component_str]. rewrite (proj2 (seg_up [dot; dot]) eq_refl). now f_equal.
  - destruct Hc as (A & B & C & D). cbn [component_str]. rewrite (seg_normal s A B C). now f_equal.
Qed.
Lemma strs_ok b : Forall real_comp b -> Forall (fun s : str => s <> [] /\ ~ In slash s) (map component_str b).
Proof. intros H. apply Forall_map. eapply Forall_impl; [|exact H]. intros a Ha. now apply real_comp_str. Qed.

Lemma components_text_ok l : path_ok l -> path_components (components_text l) = l.
Proof.
  intros H. unfold components_text. destruct l as [|c b]; [reflexivity|].
  assert (Rel : forall l, Forall real_comp l -> l <> [] -> path_components (fold_left pathbuf_push (map component_str l) []) = l).
  { intros l Hl Hn. destruct (comps_split l Hl Hn) as (A & B & C). unfold path_components. rewrite C, A, body_strs by exact Hl.
    destruct l as [|x l]; [contradiction|]. cbn [map]. inversion Hl as [|? ? Hx _]; subst.
    replace (is_dot (component_str x)) with false; [reflexivity|]. destruct x; cbn in Hx; try contradiction; [reflexivity|].
    destruct Hx as (_ & X & _). cbn [component_str]. unfold is_dot. destruct (str_eqb_spec s [dot]); [contradiction|reflexivity]. }
  destruct c; cbn [path_ok] in H; [| |apply Rel; [exact H|discriminate]..]; clear Rel.
  - (* RootDir *)
    cbn [map fold_left component_str]. change (pathbuf_push [] [slash]) with [slash].
    destruct b as [|x b]; [reflexivity|]. cbn [map fold_left]. inversion H as [|? ? Hx Hb]; subst.
    destruct (real_comp_str x Hx) as [A B].
    assert (E : pathbuf_push [slash] (component_str x) = slash :: component_str x).
    { unfold pathbuf_push. rewrite (no_slash_root _ B). reflexivity. }
    rewrite E. destruct (push_split (map component_str b) (slash :: component_str x)) as (X & Y & Z).
    + discriminate.
    + exact (ends_with_slash_app [slash] _ A B).
    + now apply strs_ok.
    + unfold path_components. rewrite Z, X. cbn [path_has_root split_slash]. rewrite !N.eqb_refl, (split_one _ B).
      cbn [app map]. change (segment_component []) with (@None component). cbn [filter_some]. f_equal.
      exact (body_strs (x :: b) H).
  - (* CurDir *)
    cbn [map fold_left component_str]. change (pathbuf_push [] [dot]) with [dot].
    destruct (push_split (map component_str b) [dot]) as (X & Y & Z); [discriminate|reflexivity|now apply strs_ok|].
    unfold path_components. rewrite Z, X. change (path_has_root [dot]) with false. change (split_slash [dot]) with [[dot]].
    cbn [app map]. change (is_dot [dot]) with true. change (segment_component [dot]) with (@None component).
    cbn [filter_some]. now rewrite body_strs.
Qed.

Lemma path_ok_app p q : path_ok p -> p <> [] -> Forall real_comp q -> path_ok (p ++ q).
Proof.
  destruct p as [|[| | |s] p]; [easy|..]; intros H _ Hq; cbn [app path_ok] in *; try (apply Forall_app; auto).
  - inversion H; subst. constructor; [assumption|]. apply Forall_app; auto.
  - inversion H; subst. constructor; [assumption|]. apply Forall_app; auto.
Qed.
Lemma path_ok_real l : path_ok l -> Forall real_comp (filter (fun c => negb (is_cur_dir c)) (match l with RootDir :: b => b | _ => l end)).
Proof.
  intros H. assert (G : forall b, Forall real_comp b -> Forall real_comp (filter (fun c => negb (is_cur_dir c)) b)).
  { intros b Hb. apply Forall_forall. intros x Hx. apply filter_In in Hx as [Hx _]. exact (proj1 (Forall_forall _ _) Hb x Hx). }
  destruct l as [|[| | |s] l]; cbn [path_ok] in H; [constructor|auto|cbn; auto|apply (G (ParentDir :: l) H)|apply (G (Normal s :: l) H)].
Qed.
Lemma path_push_ok p q : path_ok p -> path_ok q -> path_ok (path_push p q).
Proof.
  intros Hp Hq. unfold path_push.
  assert (G : (forall b, q <> RootDir :: b) -> path_ok (match p with [] => q | _ => p ++ filter (fun c => negb (is_cur_dir c)) q end)).
  { intros Hn. destruct p as [|x p]; [exact Hq|]. apply path_ok_app; [exact Hp|discriminate|].
    pose proof (path_ok_real q Hq) as R. destruct q as [|[| | |s] q]; auto. now destruct (Hn q). }
  destruct q as [|[| | |s] q]; try (apply G; discriminate). exact Hq.
Qed.
Lemma forall_removelast {A} (P : A -> Prop) l : Forall P l -> Forall P (removelast l).
Proof.
  destruct l as [|x l] using rev_ind; [auto|]. rewrite removelast_last. intros H. now apply Forall_app in H.
Qed.
Lemma parent_ok l : path_ok l -> path_ok (parent_path l).
Proof.
  unfold parent_path. destruct l as [|c l]; [auto|]. destruct l as [|y l]; [constructor|].
  change (removelast (c :: y :: l)) with (c :: removelast (y :: l)). destruct c; cbn [path_ok]; intros H.
  - now apply forall_removelast.
  - now apply forall_removelast.
  - inversion H; subst. constructor; [assumption|]. now apply forall_removelast.
  - inversion H; subst. constructor; [assumption|]. now apply forall_removelast.
Qed.
Lemma file_name_ok l name : path_ok l -> file_name l = Some name -> real_name name.
Proof.
  unfold file_name. destruct l as [|c l] using rev_ind; [discriminate|]. rewrite rev_app_distr. cbn [rev app].
  destruct c as [| | |s]; intros H E; try discriminate. injection E as <-.
  assert (G : real_comp (Normal s)); [|exact G].
  assert (I : In (Normal s) (l ++ [Normal s])) by (apply in_or_app; right; now left).
  destruct (l ++ [Normal s]) as [|[| | |t] m] eqn:E; cbn [path_ok] in H.
  - destruct I.
  - destruct I as [X|I]; [discriminate|]. exact (proj1 (Forall_forall _ _) H _ I).
  - destruct I as [X|I]; [discriminate|]. exact (proj1 (Forall_forall _ _) H _ I).
  - exact (proj1 (Forall_forall _ _) H _ I).
  - exact (proj1 (Forall_forall _ _) H _ I).
Qed.

Lemma entry_output_ok links fs cwd e out :
  entry_output (canonical_components links fs cwd) e = Some out -> path_ok out.
Proof.
  unfold entry_output. destruct (e_output e) as [o|].
  - intros E. injection E as <-. apply path_components_ok.
  - destruct (nth_error _ 1) as [o|]; [|discriminate]. cbv zeta.
    destruct (file_name (path_components o)) as [name|] eqn:F; [|discriminate]. intros E.
    match type of E with Some ?x = _ => assert (Eo : out = x) by congruence end. rewrite Eo. clear E Eo.
    apply path_push_ok.
    + unfold canonical_components at 1. destruct (canonicalize links fs cwd _); cbn [option_map]; [apply path_components_ok|].
      apply path_push_ok; [apply path_components_ok|]. apply parent_ok. apply path_components_ok.
    + apply file_name_ok in F; [|apply path_components_ok]. constructor; [exact F|constructor].
Qed.

(** ** The name of the trace *)
Lemma before_last_dot_some : forall name b, before_last_dot name = Some b -> exists ext, name = b ++ dot :: ext /\ ~ In dot ext.
Proof.
  assert (N : forall name, before_last_dot name = None -> ~ In dot name).
  { induction name as [|c name IH]; [intros _ []|]. cbn [before_last_dot].
    destruct (before_last_dot name); [discriminate|]. destruct (N.eqb_spec c dot) as [->|Hc]; [discriminate|].
    intros _ [X|X]; [now apply Hc|]. now apply IH. }
  induction name as [|c name IH]; intros b; [discriminate|]. cbn [before_last_dot].
  destruct (before_last_dot name) as [b'|] eqn:E.
  - intros X. injection X as <-. destruct (IH b' eq_refl) as (ext & -> & H). now exists ext.
  - destruct (N.eqb_spec c dot) as [->|Hc]; [|discriminate]. intros X. injection X as <-. exists name. split; [reflexivity|]. now apply N.
Qed.
Lemma before_last_dot_none : forall name b ext, before_last_dot name = None -> name <> b ++ dot :: ext.
Proof.
  induction name as [|c name IH]; intros b ext; [destruct b; discriminate|]. cbn [before_last_dot].
  destruct (before_last_dot name); [discriminate|]. destruct (N.eqb_spec c dot) as [->|Hc]; [discriminate|].
  intros _ X. destruct b as [|y b]; injection X; intros; [contradiction|]. now apply (IH b ext).
Qed.
Lemma last_dot_unique (b b' ext ext' : str) : b ++ dot :: ext = b' ++ dot :: ext' -> ~ In dot ext -> ~ In dot ext' -> b = b'.
Proof.
  revert b'. induction b as [|x b IH]; intros [|y b'] E H H'; cbn in E.
  - reflexivity.
  - exfalso. apply H. injection E as E1 E2. rewrite E2. apply in_or_app. right. now left.
  - exfalso. apply H'. injection E as E1 E2. rewrite <- E2. apply in_or_app. right. now left.
  - injection E as -> E. f_equal. now apply IH.
Qed.
Lemma file_stem_name name : trace_name name (file_stem name ++ of_string ".json").
Proof.
  exists (file_stem name). split; [reflexivity|]. unfold file_stem. destruct (before_last_dot name) as [b|] eqn:E.
  - destruct (before_last_dot_some _ _ E) as (ext & Hn & Hx). destruct b as [|c b].
    + right. split; [reflexivity|]. intros b' ext' E' Hx'. rewrite Hn in E'. symmetry. now apply (last_dot_unique _ _ _ _ E').
    + left. split; [discriminate|]. now exists ext.
  - right. split; [reflexivity|]. intros b ext X. now apply before_last_dot_none in X.
Qed.
Lemma stem_real name : real_name name -> real_name (file_stem name ++ of_string ".json").
Proof.
  intros (A & B & C & D). assert (S : forall x, In x (file_stem name) -> In x name).
  { intros x. unfold file_stem. destruct (before_last_dot name) as [[|c b]|] eqn:E; auto.
    destruct (before_last_dot_some _ _ E) as (ext & -> & _). intros I. apply in_or_app. now left. }
  assert (L : forall s : str, length s < 5 -> file_stem name ++ of_string ".json" <> s).
  { intros s Hs E. subst s. rewrite app_length in Hs. cbn in Hs. lia. }
  repeat split; try (apply L; cbn; lia). intros I. apply in_app_or in I as [I|I]; [now apply D, S|].
  cbn in I. repeat (destruct I as [I|I]; [discriminate|]). destruct I.
Qed.
Lemma set_json_last par name : set_json (par ++ [Normal name]) = par ++ [Normal (file_stem name ++ of_string ".json")].
Proof. unfold set_json. rewrite rev_app_distr. cbn [rev app]. now rewrite rev_involutive. Qed.

Theorem trace_path links fs cwd e par name :
  entry_output (canonical_components links fs cwd) e = Some (par ++ [Normal name]) ->
  exists t, trace_name name t /\
    path_components (components_text (set_json (par ++ [Normal name]))) = par ++ [Normal t].
Proof.
  intros H. apply entry_output_ok in H. exists (file_stem name ++ of_string ".json"). split; [apply file_stem_name|].
  rewrite set_json_last. apply components_text_ok.
  destruct par as [|c par]; cbn [app path_ok] in *.
  - constructor; [|constructor]. inversion H; subst. now apply stem_real.
  - assert (G : forall l, Forall real_comp (l ++ [Normal name]) -> Forall real_comp (l ++ [Normal (file_stem name ++ of_string ".json")])).
    { intros l Hl. apply Forall_app in Hl as [X Y]. apply Forall_app. split; [exact X|]. constructor; [|constructor].
      inversion Y; subst. now apply stem_real. }
    destruct c; [now apply G|now apply G|inversion H; subst; constructor; [assumption|now apply G]..].
Qed.

(** ** Ages *)
Lemma shown_number (n : Z) : (0 <= n)%Z -> exists ds, show_int n = digits_text ds /\ are_digits ds /\ digits_value ds = n.
Proof.
  intros H. unfold show_int. destruct (Z.ltb_spec n 0) as [X|_]; [lia|]. destruct (shown_digits (Z.abs_N n)) as (ds & E & D & V).
  exists ds. cbn [app]. split; [exact E|]. split; [exact D|]. rewrite V. lia.
Qed.
Lemma age_shown d mins : (0 <= d)%Z -> from_freshness (MaybeOutdated (Some d)) false = Some (MaybeStaleProfile mins) ->
  exists t, age_text d t /\
    stale_question (MaybeStaleProfile mins) =
      of_string "There is an existing build profile from " ++ t ++ of_string " ago. Do you consider it up to date?".
Proof.
  intros Hd Hf. pose proof (C50_shown_age d mins Hd Hf) as H. unfold stale_question, age_text, seconds_ns. unfold ns_per_s in H.
  destruct (show_age mins) as [n|n|n].
  - destruct (shown_number n) as (ds & -> & D & V); [lia|]. exists (digits_text ds ++ of_string " day" ++ if (1 <? n)%Z then of_string "s" else []).
    split; [|now rewrite <- !app_assoc]. exists ds, n. split; [exact D|]. split; [exact V|]. right. right.
    destruct (Z.ltb_spec 1 n) as [L|L]; [right|left]; (split; [reflexivity|lia]).
  - destruct (shown_number n) as (ds & -> & D & V); [lia|]. exists (digits_text ds ++ of_string "h").
    split; [|now rewrite <- !app_assoc]. exists ds, n. split; [exact D|]. split; [exact V|]. right. left. split; [reflexivity|lia].
  - destruct (shown_number n) as (ds & -> & D & V); [lia|]. exists (digits_text ds ++ of_string "min").
    split; [|now rewrite <- !app_assoc]. exists ds, n. split; [exact D|]. split; [exact V|]. left. split; [reflexivity|lia].
Qed.

(** ** What is stored for a unit *)
Lemma diff_common : forall common ra rb : list str,
  (forall x a b, ra = x :: a -> rb = x :: b -> False) ->
  diff_loop false (map Normal (common ++ ra)) (map Normal (common ++ rb)) =
  Some (repeat ParentDir (length rb) ++ map Normal ra).
Proof.
  induction common as [|s common IH]; intros ra rb H.
  - cbn [app]. destruct rb as [|y rb]; [destruct ra; reflexivity|]. destruct ra as [|x ra].
    + cbn [map diff_loop List.length repeat]. rewrite app_nil_r, diff_up, map_length; [reflexivity|].
      apply Forall_map. apply Forall_forall. intros z _. now exists z.
    + cbn [map diff_loop negb andb component_eqb]. destruct (str_eqb_spec x y) as [->|Hn]; [now destruct (H y ra rb)|].
      cbn [List.length repeat app]. f_equal. f_equal. f_equal. clear. induction rb as [|z rb IHb]; [reflexivity|]. cbn. now f_equal.
  - cbn [app map diff_loop negb andb component_eqb]. destruct (str_eqb_spec s s) as [_|Hn]; [|now destruct Hn]. now apply IH.
Qed.
Theorem unit_path_stored input common ra rb :
  path_components input = RootDir :: map Normal (common ++ ra) -> path_has_root input = true ->
  Forall real_name (common ++ rb) -> (forall x a b, ra = x :: a -> rb = x :: b -> False) -> ra ++ rb <> [] ->
  path_components (unit_path (Some (common ++ rb)) input) = repeat ParentDir (length rb) ++ map Normal ra.
Proof.
  intros E Hr Hc Hd Hn. destruct (path_text_components _ Hc) as [Ec Hrc].
  unfold unit_path, diff_paths. rewrite Hr, Hrc, Ec, E. cbn [Bool.eqb diff_loop component_eqb negb andb].
  rewrite diff_common by exact Hd. cbn [option_map]. apply components_text_ok.
  pose proof (path_components_ok input) as Ok. rewrite E, map_app in Ok. cbn [path_ok] in Ok. apply Forall_app in Ok as [_ Ok].
  assert (G : Forall real_comp (repeat ParentDir (length rb) ++ map Normal ra)).
  { apply Forall_app. split; [|exact Ok]. apply Forall_forall. intros z Hz. apply repeat_spec in Hz. now subst z. }
  destruct (repeat ParentDir (length rb) ++ map Normal ra) as [|[| | |s] l]; try exact G; now inversion G.
Qed.

(** Proofs about the wizard. *)
From Coq Require Import String.
From Verif Require Import Base Asylum_Model Asylum_Spec Asylum_Proofs4.
From Verif Require Import Cpp_Lex_Model Cpp_Lex_Spec Cpp_Lex_Proofs4 Cmd_Model Cmd_Spec Cmd_Proofs Cmd_Properties.
From Verif Require Import Shell_Model Locate_Model Locate_Spec Locate_Proofs.
Local Open Scope nat_scope.
Local Open Scope bool_scope.
Local Open Scope list_scope.
Local Notation length := List.length.

(** ** Finding the entry *)
Lemma render_text p : render p = path_text p.
Proof.
  unfold render, path_text. destruct p as [|s p]; [reflexivity|]. cbn [join_names]. f_equal.
  revert s. induction p as [|t p IH]; intros s; [cbn; now rewrite app_nil_r|].
  change (join_slash (s :: t :: p)) with (s ++ slash :: join_slash (t :: p)). f_equal. cbn [join_names].
  f_equal. apply IH.
Qed.

Lemma real_file_not_dir fs p d : real_file fs p -> real_directory fs d -> p <> d.
Proof. intros (x & n & -> & _ & _ & F) H E. rewrite <- E in H. apply real_directory_is in H. congruence. Qed.

(** Down a real path *)
Lemma walk_down fs : forall e d, real_directory fs d -> Forall real_name e ->
  (forall k, 0 < k -> k < length e -> fs (d ++ firstn k e) = Some Directory) ->
  (e = [] \/ fs (d ++ e) = Some Directory \/ fs (d ++ e) = Some RegularFile) ->
  leads fs 0 d e (d ++ e).
Proof.
  induction e as [|s e IH]; intros d Hd He Hk Hl; [rewrite app_nil_r; constructor|].
  inversion He as [|? ? (A & B & C & D) He']; subst.
  apply leads_down; auto; [now apply real_directory_is| |].
  - destruct e as [|t e]; [destruct Hl as [X|X]; [discriminate|exact X]|]. left.
    apply (Hk 1); cbn; lia.
  - change (s :: e) with ([s] ++ e). rewrite app_assoc. destruct e as [|t e]; [rewrite app_nil_r; constructor|].
    assert (Ds : fs (d ++ [s]) = Some Directory) by (apply (Hk 1); cbn; lia).
    apply IH.
    + destruct Hd as [Hd1 Hd2]. split; [apply Forall_app; split; [exact Hd1|constructor; [repeat split; assumption|constructor]]|].
      intros k. destruct (Nat.le_gt_cases k (length d)) as [L|L].
      * rewrite firstn_app. replace (k - length d) with 0 by lia. cbn [firstn]. rewrite app_nil_r. apply Hd2.
      * rewrite firstn_all2 by (rewrite app_length; cbn; lia). exact Ds.
    + exact He'.
    + intros k H1 H2. rewrite <- app_assoc. cbn [app]. apply (Hk (S k)); cbn in *; lia.
    + destruct Hl as [X|X]; [discriminate|]. right. now rewrite <- app_assoc.
Qed.

Lemma real_file_leads fs p : real_file fs p -> leads fs 0 [] p p.
Proof.
  intros (d & n & -> & Hd & Hn & F). apply (walk_down fs (d ++ [n]) []).
  - apply (real_directory_prefix fs [] d). exact Hd.
  - apply Forall_app. split; [apply Hd|]. constructor; [exact Hn|constructor].
  - intros k _ Hk. cbn [app]. rewrite app_length in Hk. cbn in Hk. rewrite firstn_app.
    replace (k - length d) with 0 by lia. cbn [firstn]. rewrite app_nil_r. apply Hd.
  - right. right. exact F.
Qed.

Theorem real_unit_path links fs cwd input p : real_directory fs cwd -> real_file fs p ->
  path_components input = RootDir :: map Normal p -> names_place links fs cwd (unit_path (Some cwd) input) p.
Proof.
  intros Hc Hp E. assert (Hr : path_has_root input = true).
  { unfold path_components in E. destruct (path_has_root input); [reflexivity|].
    pose proof (body_real (split_slash input) (split_slash_no_slash input)) as B.
    destruct (split_slash input) as [|s l]; [discriminate|]. destruct (is_dot s); [discriminate|].
    rewrite E in B. inversion B as [|? ? X _]. destruct X. }
  apply (unit_path_body links fs cwd input (map Normal p) p 0); auto; [| |lia|].
  - apply Forall_map. destruct Hp as (d & n & -> & [Hd _] & Hn & _). apply Forall_app. split; [exact Hd|]. constructor; [exact Hn|constructor].
  - rewrite map_normal_str. now apply real_file_leads.
  - now apply (real_file_not_dir fs).
Qed.

Theorem wizard_place links fs cwd query now l clangpp g rel p : names_place links fs cwd rel p ->
  (forall e, last_for l (render p) e ->
     show_wizard links fs (Some cwd) query now (from_entries l) clangpp g rel =
     entry_wizard links fs (Some cwd) query now clangpp g e) /\
  ((forall e, In e l -> ~ same_path (e_file e) (render p)) ->
     show_wizard links fs (Some cwd) query now (from_entries l) clangpp g rel = UnknownUnit).
Proof.
  intros H. apply canonicalize_iff in H. unfold show_wizard. rewrite H, render_text. split.
  - intros e He. apply from_entries_lookup in He. now rewrite He.
  - intros He. apply from_entries_none in He. now rewrite He.
Qed.
Theorem wizard_no_place links fs cwd query now l clangpp g rel : (forall p, ~ names_place links fs cwd rel p) ->
  show_wizard links fs (Some cwd) query now (from_entries l) clangpp g rel = UnknownPath.
Proof.
  intros H. unfold show_wizard. destruct (canonicalize links fs (Some cwd) rel) eqn:E; [|reflexivity].
  apply canonicalize_iff in E. now destruct (H l0).
Qed.
Lemma last_for_same l p q e : same_path p q -> last_for l p e -> last_for l q e.
Proof.
  intros S (l1 & l2 & -> & H1 & H2). exists l1, l2. split; [reflexivity|]. unfold same_path in *. split; [congruence|].
  intros e' I. specialize (H2 e' I). congruence.
Qed.
Theorem measured_unit_found links fs cwd query now l clangpp g p e : real_directory fs cwd -> real_file fs p ->
  same_path (e_file e) (render p) -> last_for l (render p) e ->
  show_wizard links fs (Some cwd) query now (from_entries l) clangpp g (unit_path (Some cwd) (e_file e)) =
  entry_wizard links fs (Some cwd) query now clangpp g e.
Proof.
  intros Hc Hp Hs Hl. apply (wizard_place links fs cwd query now l clangpp g _ p); [|exact Hl].
  apply real_unit_path; auto. unfold same_path in Hs. rewrite Hs, render_text.
  apply path_text_components. destruct Hp as (d & n & -> & [Hd _] & Hn & _). apply Forall_app. split; [exact Hd|]. constructor; [exact Hn|constructor].
Qed.

(** The grammar satisfies [ok], given that its recursive calls do on shorter inputs. *)
From Coq Require Import Ascii String.
From Verif Require Asylum_Model.
From Verif Require Import Base Cpp_Lex_Model Cpp_Ast_Model Cpp_Parse_Model Cpp_Display_Spec
  Cpp_Display_Proofs2 Cpp_Parse_Spec Cpp_Parse_Proofs Cpp_Parse_Proofs2.
Local Open Scope nat_scope.
Local Open Scope bool_scope.
Local Open Scope list_scope.

Notation W f := (f is_identifier is_visible any any).
Notation wf f := (fun x => W f x = true).
Definition wfop (op : operator type_like) : Prop := op_all is_identifier (W type_all) op = true.
Definition wfopt {A} (f : A -> bool) (o : option A) : Prop := opt_all f o = true.

Lemma opt_post_all {A} (f : A -> bool) (o : option A) :
  opt_post (fun x => f x = true) o -> opt_all f o = true.
Proof. destruct o; auto. Qed.
Lemma Forall_all {A} (f : A -> bool) l : Forall (fun x => f x = true) l <-> forallb f l = true.
Proof. rewrite Forall_forall, forallb_forall. reflexivity. Qed.

Lemma ok_starts {A} n l (P : A -> Prop) c p p' q q' :
  ok n l P p p' -> ok n l P q q' ->
  ok n l P (fun s => if starts c s then p s else q s) (fun s => if starts c s then p' s else q' s).
Proof. intros Hp Hq s Hs. destruct (starts c s); auto. Qed.

Lemma ok_comma_sep n : ok n 2 T comma_sep comma_sep.
Proof.
  eapply ok_valueT. eapply ok_level.
  - eapply ok_and; [eapply ok_and; [apply ok_multispace0|apply ok_char]|apply ok_multispace0].
  - cbn; lia.
Qed.
Lemma ok_ws_then n c : ok n (chr_level (N_of_ascii c)) T (ws_then c) (ws_then c).
Proof.
  eapply ok_valueT. eapply ok_level; [eapply ok_and; [apply ok_multispace0|apply ok_char]|].
  unfold Nat.max. lia.
Qed.
Lemma ok_then_ws n c : ok n (chr_level (N_of_ascii c)) T (then_ws c) (then_ws c).
Proof.
  eapply ok_valueT. eapply ok_level; [eapply ok_and; [apply ok_char|apply ok_multispace0]|].
  lia.
Qed.

(** *** Source locations *)

Lemma split_slash_count p : List.length (Asylum_Model.split_slash p) <= S (pc p).
Proof.
  induction p as [|c p IH]; cbn [punctuation Asylum_Model.split_slash]; [cbn; lia|].
  destruct (N.eqb_spec c slash) as [->|Hne].
  - cbn [List.length]. change (is_punctuation slash) with true. cbv iota. lia.
  - destruct (Asylum_Model.split_slash p) as [|x l]; cbn [List.length] in *;
      destruct (is_punctuation c); lia.
Qed.
Lemma filter_some_count {A} (l : list (option A)) :
  List.length (Asylum_Model.filter_some l) <= List.length l.
Proof. induction l as [|[a|] l IH]; cbn; lia. Qed.
Lemma path_components_count p : List.length (Asylum_Model.path_components p) <= 2 + pc p.
Proof.
  unfold Asylum_Model.path_components. pose proof (split_slash_count p) as H.
  pose proof (filter_some_count (map Asylum_Model.segment_component (Asylum_Model.split_slash p))) as H'.
  rewrite map_length in H'. destruct (Asylum_Model.path_has_root p); cbn [List.length]; [lia|].
  destruct (Asylum_Model.split_slash p) as [|s l]; [lia|].
  destruct (Asylum_Model.is_dot s); cbn [List.length] in *; lia.
Qed.
Lemma path_push_count c acc : List.length (path_push acc c) <= S (List.length acc).
Proof.
  destruct c; cbn [path_push]; rewrite ?app_length; cbn [List.length]; try lia.
  destruct (Nat.ltb 1 (List.length acc)); [|lia].
  rewrite removelast_firstn_len, firstn_length. lia.
Qed.
Lemma path_fold_count cs acc :
  List.length (fold_left path_push cs acc) <= List.length acc + List.length cs.
Proof.
  revert acc. induction cs as [|c cs IH]; intros acc; cbn; [lia|].
  specialize (IH (path_push acc c)). pose proof (path_push_count c acc). lia.
Qed.

Lemma path_text_spec s :
  match path_text s with
  | POk r p => s = p ++ r /\ p <> []
  | PErr => True
  | _ => False
  end.
Proof.
  unfold path_text.
  set (after := match opt (pand anychar (pchar ":")) s with POk r _ => r | _ => s end).
  assert (Ha : exists u, s = u ++ after).
  { subst after. unfold opt, pand, anychar, satisfy, pchar.
    destruct s as [|c [|d s]]; try (now exists []). cbn [pbind].
    unfold satisfy. destruct (N.eqb (N_of_ascii ":") d); cbn [pbind]; [now exists [c; d]|now exists []]. }
  destruct Ha as [u Ha]. clearbody after.
  pose proof (span_spec (fun c => negb (N.eqb c (N_of_ascii ":"))) after) as (Hs & _).
  destruct (span _ after) as [[|c a] r]; auto. cbn [fst snd] in Hs.
  rewrite Ha, Hs. rewrite app_assoc.
  assert (E : len ((u ++ c :: a) ++ r) - len r = len (u ++ c :: a))
    by (rewrite (app_length _ r); lia).
  rewrite E.
  rewrite firstn_app, firstn_all, Nat.sub_diag. cbn [firstn]. rewrite app_nil_r.
  split; [reflexivity|]. destruct u; discriminate.
Qed.

Lemma loc_tail_no_panic r w :
  preceded (pchar ":") (separated_pair parse_u32 (pchar ":") parse_u32) r <> PPanic w.
Proof.
  unfold preceded, separated_pair, preceded, pmap, pand, pchar, satisfy.
  destruct r as [|c r]; cbn [pbind]; [discriminate|].
  destruct (N.eqb (N_of_ascii ":") c); cbn [pbind]; [|discriminate].
  pose proof (digits_ok in_u32 false r 0%Z false) as H. unfold parse_u32.
  destruct (digits_loop in_u32 false 0 false r) as [r1 z1| | |]; cbn [pbind]; try discriminate; try easy.
  destruct r1 as [|c1 r1]; cbn [pbind]; [discriminate|].
  destruct (N.eqb (N_of_ascii ":") c1); cbn [pbind]; [|discriminate].
  pose proof (digits_ok in_u32 false r1 0%Z false) as H1.
  destruct (digits_loop in_u32 false 0 false r1) as [r2 z2| | |]; cbn [pbind]; try discriminate; try easy.
Qed.

(** before the `at `, the only panic conditions are these *)
Definition loc_panic (w : panic_reason) (s : str) : Prop :=
  match w with
  | PRRelativePath => match s with c :: _ => c <> slash | [] => False end
  | w => may_panic w s
  end.

Lemma source_location_spec s :
  match parse_source_location s with
  | POk r a => (exists u, s = u ++ r) /\ len r < len s
  | PErr => True
  | PPanic w => loc_panic w s
  | PFuel => False
  end.
Proof.
  unfold parse_source_location, separated_pair at 1, pmap, pand at 1.
  pose proof (path_text_spec s) as H. destruct (path_text s) as [r p| |w|]; cbn [pbind]; auto; [|easy].
  destruct H as [-> Hp]. unfold intern_path.
  destruct (Asylum_Model.path_is_relative p) eqn:Er; cbn [pbind].
  - cbn [loc_panic]. destruct p as [|c p]; [congruence|]. cbn [app].
    unfold Asylum_Model.path_is_relative, Asylum_Model.path_has_root in Er.
    destruct (N.eqb_spec c slash); [discriminate|exact n].
  - match goal with |- context [N.ltb ?a ?b] => destruct (N.ltb_spec a b) as [Hl|Hl] end; cbn [pbind].
    + assert (Hk : ok (S (len r)) 1 T
        (preceded (pchar ":") (separated_pair parse_u32 (pchar ":") parse_u32))
        (preceded (pchar ":") (separated_pair parse_u32 (pchar ":") parse_u32))).
      { wk ltac:(eapply ok_preceded; [apply ok_char|eapply ok_sep_pair; [apply ok_u32|apply ok_char|apply ok_u32]]). }
      destruct (Hk r) as [_ H]; [lia|].
      pose proof (loc_tail_no_panic r) as Hnp.
      destruct (preceded (pchar ":") (separated_pair parse_u32 (pchar ":") parse_u32) r) as [r' [x y]| |w|];
        cbn [pbind]; auto.
      * destruct H as [[v ->] [L _]]. split; [exists (p ++ v); now rewrite app_assoc|].
        cbn in L. rewrite !app_length in *. lia.
      * now destruct (Hnp w).
    + cbn. unfold is_crowded. rewrite pc_app. pose proof (path_components_count p) as Hc.
      pose proof (path_fold_count (Asylum_Model.path_components p) []) as Hf. cbn [List.length] in Hf.
      change (2 ^ 8)%N with 256%N in Hl. lia.
Qed.

(** a location after `at ` *)
Lemma located t s :
  contains (of_string "at ") (of_string t) ->
  (exists u, of_string t = u ++ of_string "at ") ->
  match preceded (tag t) parse_source_location s with
  | POk r a => (exists u, s = u ++ r) /\ lev (Nat.max 1 (str_level (of_string t))) s r
  | PErr => True
  | PPanic w => may_panic w s
  | PFuel => False
  end.
Proof.
  intros _ [u0 Hu]. unfold preceded, pmap, pand.
  destruct (ok_tag (S (len s)) t s) as [_ H]; [lia|].
  unfold tag in *. destruct (strip_tag (of_string t) s) as [r|] eqn:E; cbn [pbind]; auto.
  apply strip_tag_spec in E. destruct H as [_ [L _]].
  pose proof (source_location_spec r) as H. destruct (parse_source_location r) as [r' a| |w|]; cbn [pbind]; auto.
  - destruct H as [[v ->] L']. split; [exists (of_string t ++ v); now rewrite <- app_assoc|].
    subst s. pose proof (app_length (of_string t) (v ++ r')). pose proof (app_length v r').
    pose proof (pc_app (of_string t) (v ++ r')). pose proof (pc_app v r').
    destruct (str_level (of_string t)) as [|[|l]]; cbn in *; auto; lia.
  - subst s. destruct w; cbn [loc_panic] in H; try (now apply may_panic_suffix).
    destruct r as [|c r]; [easy|]. exists c. split; [exact H|]. rewrite Hu.
    exists u0, r. now rewrite <- !app_assoc.
Qed.

Lemma ok_located n t :
  (exists u, of_string t = u ++ of_string "at ") ->
  ok n (Nat.max 1 (str_level (of_string t))) T
     (preceded (tag t) parse_source_location) (preceded (tag t) parse_source_location).
Proof.
  intros Hu s _. split; [reflexivity|].
  assert (Hc : contains (of_string "at ") (of_string t))
    by (destruct Hu as [u ->]; exists u, []; now rewrite app_nil_r).
  pose proof (located t s Hc Hu) as H. destruct (preceded (tag t) parse_source_location s); auto.
  destruct H; auto.
Qed.

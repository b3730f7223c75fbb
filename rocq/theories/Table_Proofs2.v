(** Proofs about the table of a build profile: the table. *)
From Coq Require Import Permutation Sorting.Sorted QArith.
From Verif Require Import Base Asylum_Model Asylum_Proofs4 Cmd_Model Cmd_Spec UI_Model UI_Spec UI_Proofs UI_Proofs2
  Table_Model Table_Spec Table_Proofs.
Local Open Scope nat_scope.

(** ** Components *)
Lemma body_no_root segs : Forall (fun seg => ~ In slash seg) segs ->
  forall c, In c (filter_some (map segment_component segs)) -> component_str c <> [slash].
Proof.
  induction 1 as [|s l Hs _ IH]; [easy|]. cbn [map filter_some]. intros c.
  unfold segment_component at 1. destruct s as [|x s]; [apply IH|].
  destruct (is_dot (x :: s)); [apply IH|].
  destruct (is_dotdot (x :: s)); intros [<-|H]; try (now apply IH); simpl.
  - discriminate.
  - intros E. rewrite E in Hs. apply Hs. now left.
Qed.
Lemma components_ok u : components_of u <> [] -> path_ok (components_of u).
Proof.
  intros NE. split; [exact NE|]. clear NE. unfold components_of, path_components, is_root.
  pose proof (body_no_root _ (split_slash_no_slash (u_path u))) as B.
  set (b := filter_some _) in *. clearbody b.
  assert (X : forall c, In c (map component_str b) -> c <> [slash]).
  { intros c H. apply in_map_iff in H as (x & <- & H). now apply B. }
  assert (Y : forall c, In c (tl (map component_str b)) -> c <> [slash]).
  { intros c H. apply X. destruct b; [elim H|]. now right. }
  destruct (path_has_root (u_path u)); [exact X|].
  destruct (split_slash (u_path u)) as [|s l]; [exact Y|]. destruct (is_dot s); [exact X|exact Y].
Qed.

(** ** Comparing compilation units *)
Definition ucmp (c : column) (u v : unit_profile) : comparison :=
  match c with
  | MaxRSS => (u_rss u ?= u_rss v)%N
  | WallTime => key_compare (time_key (u_wall_time u)) (time_key (u_wall_time v))
  | RelPath _ => path_compare (u_path u) (u_path v)
  end.
Lemma ucmp_swap c u v : ucmp c v u = CompOpp (ucmp c u v).
Proof.
  destruct c; simpl; [apply N.compare_antisym|apply key_swap|apply path_compare_swap].
Qed.
Lemma ucmp_trans c u v x : ucmp c u v <> Gt -> ucmp c v x <> Gt -> ucmp c u x <> Gt.
Proof.
  destruct c; simpl.
  - rewrite !N.compare_le_iff. lia.
  - rewrite !key_le. lia.
  - rewrite !path_compare_le. apply path_le_trans.
Qed.
(** Defined comparisons agree with it. *)
Lemma unit_cmp_ucmp c u v x : unit_cmp u v c = Ret x -> x = ucmp c u v.
Proof.
  destruct c; simpl; [congruence| |unfold path_compare; congruence].
  destruct (u_wall_time u) as [a|], (u_wall_time v) as [b|]; try discriminate.
  destruct (time_partial_cmp a b) as [y|] eqn:E; simpl; [|discriminate].
  intros H. injection H as <-. now apply time_cmp_key.
Qed.
Definition good_time (u : unit_profile) : Prop := exists x, u_time u = Some x /\ x <> FNan /\ f32_ok x.
Lemma good_wall u : good_time u -> exists x, u_wall_time u = Some x /\ time_ok x.
Proof.
  intros (x & E & N & O). unfold u_wall_time. rewrite E.
  destruct (wall_time (Some x)) as [[d|y]|] eqn:W.
  - exists (inl d). now split.
  - apply wall_time_bad in W. subst. exists (inr x). split; [reflexivity|]. now split.
  - apply wall_time_none in W. discriminate.
Qed.
Lemma time_cmp_some x y : time_ok x -> time_ok y -> time_partial_cmp x y <> None.
Proof.
  destruct x as [a|x], y as [b|y]; simpl; try discriminate. intros [_ X] [_ Y].
  unfold f32_partial_cmp. destruct x, y; congruence.
Qed.
Lemma unit_cmp_ok c u v : (c = WallTime -> good_time u /\ good_time v) -> unit_cmp u v c = Ret (ucmp c u v).
Proof.
  intros G. destruct (unit_cmp u v c) as [x|] eqn:E; [f_equal; now apply unit_cmp_ucmp|].
  exfalso. destruct c; simpl in E; try discriminate. destruct (G eq_refl) as [Gu Gv].
  apply good_wall in Gu as (x & Ex & Ox), Gv as (y & Ey & Oy). rewrite Ex, Ey in E.
  pose proof (time_cmp_some x y Ox Oy). destruct (time_partial_cmp x y); [discriminate|congruence].
Qed.
Lemma ucmp_column_le c u v : (c = WallTime -> good_time u /\ good_time v) ->
  ucmp c u v <> Gt -> column_le c u v.
Proof.
  intros G. destruct c; simpl.
  - apply N.compare_le_iff.
  - destruct (G eq_refl) as [Gu Gv]. apply good_wall in Gu as (x & Ex & Ox), Gv as (y & Ey & Oy).
    rewrite Ex, Ey. intros H. exists x, y. split; [exact Ex|]. split; [exact Ey|]. now apply time_le_iff.
  - apply path_compare_le.
Qed.

Section Table.
  Variable w : str -> nat.
  Variable graphemes : str -> list str.
  Variable show_gb : N -> str.
  Variable show_seconds : duration + f32 -> str.
  Variable sort : list nat -> sorting.
  Hypothesis Hs : sorts sort.
  Variable profile : list unit_profile.

  Definition dflt : unit_profile := {| u_path := []; u_rss := 0; u_time := None |}.
  Definition get (a : nat) : unit_profile := nth a profile dflt.
  Lemma get_in a : a < length profile -> nth_error profile a = Some (get a).
  Proof. intros H. unfold get. now apply nth_error_nth'. Qed.
  Lemma get_In a : a < length profile -> In (get a) profile.
  Proof. intros H. now apply nth_In. Qed.

  Definition inv (t : table) : Prop :=
    t_items t = profile /\ Permutation (seq 0 (length profile)) (t_order t).
  Lemma inv_nodup t : inv t -> NoDup (t_order t).
  Proof. intros [_ P]. eapply Permutation_NoDup; [exact P|apply seq_NoDup]. Qed.
  Lemma inv_in t a : inv t -> (In a (t_order t) <-> a < length profile).
  Proof.
    intros [_ P]. split; intros H.
    - apply (Permutation_in a (Permutation_sym P)) in H. apply in_seq in H. lia.
    - apply (Permutation_in a P). apply in_seq. lia.
  Qed.

  Definition dir (d : bool) {A B} (f : A -> A -> B) (a b : A) : B := if d then f b a else f a b.
  Lemma sort_by_def t c d : inv t ->
    sort_by sort t c d =
    obind (run_sorting (sort (t_order t)) (fun a b =>
      if (a <? length profile) && (b <? length profile) then dir d (fun u v => unit_cmp u v c) (get a) (get b)
      else Panic))
    (fun l => Ret {| t_items := t_items t; t_columns := t_columns t; t_order := l |}).
  Proof.
    intros [E _]. unfold sort_by. f_equal. apply run_ext. intros a b. rewrite E.
    destruct (Nat.ltb_spec a (length profile)) as [A|A].
    - rewrite (get_in a A). destruct (Nat.ltb_spec b (length profile)) as [B|B].
      + rewrite (get_in b B). simpl. destruct d; reflexivity.
      + rewrite (proj2 (nth_error_None _ _) B). reflexivity.
    - rewrite (proj2 (nth_error_None _ _) A). reflexivity.
  Qed.

  Lemma dir_preorder (l : list nat) c d : preorder l (fun a b => dir d (ucmp c) (get a) (get b)).
  Proof.
    destruct d; simpl; constructor; intros; try apply ucmp_swap; eauto using ucmp_trans.
  Qed.

  Lemma sort_ok t c d : inv t -> (c = WallTime -> Forall good_time profile) ->
    exists t' us, sort_by sort t c d = Ret t' /\ inv t' /\ t_columns t' = t_columns t /\
      shows t' us /\ ForallOrdPairs (dir d (column_le c)) us.
  Proof.
    intros I G. rewrite sort_by_def by exact I.
    assert (GG : forall a, a < length profile -> c = WallTime -> good_time (get a)).
    { intros a A C. specialize (G C). rewrite Forall_forall in G. apply G. now apply get_In. }
    destruct (run_total sort Hs (t_order t)
      (fun a b => if (a <? length profile) && (b <? length profile)
                  then dir d (fun u v => unit_cmp u v c) (get a) (get b) else Panic)
      (fun a b => dir d (ucmp c) (get a) (get b))) as (r & R & P & O).
    - now apply inv_nodup.
    - apply dir_preorder.
    - intros a b A B. rewrite (inv_in t) in A, B by exact I.
      rewrite (proj2 (Nat.ltb_lt _ _) A), (proj2 (Nat.ltb_lt _ _) B). simpl.
      destruct d; simpl; apply unit_cmp_ok; auto.
    - rewrite R. simpl. exists {| t_items := t_items t; t_columns := t_columns t; t_order := r |}, (map get r).
      assert (I' : inv {| t_items := t_items t; t_columns := t_columns t; t_order := r |}).
      { destruct I as [I1 I2]. split; [exact I1|]. simpl. eapply Permutation_trans; eassumption. }
      split; [reflexivity|]. split; [exact I'|]. split; [reflexivity|].
      assert (B : forall a, In a r -> a < length profile) by (intros a; apply (inv_in _ a I')).
      split.
      + unfold shows. simpl. destruct I as [-> _]. rewrite map_map. apply map_ext_in. intros a H. apply get_in. now apply B.
      + clear - O B GG. unfold in_order in O. induction O as [|a r F O IH]; simpl; [constructor|].
        constructor.
        * apply Forall_map. apply Forall_forall. intros b Hb. rewrite Forall_forall in F.
          specialize (F b Hb). destruct d; simpl in *; apply ucmp_column_le; auto;
            intros C; split; apply GG; auto; apply B; simpl; auto.
        * apply IH. intros b Hb. apply B. now right.
  Qed.

  Lemma shows_inv t : inv t -> exists us, shows t us /\ Permutation profile us.
  Proof.
    intros I. exists (map get (t_order t)). split.
    - unfold shows. destruct I as [E P]. rewrite E, map_map. apply map_ext_in. intros a A.
      apply get_in. now apply (inv_in t).
    - destruct I as [_ P].
      replace profile with (map get (seq 0 (length profile))) at 1; [now apply Permutation_map|].
      apply nth_ext with dflt dflt; [now rewrite map_length, seq_length|].
      intros n N. rewrite map_length, seq_length in N.
      rewrite (nth_indep _ dflt (get 0)) by now rewrite map_length, seq_length.
      rewrite map_nth. rewrite seq_nth by exact N. reflexivity.
  Qed.
  Lemma shows_unique t us us' : shows t us -> shows t us' -> us = us'.
  Proof.
    unfold shows. intros -> H. revert us' H. induction us as [|a r IH]; intros [|b s] H; simpl in H; try discriminate; [reflexivity|].
    injection H as -> H. f_equal. now apply IH.
  Qed.
  Lemma shows_row t us row u : shows t us -> nth_error us row = Some u ->
    draw_row w graphemes show_gb show_seconds t row = cells w graphemes show_gb show_seconds u (t_columns t).
  Proof.
    intros S E. unfold draw_row. unfold shows in S.
    assert (X : nth_error (map (nth_error (t_items t)) (t_order t)) row = Some (Some u)).
    { rewrite S. now apply map_nth_error. }
    rewrite nth_error_map in X. destruct (nth_error (t_order t) row) as [a|]; [|discriminate].
    simpl in X. injection X as X. simpl. rewrite X. reflexivity.
  Qed.

  (** ** Opening the table *)
  Definition timed : bool := has_walltime profile.
  Definition the_columns (fw : nat) : list column := MaxRSS :: (if timed then [WallTime] else []) ++ [RelPath fw].
  Lemma timed_other n : other_columns profile n -> n = non_file_width timed /\ profile <> [] /\
    (timed = true <-> exists u r, profile = u :: r /\ u_time u <> None).
  Proof.
    unfold timed. intros (u & r & E & H). rewrite E. split; [|split; [discriminate|]].
    - simpl. destruct (u_wall_time u) eqn:W; destruct H as [[T ->]|[T ->]]; try reflexivity; exfalso.
      + unfold u_wall_time in W. rewrite T in W. discriminate.
      + apply wall_time_none in W. now elim T.
    - simpl. destruct (u_wall_time u) eqn:W; split; intros X; try discriminate; try reflexivity.
      + exists u, r. split; [reflexivity|]. intros T. unfold u_wall_time in W. rewrite T in W. discriminate.
      + destruct X as (? & ? & X & T). injection X as <- <-. apply wall_time_none in W. now elim T.
  Qed.

  Lemma display_ok n tw th : other_columns profile n -> n <= tw -> 1 <= th ->
    exists t us, display_profile sort profile tw th = Ret t /\ inv t /\ t_columns t = the_columns (tw - n) /\
      shows t us /\ ForallOrdPairs (fun u v => column_le MaxRSS v u) us.
  Proof.
    intros O L H. destruct (timed_other n O) as (-> & NE & _). unfold display_profile.
    fold timed. unfold usub at 1. rewrite (proj2 (Nat.leb_le _ _) L). simpl.
    set (t0 := {| t_items := profile; t_columns := _; t_order := _ |}).
    assert (I : inv t0) by (split; reflexivity).
    destruct (sort_ok t0 MaxRSS true I) as (t & us & E & I' & C & S & F); [discriminate|].
    exists t, us. destruct profile as [|u r] eqn:P; [easy|]. rewrite E. simpl.
    unfold usub. rewrite (proj2 (Nat.leb_le _ _) H). simpl. auto 10.
  Qed.
  Lemma display_narrow n tw th : other_columns profile n -> tw < n \/ th = 0 ->
    display_profile sort profile tw th = Panic.
  Proof.
    intros O L. destruct (timed_other n O) as (-> & NE & _). unfold display_profile.
    fold timed. unfold usub at 1. destruct (Nat.leb_spec (non_file_width timed) tw) as [L'|L']; simpl; [|reflexivity].
    destruct L as [L| ->]; [lia|].
    set (t0 := {| t_items := profile; t_columns := _; t_order := _ |}).
    destruct (match profile with [] => _ | _ => _ end); reflexivity.
  Qed.

  Lemma reach_inv n tw th t : other_columns profile n -> n <= tw -> 1 <= th ->
    table_reach sort profile tw th (Ret t) -> inv t /\ t_columns t = the_columns (tw - n).
  Proof.
    intros O L H R. remember (Ret t) as o eqn:E. revert t E. induction R as [|t0 c d R IH C NE]; intros t E.
    - destruct (display_ok n tw th O L H) as (t' & _ & E' & I & Ct & _). rewrite E' in E. injection E as <-. now split.
    - destruct (IH t0 eq_refl) as [I Ct]. rewrite sort_by_def in E by exact I.
      destruct (run_sorting _ _) as [l|] eqn:RS; [|discriminate]. simpl in E. injection E as <-.
      split; [|exact Ct]. destruct I as [I1 I2]. split; [exact I1|]. simpl.
      (* the result is a permutation, whatever the comparisons *)
      assert (P : exists r, run_sorting (sort (t_order t0)) (fun a b => Ret (dir d (ucmp c) (get a) (get b))) = Ret r
                  /\ Permutation (t_order t0) r).
      { destruct (so_sorted _ Hs (t_order t0) (fun a b => dir d (ucmp c) (get a) (get b))) as (r & Er & Pr & _).
        - apply inv_nodup. now split.
        - apply dir_preorder.
        - exists r. now split. }
      destruct P as (r & Er & Pr).
      assert (X : run_sorting (sort (t_order t0)) (fun a b => Ret (dir d (ucmp c) (get a) (get b))) = Ret l).
      { eapply run_mono; [|exact RS]. intros a b x. simpl.
        destruct (_ && _); [|discriminate]. destruct d; simpl; intros Y; f_equal; symmetry; now apply unit_cmp_ucmp. }
      rewrite X in Er. injection Er as ->. eapply Permutation_trans; eassumption.
  Qed.

  (** ** The good case *)
  Hypothesis Hw : widths w.
  Hypothesis Hg : splits graphemes.
  Lemma reach_ok n tw th o : other_columns profile n -> n <= tw -> 1 <= th -> times_ok profile ->
    table_reach sort profile tw th o -> exists t, o = Ret t.
  Proof.
    intros O L H T R. induction R as [|t0 c d R IH C NE].
    - destruct (display_ok n tw th O L H) as (t' & _ & E' & _). now exists t'.
    - destruct (reach_inv n tw th t0 O L H R) as [I Ct].
      destruct (sort_ok t0 c d I) as (t & _ & E & _); [|now exists t].
      intros ->. destruct T as [T|T]; [exfalso|exact T].
      rewrite Ct in C. destruct (timed_other n O) as (_ & _ & TI).
      unfold the_columns in C. destruct timed.
      + destruct TI as [TI _]. destruct (TI eq_refl) as (u & r & E & U). destruct T as (u' & r' & E' & U').
        rewrite E in E'. injection E' as <- <-. contradiction.
      + simpl in C. destruct C as [C|[C|[]]]; discriminate C.
  Qed.
  Lemma row_ok n tw u : other_columns profile n -> n < tw -> times_ok profile -> In u profile ->
    2 <= length (components_of u) ->
    exists l, cells w graphemes show_gb show_seconds u (the_columns (tw - n)) = Ret l /\
      row_of w show_gb show_seconds profile tw n u l.
  Proof.
    intros O L T IN C.
    destruct (truncate_path_ok w graphemes Hw Hg (components_of u) (tw - n)) as (r & E & W & D).
    { apply components_ok. intros Z. rewrite Z in C. simpl in C. lia. }
    { exact C. } { lia. }
    unfold components_of in E. destruct (timed_other n O) as (_ & NE & TI). unfold the_columns. unfold row_of.
    destruct profile as [|u0 r0] eqn:P; [easy|].
    destruct timed.
    - destruct TI as [TI _]. destruct (TI eq_refl) as (? & ? & X & Y). injection X as <- <-.
      destruct T as [(? & ? & X & Z)|T]; [injection X as <- <-; contradiction|].
      rewrite Forall_forall in T. destruct (good_wall u (T u IN)) as (x & Ex & _).
      cbn [cells to_column app obind]. rewrite Ex. cbn [expect obind]. rewrite E. cbn [obind].
      eexists. split; [reflexivity|]. exists r. split; [exact W|]. split; [exact D|].
      destruct u0 as [p0 r1 [t0|]]; simpl in Y; [|easy]. exists x. split; [exact Ex|reflexivity].
    - cbn [cells to_column app obind]. rewrite E. cbn [obind].
      eexists. split; [reflexivity|]. exists r. split; [exact W|]. split; [exact D|].
      destruct u0 as [p0 r1 [t0|]]; [|reflexivity]. exfalso. destruct TI as [_ TI].
      assert (false = true); [|discriminate]. apply TI. eexists. eexists. split; [reflexivity|]. discriminate.
  Qed.

  (** ** Bad cases *)
  Lemma zero_width_row t us row : t_columns t = the_columns 0 -> shows t us ->
    draw_row w graphemes show_gb show_seconds t row = Panic.
  Proof.
    intros C S. unfold draw_row. destruct (nth_error (t_order t) row) as [a|]; [|reflexivity].
    simpl. destruct (nth_error (t_items t) a) as [u|]; [|reflexivity]. simpl. rewrite C.
    unfold the_columns. destruct timed; simpl; [|reflexivity].
    destruct (u_wall_time u); reflexivity.
  Qed.

  (** Keys *)
  Lemma keys_stuck t d k j (key1 key2 : nat -> Z * Z) : inv t ->
    (forall a b, a < length profile -> b < length profile -> forall c,
       unit_cmp (get a) (get b) WallTime = Ret c -> key_compare (key1 a) (key1 b) = c /\ key_compare (key2 a) (key2 b) = c) ->
    k < length profile -> j < length profile ->
    key_compare (key1 k) (key1 j) = Lt -> key_compare (key2 k) (key2 j) = Gt ->
    sort_by sort t WallTime d = Panic.
  Proof.
    intros I A K J L G. rewrite sort_by_def by exact I.
    set (cmp := fun a b : nat => if _ && _ then _ else Panic).
    assert (X : run_sorting (sort (t_order t)) cmp = Panic).
    { assert (P : forall key, preorder (t_order t) (fun a b => dir d key_compare (key a) (key b))).
      { intros key. destruct d; simpl; [|apply key_preorder].
        apply (flip_preorder (t_order t) (fun a b => key_compare (key a) (key b))). apply key_preorder. }
      assert (AG : forall a b c, In a (t_order t) -> In b (t_order t) -> cmp a b = Ret c ->
         dir d key_compare (key1 a) (key1 b) = c /\ dir d key_compare (key2 a) (key2 b) = c).
      { intros a b c Ha Hb. rewrite (inv_in t) in Ha, Hb by exact I. unfold cmp.
        rewrite (proj2 (Nat.ltb_lt _ _) Ha), (proj2 (Nat.ltb_lt _ _) Hb). simpl.
        destruct d; simpl; intros E; now apply A. }
      assert (OUT : forall a b, ~ In a (t_order t) \/ ~ In b (t_order t) -> cmp a b = Panic).
      { intros a b. rewrite !(inv_in t) by exact I. unfold cmp.
        destruct (Nat.ltb_spec a (length profile)), (Nat.ltb_spec b (length profile)); simpl; try reflexivity. lia. }
      rewrite <- (inv_in t) in K, J by exact I.
      destruct d.
      - apply (run_stuck sort Hs _ _ _ _ k j (inv_nodup t I) (P key2) (P key1)); auto.
        + intros a b c Ha Hb E. apply and_comm. now apply AG.
        + simpl. now rewrite key_swap, G.
        + simpl. now rewrite key_swap, L.
      - apply (run_stuck sort Hs _ _ _ _ k j (inv_nodup t I) (P key1) (P key2)); auto. }
    rewrite X. reflexivity.
  Qed.
  Definition set_key (k : nat) (z : Z * Z) (a : nat) : Z * Z := if a =? k then z else time_key (u_wall_time (get a)).

  Lemma missing_stuck t d k j : inv t -> k < length profile -> j < length profile ->
    u_time (get k) = None -> u_time (get j) <> None -> sort_by sort t WallTime d = Panic.
  Proof.
    intros I K J Nk Nj.
    assert (Wk : u_wall_time (get k) = None) by now apply wall_time_none.
    assert (JK : (j =? k) = false) by (apply Nat.eqb_neq; intros ->; contradiction).
    assert (Wj : exists x, u_wall_time (get j) = Some x).
    { destruct (u_wall_time (get j)) as [x|] eqn:E; [now exists x|]. apply wall_time_none in E. contradiction. }
    destruct Wj as (x & Wj).
    apply (keys_stuck t d k j (set_key k (0, 0)%Z) (set_key k (9, 0)%Z)); auto.
    - intros a b Ha Hb c E. pose proof (unit_cmp_ucmp _ _ _ _ E) as ->. unfold set_key.
      cbn [unit_cmp] in E.
      destruct (Nat.eqb_spec a k) as [->|Na]; [rewrite Wk in E; discriminate|].
      destruct (Nat.eqb_spec b k) as [->|Nb]; [rewrite Wk in E; destruct (u_wall_time (get a)); discriminate|].
      split; reflexivity.
    - unfold set_key. rewrite Nat.eqb_refl, JK, Wj. destruct x; reflexivity.
    - unfold set_key. rewrite Nat.eqb_refl, JK, Wj. destruct x; reflexivity.
  Qed.
  Lemma nan_stuck t d k j y : inv t -> k < length profile -> j < length profile -> j <> k ->
    u_time (get k) = Some FNan -> u_time (get j) = Some y -> wall_time (Some y) = Some (inr y) ->
    sort_by sort t WallTime d = Panic.
  Proof.
    intros I K J JK Nk Nj Bad.
    assert (Wk : u_wall_time (get k) = Some (inr FNan)) by (unfold u_wall_time; now rewrite Nk).
    assert (Wj : u_wall_time (get j) = Some (inr y)) by (unfold u_wall_time; now rewrite Nj).
    apply Nat.eqb_neq in JK.
    apply (keys_stuck t d k j (set_key k (2, scaled y - 1)%Z) (set_key k (9, 0)%Z)); auto.
    - intros a b Ha Hb c E. pose proof (unit_cmp_ucmp _ _ _ _ E) as ->. unfold set_key.
      cbn [unit_cmp ucmp] in E |- *.
      destruct (Nat.eqb_spec a k) as [->|Na].
      + rewrite Wk in E |- *. destruct (u_wall_time (get b)) as [[x|x]|] eqn:Wb; try discriminate.
        destruct (Nat.eqb_spec b k) as [->|Nb]; [congruence|]. split; reflexivity.
      + destruct (Nat.eqb_spec b k) as [->|Nb]; [|split; reflexivity].
        rewrite Wk in E |- *. destruct (u_wall_time (get a)) as [[x|x]|] eqn:Wa; try discriminate; [split; reflexivity|].
        exfalso. simpl in E. destruct x; discriminate.
    - unfold set_key. rewrite Nat.eqb_refl, JK, Wj. unfold key_compare. simpl. apply Z.compare_lt_iff. lia.
    - unfold set_key. rewrite Nat.eqb_refl, JK, Wj. reflexivity.
  Qed.
End Table.

(** ** Columns *)
Lemma sort_columns sort t c d t' : sort_by sort t c d = Ret t' -> t_columns t' = t_columns t.
Proof.
  unfold sort_by. match goal with |- obind ?x _ = _ -> _ => destruct x as [l|] end; cbn [obind]; [|discriminate].
  intros [= <-]. reflexivity.
Qed.
Lemma usub_ret a b n : usub a b = Ret n -> b <= a /\ n = a - b.
Proof. unfold usub. destruct (Nat.leb_spec b a); [|discriminate]. intros [= <-]. lia. Qed.
Theorem columns_ok sort profile tw th t : table_reach sort profile tw th (Ret t) ->
  ((exists u r, profile = u :: r /\ u_time u <> None) /\ 26 <= tw /\
   t_columns t = [MaxRSS; WallTime; RelPath (tw - 26)]) \/
  ((forall u r, profile = u :: r -> u_time u = None) /\ 15 <= tw /\
   t_columns t = [MaxRSS; RelPath (tw - 15)]).
Proof.
  intros R. remember (Ret t) as o eqn:Eo. revert t Eo. induction R as [|t c d R IH _ _]; intros t' Eo.
  - unfold display_profile in Eo.
    destruct (usub tw (non_file_width (has_walltime profile))) as [fw|] eqn:Eu; cbn [obind] in Eo; [|discriminate].
    apply usub_ret in Eu as [Hle ->].
    match type of Eo with obind ?x _ = _ => destruct x as [t1|] eqn:E1 end; cbn [obind] in Eo; [|discriminate].
    destruct (usub th 1); cbn [obind] in Eo; [|discriminate]. injection Eo as <-.
    assert (Ec : t_columns t1 = MaxRSS :: (if has_walltime profile then [WallTime] else [])
                   ++ [RelPath (tw - non_file_width (has_walltime profile))]).
    { destruct profile; [injection E1 as <-; reflexivity|]. apply sort_columns in E1. exact E1. }
    rewrite Ec. destruct (has_walltime profile) eqn:Eh; unfold non_file_width, max_rss_width, wall_time_width in *; cbn [app Nat.add] in *.
    + left. split; [|split; [lia|reflexivity]]. destruct profile as [|u r]; [discriminate|].
      exists u, r. split; [reflexivity|]. intros E. cbn in Eh.
      assert (u_wall_time u = None) as X by (apply wall_time_none; exact E). rewrite X in Eh. discriminate.
    + right. split; [|split; [lia|reflexivity]]. intros u r ->. cbn in Eh.
      apply wall_time_none. unfold u_wall_time in Eh. destruct (wall_time (u_time u)); [discriminate|reflexivity].
  - apply sort_columns in Eo. rewrite Eo. apply IH. reflexivity.
Qed.

(** * The table of a build profile: C74.  See Table_Spec.v for the vocabulary. *)
From Coq Require Import String Permutation Sorting.Sorted.
From Verif Require Import Base Asylum_Model Cmd_Model Cmd_Spec Cmd_Proofs2 UI_Model UI_Spec UI_Proofs2 UI_Properties
  Table_Model Table_Spec Table_Proofs Table_Proofs2 Table_Proofs3.
Local Open Scope nat_scope.
Local Open Scope bool_scope.
Local Open Scope list_scope.
Local Notation "' s" := (of_string s) (at level 0, s at level 0).

(** Whatever the user sorts by, the table shows every compilation unit of the profile exactly
    once, and each of its rows can be drawn, within the width of the terminal. *)
Theorem C74_table_shows_the_profile :
  forall w graphemes show_gb show_seconds sort, widths w -> splits graphemes -> sorts sort ->
  forall profile n tw th, other_columns profile n -> n < tw -> 1 <= th -> times_ok profile ->
  Forall (fun u => 2 <= length (components_of u)) profile ->
  forall o, table_reach sort profile tw th o ->
  exists t us, o = Ret t /\ shows t us /\ Permutation profile us /\
    forall row u, nth_error us row = Some u ->
    exists cells, draw_row w graphemes show_gb show_seconds t row = Ret cells /\
      row_of w show_gb show_seconds profile tw n u cells.
Proof.
  intros w gr gb ss sort Hw Hg Hs profile n tw th O L H T C o R.
  destruct (reach_ok sort Hs profile n tw th o O) as (t & ->); [lia|exact H|exact T|exact R|].
  destruct (reach_inv sort Hs profile n tw th t O) as [I Ct]; [lia|exact H|exact R|].
  destruct (shows_inv profile t I) as (us & S & P). exists t, us.
  split; [reflexivity|]. split; [exact S|]. split; [exact P|].
  intros row u E. rewrite (shows_row w gr gb ss t us row u S E), Ct.
  assert (IN : In u profile).
  { apply (Permutation_in u (Permutation_sym P)). eapply nth_error_In; exact E. }
  apply row_ok; auto. rewrite Forall_forall in C. now apply C.
Qed.
Print Assumptions C74_table_shows_the_profile.

(** The columns are always the same: memory, times if the first unit has one, and paths in
    what remains of the terminal. *)
Theorem C74_columns :
  forall sort profile tw th t, table_reach sort profile tw th (Ret t) ->
  ((exists u r, profile = u :: r /\ u_time u <> None) /\ 26 <= tw /\
   t_columns t = [MaxRSS; WallTime; RelPath (tw - 26)]) \/
  ((forall u r, profile = u :: r -> u_time u = None) /\ 15 <= tw /\
   t_columns t = [MaxRSS; RelPath (tw - 15)]).
Proof. exact columns_ok. Qed.
Print Assumptions C74_columns.

(** At first, the largest memory consumption comes first. *)
Theorem C74_first_order :
  forall sort, sorts sort ->
  forall profile n tw th, other_columns profile n -> n <= tw -> 1 <= th ->
  exists t us, display_profile sort profile tw th = Ret t /\ shows t us /\
    ForallOrdPairs (fun u v => (u_rss v <= u_rss u)%N) us.
Proof.
  intros sort Hs profile n tw th O L H.
  destruct (display_ok sort Hs profile n tw th O L H) as (t & us & E & _ & _ & S & F).
  exists t, us. auto.
Qed.
Print Assumptions C74_first_order.

(** After sorting, the rows are in the order of the column: sizes and durations by value,
    times that are no durations after all durations, paths component by component. *)
Theorem C74_sorted :
  forall sort, sorts sort ->
  forall profile n tw th, other_columns profile n -> n <= tw -> 1 <= th -> times_ok profile ->
  forall t, table_reach sort profile tw th (Ret t) ->
  forall c, In c (t_columns t) -> forall descending,
  exists t' us, sort_by sort t c descending = Ret t' /\ shows t' us /\ Permutation profile us /\
    ForallOrdPairs (fun u v => if descending then column_le c v u else column_le c u v) us.
Proof.
  intros sort Hs profile n tw th O L H T t R c C d.
  destruct (reach_inv sort Hs profile n tw th t O L H R) as [I Ct].
  destruct (sort_ok sort Hs profile t c d I) as (t' & us & E & I' & _ & S & F).
  { intros ->. destruct T as [T|T]; [exfalso|exact T].
    rewrite Ct in C. destruct (timed_other profile n O) as (_ & _ & TI).
    unfold the_columns in C. destruct (timed profile).
    + destruct TI as [TI _]. destruct (TI eq_refl) as (u & r & E & U). destruct T as (u' & r' & E' & U').
      rewrite E in E'. injection E' as <- <-. contradiction.
    + simpl in C. destruct C as [C|[C|[]]]; discriminate C. }
  exists t', us. split; [exact E|]. split; [exact S|]. split.
  - destruct (shows_inv profile t' I') as (us' & S' & P). now rewrite (shows_unique t' us us' S S').
  - destruct d; exact F.
Qed.
Print Assumptions C74_sorted.

(** A terminal of 15 columns (26 with times) or less is too narrow: the table cannot be
    opened, or cannot draw any row. *)
Theorem C74_narrow_terminal_refuted :
  forall w graphemes show_gb show_seconds sort, sorts sort ->
  forall profile n tw th, other_columns profile n ->
  (tw < n \/ th = 0 -> display_profile sort profile tw th = Panic) /\
  (tw = n -> 1 <= th -> forall t row, table_reach sort profile tw th (Ret t) ->
     draw_row w graphemes show_gb show_seconds t row = Panic).
Proof.
  intros w gr gb ss sort Hs profile n tw th O. split.
  - now apply display_narrow.
  - intros -> H t row R. destruct (reach_inv sort Hs profile n n th t O (le_n n) H R) as [I Ct].
    destruct (shows_inv profile t I) as (us & S & _).
    rewrite Nat.sub_diag in Ct. exact (zero_width_row w gr gb ss profile t us row Ct S).
Qed.
Print Assumptions C74_narrow_terminal_refuted.

(** A profile with times for some compilation units only: if there is one for the first unit,
    sorting by time fails, and so does drawing the units without. *)
Theorem C74_missing_time_refuted :
  forall w graphemes show_gb show_seconds sort, sorts sort ->
  forall profile tw th, other_columns profile 26 -> 26 <= tw -> 1 <= th ->
  (exists v, In v profile /\ u_time v = None) ->
  forall t, table_reach sort profile tw th (Ret t) ->
  (forall descending, sort_by sort t WallTime descending = Panic) /\
  (exists row, row < length profile /\ draw_row w graphemes show_gb show_seconds t row = Panic).
Proof.
  intros w gr gb ss sort Hs profile tw th O L H (v & V & N) t R.
  destruct (reach_inv sort Hs profile 26 tw th t O L H R) as [I Ct].
  destruct O as (u0 & r0 & E0 & [[_ X]|[U _]]); [discriminate|].
  split.
  - intros d. apply (In_nth _ _ dflt) in V as (k & K & Ek).
    apply (missing_stuck sort Hs profile t d k 0 I K); [rewrite E0; simpl; lia| |].
    + unfold get. now rewrite Ek.
    + unfold get. rewrite E0. exact U.
  - destruct (shows_inv profile t I) as (us & S & P).
    pose proof (Permutation_in v P V) as V'. apply In_nth_error in V' as (row & E).
    exists row. split.
    + rewrite (Permutation_length P). apply nth_error_Some. congruence.
    + rewrite (shows_row w gr gb ss t us row v S E), Ct. unfold the_columns, timed.
      rewrite E0. unfold has_walltime. destruct (u_wall_time u0) eqn:W.
      * cbn [app cells to_column obind]. replace (u_wall_time v) with (@None (duration + f32)); [reflexivity|].
        symmetry. now apply wall_time_none.
      * apply wall_time_none in W. contradiction.
Qed.
Print Assumptions C74_missing_time_refuted.

(** A time that is not a number, besides another that is no duration: sorting by time fails. *)
Theorem C74_nan_time_refuted :
  forall sort, sorts sort ->
  forall profile n tw th, other_columns profile n -> n <= tw -> 1 <= th ->
  forall k j u v y, j <> k -> nth_error profile k = Some u -> nth_error profile j = Some v ->
  u_time u = Some FNan -> u_time v = Some y -> bad_time y ->
  forall t, table_reach sort profile tw th (Ret t) ->
  forall descending, sort_by sort t WallTime descending = Panic.
Proof.
  intros sort Hs profile n tw th O L H k j u v y JK Eu Ev Tu Tv Bad t R d.
  destruct (reach_inv sort Hs profile n tw th t O L H R) as [I _].
  apply (nan_stuck sort Hs profile t d k j y I); auto.
  - apply nth_error_Some. congruence.
  - apply nth_error_Some. congruence.
  - unfold get. now rewrite (nth_error_nth _ _ _ Eu).
  - unfold get. now rewrite (nth_error_nth _ _ _ Ev).
  - now apply wall_time_error.
Qed.
Print Assumptions C74_nan_time_refuted.

(** Paths of less than two components: a spurious separator is shown, does not always fit, and
    an empty path cannot be shown. *)
Definition demo_gb (n : N) : str := [n].
Definition demo_s (t : duration + f32) : str := match t with inl d => [d] | inr _ => ' "?"%string end.
Definition demo_unit (p : str) (rss : N) (t : option f32) : unit_profile := {| u_path := p; u_rss := rss; u_time := t |}.
Definition demo_rows (profile : list unit_profile) (tw : nat) (how : list (column * bool)) (n : nat) : list (outcome (list str)) :=
  match fold_left (fun o '(c, d) => obind o (fun t => sort_by insertion_sort t c d)) how
          (display_profile insertion_sort profile tw 24) with
  | Ret t => map (draw_row demo_w demo_gr demo_gb demo_s t) (seq 0 n)
  | Panic => [Panic]
  end.
Theorem C74_short_path_refuted :
  demo_rows [demo_unit ' "a.cpp"%string 7 None] 80 [] 1 = [Ret [[7%N]; ' "/a.cpp"%string]] /\
  demo_rows [demo_unit ' "a.cpp"%string 7 None] 20 [] 1 = [Panic] /\
  demo_rows [demo_unit ' ""%string 7 None] 80 [] 1 = [Panic].
Proof. vm_compute. repeat split. Qed.
Print Assumptions C74_short_path_refuted.

Definition demo_profile : list unit_profile :=
  [demo_unit ' "src/b.cpp"%string 7 (Some (FFin false 1 1));
   demo_unit ' "src/a/z.cpp"%string 9 (Some (FInf false));
   demo_unit ' "/usr/a.cpp"%string 8 (Some (FFin false 1 0));
   demo_unit ' "src/a.cpp"%string 7 (Some (FFin true 1 0))].
Example C74_witness :
  sorts insertion_sort /\ widths demo_w /\ splits demo_gr /\
  other_columns demo_profile 26 /\ times_ok demo_profile /\
  Forall (fun u => 2 <= List.length (components_of u)) demo_profile /\
  map (fun o => match o with Ret (_ :: _ :: [p]) => p | _ => [] end) (demo_rows demo_profile 80 [] 4) =
    [' "src/a/z.cpp"%string; ' "/usr/a.cpp"%string; ' "src/b.cpp"%string; ' "src/a.cpp"%string] /\
  map (fun o => match o with Ret (_ :: _ :: [p]) => p | _ => [] end) (demo_rows demo_profile 80 [(WallTime, false)] 4) =
    [' "/usr/a.cpp"%string; ' "src/b.cpp"%string; ' "src/a.cpp"%string; ' "src/a/z.cpp"%string] /\
  map (fun o => match o with Ret (_ :: _ :: [p]) => p | _ => [] end) (demo_rows demo_profile 80 [(RelPath 54, false)] 4) =
    [' "/usr/a.cpp"%string; ' "src/a/z.cpp"%string; ' "src/a.cpp"%string; ' "src/b.cpp"%string] /\
  demo_rows [demo_unit ' "a/b"%string 7 (Some (FFin false 1 1)); demo_unit ' "a/c"%string 8 None] 80 [] 2 =
    [Panic; Ret [[7%N]; [2000000000%N]; ' "a/b"%string]] /\
  demo_rows [demo_unit ' "a/b"%string 7 (Some FNan); demo_unit ' "a/c"%string 8 (Some (FInf false))] 80 [(WallTime, true)] 2 =
    [Panic].
Proof.
  split; [exact insertion_sort_sorts|]. split; [apply widths_witness|]. split; [apply widths_witness|].
  split; [do 2 eexists; split; [reflexivity|right; split; [discriminate|reflexivity]]|].
  split.
  { right. unfold demo_profile.
    repeat (apply Forall_cons; [eexists; split; [reflexivity|split; [discriminate|vm_compute; intuition discriminate]]|]).
    apply Forall_nil. }
  split; [repeat (apply Forall_cons; [vm_compute; lia|]); apply Forall_nil|].
  vm_compute. repeat split.
Qed.

(** Theorems about the display layer (C34-C41).  See UI_Spec.v for the vocabulary. *)
From Coq Require Import String Permutation.
From Verif Require Import Base Tree_Model Tree_Spec UI_Model UI_Spec
  UI_Proofs UI_Proofs2 UI_Proofs3 UI_Proofs4.
Local Open Scope nat_scope.
Local Open Scope bool_scope.
Local Open Scope list_scope.

(** Instances for the examples: one column per character except zero-width U+200B and the
    double-width CJK block; every character is a grapheme. *)
Definition demo_cw (c : chr) : nat :=
  if N.eqb c 8203 then 0 else if (N.leb 19968 c && N.leb c 40959) then 2 else 1.
Definition demo_w (s : str) : nat := fold_right (fun c n => demo_cw c + n) 0 s.
Definition demo_gr (s : str) : list str := map (fun c => [c]) s.
Lemma demo_w_app a b : demo_w (a ++ b) = demo_w a + demo_w b.
Proof. induction a; simpl; lia. Qed.
Lemma demo_one c : (32 <= c < 127)%N \/ c = ellipsis \/ (9472 <= c <= 9599)%N -> demo_cw c = 1.
Proof.
  intros H. unfold demo_cw, ellipsis in *.
  destruct (N.eqb_spec c 8203); [lia|].
  destruct (N.leb_spec 19968 c), (N.leb_spec c 40959); simpl; lia.
Qed.
Example widths_witness : widths demo_w /\ separator_width demo_w /\ splits demo_gr.
Proof.
  split; [constructor|split].
  - easy.
  - intros a b. rewrite demo_w_app. lia.
  - intros c H. simpl. rewrite demo_one by exact H. easy.
  - intros c s H. simpl. rewrite demo_one by lia. lia.
  - intros a b. rewrite demo_w_app. change (demo_w (slash :: b)) with (1 + demo_w b). lia.
  - intros s. induction s; simpl; [easy|]. rewrite IHs. easy.
Qed.
Local Notation "' s" := (of_string s) (at level 0, s at level 0).

(** ** C34: the display of a path fits (and no assertion fails) *)
Theorem C34_displayed_path_fits :
  forall w graphemes, widths w -> splits graphemes ->
  forall comps cols, path_ok comps -> 2 <= length comps -> 1 <= cols ->
  exists r, display_path w graphemes comps (SingleLine cols) = Ret r /\ w r <= cols.
Proof.
  intros w gr Hw Hg comps cols H1 H2 H3.
  destruct (truncate_path_ok w gr Hw Hg comps cols H1 H2 H3) as (r & E & H & _).
  exists r. split; [exact E|exact H].
Qed.
Print Assumptions C34_displayed_path_fits.

Definition demo_path : list str := [' "/"%string; ' "usr"%string; ' "include"%string; ' "c++"%string; ' "vector.hpp"%string].
Example C34_witness :
  path_ok demo_path /\ 2 <= length demo_path /\
  map (fun n => display_path demo_w demo_gr demo_path (SingleLine n)) [27; 25; 19; 15; 11; 1] =
  [Ret ' "/usr/include/c++/vector.hpp"%string; Ret (' "/usr/"%string ++ [ellipsis] ++ ' "/c++/vector.hpp"%string);
   Ret (' "/"%string ++ [ellipsis] ++ ' "/c++/vector.hpp"%string);
   Ret (' "/"%string ++ [ellipsis] ++ ' "/vector.hpp"%string); Ret [ellipsis]; Ret [ellipsis]].
Proof.
  split; [split; [easy|]|split; [simpl; lia|vm_compute; reflexivity]].
  intros c H. simpl in H. unfold is_root. intuition (subst; discriminate).
Qed.

(** A path of one component gets a spurious separator, and then exceeds its budget (caught by
    an assertion in debug builds only). *)
Theorem C34_one_component_refuted :
  ~ (forall w graphemes, widths w -> splits graphemes ->
     forall comps cols, path_ok comps -> 1 <= cols ->
     exists r, display_path w graphemes comps (SingleLine cols) = Ret r /\ w r <= cols).
Proof.
  intros H. destruct widths_witness as (H1 & _ & H3).
  destruct (H demo_w demo_gr H1 H3 [' "a.cpp"%string] 5) as (r & E & _); [split; easy|lia|].
  vm_compute in E. discriminate.
Qed.
Print Assumptions C34_one_component_refuted.

(** ** C35: what the display of a path looks like *)
Theorem C35_displayed_path_shape :
  forall w graphemes, widths w -> splits graphemes ->
  forall comps cols, path_ok comps -> 2 <= length comps -> 1 <= cols ->
  exists r, display_path w graphemes comps (SingleLine cols) = Ret r /\ path_display comps r.
Proof.
  intros w gr Hw Hg comps cols H1 H2 H3.
  destruct (truncate_path_ok w gr Hw Hg comps cols H1 H2 H3) as (r & E & _ & H).
  exists r. split; [exact E|exact H].
Qed.
Print Assumptions C35_displayed_path_shape.

Theorem C35_path_that_fits_is_shown_in_full :
  forall w graphemes, widths w -> separator_width w ->
  forall comps cols, path_ok comps -> 2 <= length comps -> (forall c, In c comps -> 1 <= w c) ->
  w (full_path comps) <= cols ->
  (length comps = 2 -> absolute comps -> w (full_path comps) < cols) ->
  display_path w graphemes comps (SingleLine cols) = Ret (full_path comps).
Proof. intros w gr Hw Hs. exact (full_when_fits w gr Hw Hs). Qed.
Print Assumptions C35_path_that_fits_is_shown_in_full.

(** The exception for two-component absolute paths is needed. *)
Theorem C35_exact_fit_refuted :
  ~ (forall w graphemes, widths w -> separator_width w -> splits graphemes ->
     forall comps cols, path_ok comps -> 2 <= length comps -> (forall c, In c comps -> 1 <= w c) ->
     w (full_path comps) <= cols ->
     display_path w graphemes comps (SingleLine cols) = Ret (full_path comps)).
Proof.
  intros H. destruct widths_witness as (H1 & H2 & H3).
  specialize (H demo_w demo_gr H1 H2 H3 [' "/"%string; ' "usr"%string] 4).
  enough (E : display_path demo_w demo_gr [' "/"%string; ' "usr"%string] (SingleLine 4)
               = Ret ' "/usr"%string) by (vm_compute in E; discriminate).
  apply H.
  - split; [easy|]. intros c [<-|[]]. discriminate.
  - simpl; lia.
  - intros c [<-|[<-|[]]]; vm_compute; lia.
  - vm_compute. lia.
Qed.
Print Assumptions C35_exact_fit_refuted.

(** The file name is shown whenever it fits after an ellipsis; beyond it, no further
    component would fit on either side. *)
Theorem C35_file_name_shown_and_selection_maximal :
  forall w graphemes, widths w -> splits graphemes -> separator_width w ->
  forall init name cols,
  path_ok (init ++ [name]) -> init <> [] -> w name + 2 <= cols ->
  display_path w graphemes (init ++ [name]) (SingleLine cols) = Ret (full_path (init ++ [name])) \/
  exists F M B, init ++ [name] = F ++ M ++ B /\ M <> [] /\ B <> [] /\
    display_path w graphemes (init ++ [name]) (SingleLine cols)
      = Ret (leading F ++ [ellipsis] ++ trailing B) /\
    (forall m M', M = m :: M' -> cols < w (leading (F ++ [m]) ++ [ellipsis] ++ trailing B)) /\
    (forall m M', M = M' ++ [m] -> cols < w (leading F ++ [ellipsis] ++ trailing (m :: B))).
Proof. intros w gr Hw Hg Hs. exact (path_best w gr Hw Hg Hs). Qed.
Print Assumptions C35_file_name_shown_and_selection_maximal.

Example C35_witness :
  path_display demo_path (' "/usr/"%string ++ [ellipsis] ++ ' "/c++/vector.hpp"%string) /\
  display_path demo_w demo_gr [' "/"%string; ' "a_rather_long_file_name.cpp"%string] (SingleLine 18)
    = Ret ([ellipsis; slash] ++ ' "a_rathe"%string ++ [ellipsis] ++ ' "name.cpp"%string).
Proof.
  split; [|vm_compute; reflexivity].
  exact (pd_elided demo_path [' "/"%string; ' "usr"%string] [' "include"%string]
           [' "c++"%string; ' "vector.hpp"%string] eq_refl ltac:(easy) ltac:(easy)).
Qed.

(** ** C36: strings *)
Theorem C36_short_string_unchanged :
  forall w graphemes s max, w s <= max ->
  display_string w graphemes s (SingleLine max) = Ret s.
Proof. exact display_string_short. Qed.
Print Assumptions C36_short_string_unchanged.

(** A longer string loses some whole graphemes in its middle, and no more than needed:
    neither the header (which gets half of the budget) nor the trailer could take one more. *)
Theorem C36_long_string_elided :
  forall w graphemes, widths w -> splits graphemes ->
  forall s max, max < w s -> 1 <= max -> ~ In newline s -> ~ In 13%N s ->
  exists hs ms ts, graphemes s = hs ++ ms ++ ts /\ ms <> [] /\
    display_string w graphemes s (SingleLine max) = Ret (concat hs ++ [ellipsis] ++ concat ts) /\
    w (concat hs ++ [ellipsis] ++ concat ts) <= max /\
    sumw w hs <= (max - 1) / 2 /\ sumw w hs + 1 + sumw w ts <= max /\
    (forall g r, ms = g :: r -> (max - 1) / 2 < sumw w hs + w g) /\
    (forall g r, ms = r ++ [g] -> max < sumw w hs + 1 + sumw w ts + w g).
Proof. intros w gr Hw Hg. exact (display_string_long w gr Hw Hg). Qed.
Print Assumptions C36_long_string_elided.

Theorem C36_displayed_string_fits :
  forall w graphemes, widths w -> splits graphemes ->
  forall s max, 1 <= max -> ~ In newline s -> ~ In 13%N s ->
  exists r, display_string w graphemes s (SingleLine max) = Ret r /\ w r <= max.
Proof. intros w gr Hw Hg. exact (display_string_fits w gr Hw Hg). Qed.
Print Assumptions C36_displayed_string_fits.

Example C36_witness :
  display_string demo_w demo_gr ' "Coucou, tu veux voir mon string ?"%string (SingleLine 8)
    = Ret (' "Cou"%string ++ [ellipsis] ++ ' "ng ?"%string) /\
  display_string demo_w demo_gr ([20013; 20014; 20015; 20016]%N) (SingleLine 6)
    = Ret ([20013; 8230; 20016]%N).
Proof. split; vm_compute; reflexivity. Qed.

(** ** C37: activity descriptions *)
Theorem C37_description_fits_or_is_refused :
  forall w graphemes, widths w -> splits graphemes ->
  forall name arg max, arg_ok arg -> cpp_fits w arg ->
  (max < w name + 3 * b2n (has_argument arg) /\
   display_activity_desc w graphemes name arg (SingleLine max) = Ret (DNotEnoughCols max)) \/
  (w name + 3 * b2n (has_argument arg) <= max /\
   exists rest, display_activity_desc w graphemes name arg (SingleLine max)
       = Ret (DOk false (name ++ rest)) /\ w (name ++ rest) <= max /\
     (has_argument arg = false -> rest = []) /\
     (has_argument arg = true -> exists s, rest = of_string "(" ++ s ++ of_string ")" /\
         w s <= max - (w name + 2))).
Proof. intros w gr Hw Hg. exact (display_activity_desc_ok w gr Hw Hg). Qed.
Print Assumptions C37_description_fits_or_is_refused.

Theorem C37_activity_line_fits :
  forall w graphemes, widths w -> splits graphemes ->
  forall name arg profile_info max, arg_ok arg -> cpp_fits w arg -> 1 <= w name -> 1 <= max ->
  exists r, display_activity w graphemes name arg max profile_info = Ret r /\ w r <= max.
Proof. intros w gr Hw Hg. exact (display_activity_ok w gr Hw Hg). Qed.
Print Assumptions C37_activity_line_fits.

(** The line has the description followed by the profile information if the name (and
    parentheses) fit beside it, else the description alone, else an ellipsis. *)
Theorem C37_activity_line_content :
  forall w graphemes name arg profile_info max, 1 <= max ->
  let needed := w name + (match arg with ANothing => 0 | _ => 3 end) in
  (w profile_info + needed <= max -> forall desc,
     display_activity_desc w graphemes name arg (SingleLine (max - w profile_info)) = Ret (DOk false desc) ->
     display_activity w graphemes name arg max profile_info = Ret (desc ++ profile_info)) /\
  (1 <= needed -> needed <= max < w profile_info + needed -> forall desc,
     display_activity_desc w graphemes name arg (SingleLine max) = Ret (DOk false desc) ->
     display_activity w graphemes name arg max profile_info = Ret desc) /\
  (max < needed -> display_activity w graphemes name arg max profile_info = Ret [ellipsis]).
Proof.
  intros w gr name arg info max H. pose proof (display_activity_content w gr name arg info max H) as D.
  destruct arg; exact D.
Qed.
Print Assumptions C37_activity_line_content.

(** Details (multi-line): the name alone, or followed by the complete argument; the reader is
    told that the text should be wrapped. *)
Theorem C37_detailed_description_is_complete :
  forall w graphemes name,
  display_activity_desc w graphemes name ANothing MultiLine = Ret (DOk true name) /\
  forall arg text, argument_text arg text ->
  display_activity_desc w graphemes name arg MultiLine
    = Ret (DOk true (name ++ of_string "(" ++ text ++ of_string ")")).
Proof. exact multi_line_desc. Qed.
Print Assumptions C37_detailed_description_is_complete.

(** On a line, the argument gets all the columns that the name and the parentheses leave. *)
Theorem C37_argument_gets_the_remaining_columns :
  forall w graphemes name arg max text,
  w name + 3 <= max -> argument_within w graphemes arg (max - w name - 2) text ->
  display_activity_desc w graphemes name arg (SingleLine max)
    = Ret (DOk false (name ++ of_string "(" ++ text ++ of_string ")")).
Proof. exact single_line_desc. Qed.
Print Assumptions C37_argument_gets_the_remaining_columns.

(** So an argument other than a path or a C++ entity is complete as soon as it fits. *)
Theorem C37_short_argument_is_complete :
  forall w graphemes name arg max text,
  argument_text arg text -> (forall p, arg <> AFilePath p) -> (forall b f, arg <> ACpp b f) ->
  w name + 3 <= max -> w name + w text + 2 <= max ->
  display_activity_desc w graphemes name arg (SingleLine max)
    = Ret (DOk false (name ++ of_string "(" ++ text ++ of_string ")")).
Proof. exact short_argument. Qed.
Print Assumptions C37_short_argument_is_complete.

Example C37_details_witness :
  argument_text (AFilePath demo_path) ' "/usr/include/c++/vector.hpp"%string /\
  display_activity_desc demo_w demo_gr ' "Source"%string (AFilePath demo_path) MultiLine
    = Ret (DOk true ' "Source(/usr/include/c++/vector.hpp)"%string) /\
  display_activity_desc demo_w demo_gr ' "OptModule"%string AModule (SingleLine 19)
    = Ret (DOk false ' "OptModule([module])"%string).
Proof.
  split; [|split; vm_compute; reflexivity].
  refine (at_path [' "/"%string; ' "usr"%string; ' "include"%string; ' "c++"%string] ' "vector.hpp"%string _).
  apply C34_witness.
Qed.

Example C37_witness :
  arg_ok (AFilePath demo_path) /\ cpp_fits demo_w (AFilePath demo_path) /\
  map (fun n => display_activity demo_w demo_gr ' "Source"%string (AFilePath demo_path) n ' " [1.00ms, 3.00%]"%string)
    [55; 33; 16; 8]
  = [Ret ' "Source(/usr/include/c++/vector.hpp) [1.00ms, 3.00%]"%string;
     Ret (' "Source("%string ++ [ellipsis] ++ ' ") [1.00ms, 3.00%]"%string);
     Ret (' "Source("%string ++ [ellipsis] ++ ' ")"%string); Ret [ellipsis]].
Proof.
  split; [split; [apply C34_witness|simpl; lia]|]. split; [easy|vm_compute; reflexivity].
Qed.

(** ** C38: metadata *)
Theorem C38_metadata_lines_fit :
  forall w rfc3339 debug_str, widths w ->
  (forall us, ~ In newline (rfc3339 us)) -> (forall s, ~ In newline (debug_str s)) ->
  forall process_name pid thread_name beginning_of_time max,
  1 <= max -> ~ In newline process_name ->
  (forall us, beginning_of_time = Some us -> years_0_to_9999 us) ->
  exists r, metadata w rfc3339 debug_str process_name pid thread_name beginning_of_time max = Ret r /\
    Forall (fun l => w l <= max) (lines r).
Proof. intros w d g Hw H1 H2. exact (metadata_ok w d g Hw H1 H2). Qed.
Print Assumptions C38_metadata_lines_fit.

(** Exactly other dates make it panic, when there is room to show them. *)
Theorem C38_panics_exactly :
  forall w rfc3339 debug_str process_name pid thread_name beginning_of_time max,
  metadata w rfc3339 debug_str process_name pid thread_name beginning_of_time max = Panic <->
  max = 0 \/
  (w (of_string "Data from " ++ process_name) < max /\
   exists us, beginning_of_time = Some us /\ ~ years_0_to_9999 us).
Proof. exact metadata_panics. Qed.
Print Assumptions C38_panics_exactly.

(** The process name, then the items that are known, abbreviated if too wide for a line:
    nothing but line breaks is added, nothing else is lost, and lines are only broken where
    the next item does not fit. *)
Theorem C38_metadata_text :
  forall w rfc3339 debug_str,
  (forall us, ~ In newline (rfc3339 us)) -> (forall s, ~ In newline (debug_str s)) ->
  forall process_name pid thread_name beginning_of_time max r,
  ~ In newline process_name -> w (of_string "Data from " ++ process_name) < max ->
  metadata w rfc3339 debug_str process_name pid thread_name beginning_of_time max = Ret r ->
  exists items, metadata_items rfc3339 debug_str pid thread_name beginning_of_time items /\
    unfold_lines r = of_string "Data from " ++ process_name
      ++ concat (map (fun e => of_string ", " ++ abbreviated w max e) items) ++ of_string "." /\
    (comma_width w ->
     laid_out w max (of_string "Data from " ++ process_name) (map (abbreviated w max) items) (lines r)).
Proof. intros w d g H1 H2. exact (metadata_text w d g H1 H2). Qed.
Print Assumptions C38_metadata_text.

(** A process name that does not fit on a line is all that is abbreviated. *)
Theorem C38_narrow_screen :
  forall w rfc3339 debug_str process_name pid thread_name beginning_of_time max,
  1 <= max -> max <= w (of_string "Data from " ++ process_name) ->
  metadata w rfc3339 debug_str process_name pid thread_name beginning_of_time max = Ret [ellipsis].
Proof. exact metadata_narrow. Qed.
Print Assumptions C38_narrow_screen.

Definition demo_debug (s : str) : str :=
  ' """"%string ++ filter (fun c => negb (N.eqb c newline)) s ++ ' """"%string.
Definition demo_meta (bot : Z) : nat -> outcome str :=
  metadata demo_w (fun _ => ' "2022-06-29T13:18:22.311015Z"%string) demo_debug
    ' "clang-14.0.5"%string (Some 5884%Z) (Some ' "clang++"%string) (Some bot).
Example C38_witness :
  years_0_to_9999 1656508702311015 /\
  map (demo_meta 1656508702311015) [89; 88; 30; 22] =
  [Ret ' "Data from clang-14.0.5, pid 5884, thread ""clang++"", recorded 2022-06-29T13:18:22.311015Z."%string;
   Ret (' "Data from clang-14.0.5, pid 5884, thread ""clang++"","%string ++ [newline]
     ++ ' "recorded 2022-06-29T13:18:22.311015Z."%string);
   Ret (' "Data from clang-14.0.5,"%string ++ [newline] ++ ' "pid 5884, thread ""clang++"", "%string
     ++ [ellipsis; dot]);
   Ret [ellipsis]].
Proof. split; [unfold years_0_to_9999; lia|vm_compute; reflexivity]. Qed.

Example C38_layout_witness :
  comma_width demo_w /\ demo_w ' "Data from clang-14.0.5"%string < 36 /\
  metadata_items (fun _ => ' "2022-06-29T13:18:22.311015Z"%string) demo_debug
    (Some 5884%Z) (Some ' "clang++"%string) (Some 1656508702311015%Z)
    [' "pid 5884"%string; ' "thread ""clang++"""%string; ' "recorded 2022-06-29T13:18:22.311015Z"%string] /\
  demo_meta 1656508702311015 36 = Ret (' "Data from clang-14.0.5, pid 5884,"%string ++ [newline]
    ++ ' "thread ""clang++"", "%string ++ [ellipsis; dot]).
Proof.
  split; [|split; [vm_compute; lia|split; [|vm_compute; reflexivity]]].
  - intros a b. rewrite !demo_w_app. change (demo_w [comma; space]) with 2. lia.
  - exists [' "pid 5884"%string], [' "thread ""clang++"""%string], [' "recorded 2022-06-29T13:18:22.311015Z"%string].
    split; [reflexivity|]. repeat split; constructor; try (vm_compute; reflexivity).
    exists ' "5884"%string. split; [reflexivity|]. left. exists [5; 8; 8; 4]%Z.
    split; [reflexivity|]. split; [discriminate|]. split; [repeat constructor; lia|].
    split; [discriminate|reflexivity].
Qed.

(** The recording date is converted without a check: a trace that claims to have been
    recorded after year 9999 makes the display panic. *)
Theorem C38_any_recording_date_refuted :
  ~ (forall w rfc3339 debug_str, widths w ->
     forall process_name pid thread_name beginning_of_time max, 1 <= max ->
     exists r, metadata w rfc3339 debug_str process_name pid thread_name beginning_of_time max = Ret r).
Proof.
  intros H. destruct widths_witness as (H1 & _ & _).
  destruct (H demo_w (fun _ => []) demo_debug H1 [] None None (Some 300000000000000000%Z) 20) as (r & E); [lia|].
  vm_compute in E. discriminate.
Qed.
Print Assumptions C38_any_recording_date_refuted.

(** ** C39: durations *)
Theorem C39_duration_display_canonical :
  forall round2, rounds round2 -> forall d, (0 <= d)%Z ->
  exists s, display_duration round2 d = Ret s /\ duration_display d s.
Proof. exact duration_ok. Qed.
Print Assumptions C39_duration_display_canonical.

Definition half_up (num den : Z) : Z := ((200 * num + den) / (2 * den))%Z.
Example C39_witness :
  rounds half_up /\
  map (display_duration half_up)
    [12; 999994; 999995; 59994999; 59995000; 3599994999; 3599995000; 86399994999; 86399995000; 712921357000]%Z
  = [Ret (' "12"%string ++ [181%N] ++ ' "s"%string); Ret ' "999.99ms"%string; Ret ' "1.00s"%string;
     Ret ' "59.99s"%string; Ret ' "1:00.00"%string; Ret ' "59:59.99"%string; Ret ' "1:00:00.00"%string;
     Ret ' "23:59:59.99"%string; Ret ' "1d 00:00:00.00"%string; Ret ' "8d 06:02:01.36"%string].
Proof.
  split; [|vm_compute; reflexivity].
  intros num den Hn Hd. unfold half_up.
  pose proof (Z.div_mod (200 * num + den) (2 * den) ltac:(lia)) as H.
  pose proof (Z.mod_pos_bound (200 * num + den) (2 * den) ltac:(lia)) as Hb.
  split; [apply Z.div_pos; lia|]. nia.
Qed.

(** ** C40: hierarchical profile *)
Theorem C40_profile_lines_fit :
  forall w graphemes, widths w -> splits graphemes ->
  forall sort_desc, sorts sort_desc ->
  forall (relative : act_tree -> Z) threshold terminator root max, 1 <= max -> act_ok w root ->
  exists t,
    hierarchical_profile_tree w graphemes
      (fun l => hottest_activities sort_desc l relative threshold) terminator root max = Ret t /\
    Forall (fun l => w l <= max) (render_tree t).
Proof.
  intros w gr Hw Hg sort Hs rel thr term root max Hm Hok.
  apply (hierarchical_ok w gr Hw Hg); [|easy|easy].
  intros l. destruct (hottest_ok sort Hs l rel thr) as [Hp _]. split.
  - intros x Hx. apply (Permutation_in _ (Permutation_sym Hp)) in Hx.
    apply filter_In in Hx. apply Hx.
  - rewrite <- (Permutation_length Hp). clear. induction l as [|x l IH]; simpl; [lia|].
    destruct (_ <=? _)%Z; simpl; lia.
Qed.
Print Assumptions C40_profile_lines_fit.

Theorem C40_profile_content :
  forall w graphemes sort_desc, sorts sort_desc ->
  forall (relative : act_tree -> Z) threshold terminator root max t,
  hierarchical_profile_tree w graphemes
    (fun l => hottest_activities sort_desc l relative threshold) terminator root max = Ret t ->
  shows w graphemes relative threshold terminator max root t.
Proof.
  intros w gr sort Hs rel thr term root max t.
  exact (profile_shows w gr sort Hs rel thr term (S max) root max t).
Qed.
Print Assumptions C40_profile_content.

(** How it is drawn: one line per node, parents first, with the glyphs of its ancestors. *)
Theorem C40_drawing : forall t, render_tree t = map node_line (nodes [] t).
Proof. exact render_tree_nodes. Qed.
Print Assumptions C40_drawing.
Example C40_drawing_witness :
  let t := TT ' "a"%string [TT ' "b"%string [TT ' "c"%string []]; TT ' "d"%string [TT ' "e"%string []]] in
  nodes [] t = [([], ' "a"%string); ([false], ' "b"%string); ([false; true], ' "c"%string);
                ([true], ' "d"%string); ([true; true], ' "e"%string)] /\
  render_tree t = [' "a"%string; [9500; 9472; 98]%N; [9474; 32; 9492; 9472; 99]%N;
                   [9492; 9472; 100]%N; [32; 32; 9492; 9472; 101]%N].
Proof. split; reflexivity. Qed.

(** An insertion sort, for the examples. *)
Fixpoint insert_desc {A} (key : A -> Z) (x : A) (l : list A) : list A :=
  match l with
  | [] => [x]
  | y :: r => if (key y <=? key x)%Z then x :: l else y :: insert_desc key x r
  end.
Definition isort (A : Type) (key : A -> Z) (l : list A) : list A := fold_right (insert_desc key) [] l.
Example sorts_witness : sorts isort.
Proof.
  intros A key l. induction l as [|x l [IH1 IH2]]; [split; constructor|]. simpl.
  set (m := isort A key l) in *. clearbody m. split.
  - transitivity (x :: m); [constructor; exact IH1|]. clear. induction m as [|y m IH]; simpl; [reflexivity|].
    destruct (_ <=? _)%Z; [reflexivity|]. rewrite perm_swap. constructor. exact IH.
  - clear IH1 l. induction m as [|y m IH]; [exact I|]. simpl insert_desc.
    destruct (Z.leb_spec (key y) (key x)).
    + split; [easy|exact IH2].
    + destruct m as [|z m].
      * simpl. split; [lia|exact I].
      * destruct IH2 as [H1 H2]. specialize (IH H2). simpl insert_desc in *.
        destruct (Z.leb_spec (key z) (key x)).
        -- split; [lia|]. exact IH.
        -- split; [lia|]. exact IH.
Qed.

Definition demo_tree : act_tree :=
  Act ' "ExecuteCompiler"%string ANothing ' " [10s]"%string 100
    [Act ' "Frontend"%string ANothing ' " [3s]"%string 30 [];
     Act ' "Backend"%string ANothing ' " [6s]"%string 60
       [Act ' "RunPass"%string (AString ' "inline"%string) ' " [5s]"%string 50 []];
     Act ' "Total"%string ANothing ' " [0s]"%string 1 []].
Definition demo_rel (a : act_tree) : Z := let '(Act _ _ _ r _) := a in r.
Example C40_witness :
  act_ok demo_w demo_tree /\
  exists t, hierarchical_profile_tree demo_w demo_gr
    (fun l => hottest_activities isort l demo_rel 10) (fun n => ' "more"%string) demo_tree 22 = Ret t /\
    render_tree t =
    [' "ExecuteCompiler [10s]"%string;
     [middle_item; item_indent] ++ ' "Backend [6s]"%string;
     [middle_skip; space; last_item; item_indent] ++ ' "RunPass(i"%string ++ [ellipsis]
       ++ ' "ne) [5s]"%string;
     [middle_item; item_indent] ++ ' "Frontend [3s]"%string;
     [last_item; item_indent] ++ ' "more"%string].
Proof.
  split.
  - unfold demo_tree. repeat (constructor; try (vm_compute; lia); try easy);
      simpl; intuition discriminate.
  - eexists. split; vm_compute; reflexivity.
Qed.

(** ** C41: statistics *)
Theorem C41_breakdown :
  forall sort_desc, sorts sort_desc ->
  forall activities,
  let b := activity_type_breakdown sort_desc activities in
  NoDup (map fst b) /\
  (forall name, In name (map fst b) <-> In name (map fst activities)) /\
  (forall name t, In (name, t) b -> t = total_of name activities) /\
  decreasing snd b /\ sum_snd b = sum_snd activities.
Proof. exact breakdown_ok. Qed.
Print Assumptions C41_breakdown.

Theorem C41_breakdown_of_trace_adds_up_to_root_durations :
  forall sort_desc, sorts sort_desc ->
  forall (xs : list (stat str)) (t : tree str), tree_of xs t ->
  exists roots total, root_activities t = Ret roots /\ osum (duration t) roots = Ret total /\
    sum_snd (trace_breakdown sort_desc t) = total.
Proof. exact trace_breakdown_total. Qed.
Print Assumptions C41_breakdown_of_trace_adds_up_to_root_durations.

Theorem C41_hottest :
  forall sort_desc, sorts sort_desc ->
  forall (A : Type) (activities : list A) duration threshold,
  Permutation (filter (fun a => (threshold <=? duration a)%Z) activities)
    (hottest_activities sort_desc activities duration threshold) /\
  decreasing duration (hottest_activities sort_desc activities duration threshold).
Proof. intros s Hs A. exact (@hottest_ok s Hs A). Qed.
Print Assumptions C41_hottest.

Example C41_witness :
  activity_type_breakdown isort [(' "A"%string, 3); (' "B"%string, 5); (' "A"%string, 4); (' "C"%string, 0)]%Z
    = [(' "A"%string, 7); (' "B"%string, 5); (' "C"%string, 0)]%Z /\
  hottest_activities isort [3; 9; 5; 12]%Z (fun x => x) 5%Z = [12; 9; 5]%Z.
Proof. split; vm_compute; reflexivity. Qed.

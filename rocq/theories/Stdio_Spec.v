(** Specification vocabulary for the non-interactive report. *)
From Coq Require Import String QArith Permutation.
From Verif Require Import Base Tree_Model Tree_Spec UI_Model UI_Spec Stdio_Model.
Local Open Scope nat_scope.
Local Open Scope bool_scope.
Local Open Scope list_scope.
Local Notation "' s" := (of_string s) (at level 0, s at level 0).

(** [d] is at least [p] percent of [total]. *)
Definition reaches (p : Q) (total d : Z) : Prop := (p * inject_Z total <= 100 * inject_Z d)%Q.

(** The argument that is shown: the parsed one, or else the raw text. *)
Definition shown_argument (a : activity) (arg : argument) : Prop :=
  a_parse a = Ret (Some arg) \/
  a_parse a = Ret None /\
    arg = match a_detail a with Some text => AString text | None => ANothing end.

(** Activities that can be described: they have a visible name, the parser does not panic on
    their argument, and the argument can be shown (see [arg_ok], [cpp_fits]). *)
Definition describable (w : str -> nat) (a : activity) : Prop :=
  1 <= w (a_name a) /\ exists arg, shown_argument a arg /\ arg_ok arg /\ cpp_fits w arg.

Section Report.
  Variable w : str -> nat.
  Variable graphemes : str -> list str.
  Variable two_decimals : number -> str.

  (** " [<duration>, <percentage>%]" *)
  Definition profile_text (total d : Z) (text : str) : Prop :=
    exists D q, duration_display d D /\ (q * inject_Z total == 100 * inject_Z d)%Q /\
      text = ' " [" ++ D ++ ' ", " ++ two_decimals (Fin q) ++ ' "%]".

  (** The description of an activity within [max] columns: name and argument with the profile
      information if that is possible, else without it, else an ellipsis. *)
  Definition needed (a : activity) (arg : argument) : nat :=
    w (a_name a) + (match arg with ANothing => 0 | _ => 3 end).
  Definition described (cols : nat) (a : activity) (arg : argument) (desc : str) : Prop :=
    match arg with
    | ANothing => desc = a_name a
    | _ => exists text, argument_within w graphemes arg (cols - w (a_name a) - 2) text /\
             desc = a_name a ++ ' "(" ++ text ++ ' ")"
    end.
  Inductive activity_text (max : nat) (a : activity) (total d : Z) : str -> Prop :=
  | at_full arg desc info :
      shown_argument a arg -> described (max - w info) a arg desc -> profile_text total d info ->
      needed a arg + w info <= max -> w (desc ++ info) <= max ->
      activity_text max a total d (desc ++ info)
  | at_name arg desc info :
      shown_argument a arg -> described max a arg desc -> profile_text total d info ->
      needed a arg <= max < needed a arg + w info -> w desc <= max ->
      activity_text max a total d desc
  | at_ellipsis arg :
      shown_argument a arg -> max < needed a arg -> 1 <= max ->
      activity_text max a total d [ellipsis].

  (** "- ... and <n> other <things> below <p>% ...", if n > 0 *)
  Definition others (n : nat) (things : str) (p : Q) (ls : list str) : Prop :=
    n = 0 /\ ls = [] \/
    1 <= n /\ exists q, (q == p)%Q /\
      ls = [' "- ... and " ++ digits (Z.of_nat n) ++ ' " other " ++ things ++ ' " below "
              ++ two_decimals (Fin q) ++ ' "% ..."].

  (** The breakdown by activity type of activities given by their names and self durations:
      each type with its total, the types that reach the threshold by decreasing total, then
      how many do not. *)
  Definition types_section (activities : list (str * Z)) (total : Z) (p : Q) (ls : list str)
    : Prop :=
    exists shown hidden texts last,
      NoDup (map fst (shown ++ hidden)) /\
      (forall name, In name (map fst (shown ++ hidden)) <-> In name (map fst activities)) /\
      Forall (fun e => snd e = total_of (fst e) activities) (shown ++ hidden) /\
      decreasing snd shown /\
      Forall (fun e => reaches p total (snd e)) shown /\
      Forall (fun e => ~ reaches p total (snd e)) hidden /\
      Forall2 (fun e text => exists info, profile_text total (snd e) info /\
                 text = ' "- " ++ fst e ++ info) shown texts /\
      others (length hidden) ' "activity types" p last /\
      ls = texts ++ last.

  (** The flat profile: the activities (given with their self durations) that reach the
      threshold, by decreasing self duration, then how many do not. *)
  Definition flat_section (activities : list (activity * Z)) (total : Z) (p : Q) (max : nat)
      (ls : list str) : Prop :=
    exists shown hidden texts last,
      Permutation activities (shown ++ hidden) /\
      decreasing snd shown /\
      Forall (fun e => reaches p total (snd e)) shown /\
      Forall (fun e => ~ reaches p total (snd e)) hidden /\
      Forall2 (fun e text => exists desc, activity_text (max - 2) (fst e) total (snd e) desc /\
                 text = ' "- " ++ desc) shown texts /\
      others (length hidden) ' "activities" p last /\
      ls = texts ++ last.

  (** The tree of an activity: its description; then, if that leaves any columns, the
      trees of its direct children that reach the threshold, by decreasing duration, then
      how many do not. *)
  Inductive hierarchy (t : tree activity) (total : Z) (p : Q)
    : nat -> nat -> text_tree -> Prop :=
  | hi_leaf max id n label :
      max <= 2 -> activity_trace t id = Ret n ->
      activity_text max (s_act (n_stat n)) total (s_dur (n_stat n)) label ->
      hierarchy t total p max id (TT label [])
  | hi_node max id n label children shown hidden trees last :
      2 < max -> activity_trace t id = Ret n ->
      activity_text max (s_act (n_stat n)) total (s_dur (n_stat n)) label ->
      direct_children t id = Ret (map fst children) ->
      Forall (fun c => duration t (fst c) = Ret (snd c)) children ->
      Permutation children (shown ++ hidden) ->
      decreasing snd shown ->
      Forall (fun c => reaches p total (snd c)) shown ->
      Forall (fun c => ~ reaches p total (snd c)) hidden ->
      Forall2 (fun c tree => hierarchy t total p (max - 2) (fst c) tree) shown trees ->
      (hidden = [] /\ last = [] \/
       hidden <> [] /\ exists q text, (q == p)%Q /\ last = [TT text []] /\
         let full := [ellipsis] ++ digits (Z.of_nat (length hidden)) ++ ' " callee(s) below "
                       ++ two_decimals (Fin q) ++ ' "%" ++ [ellipsis] in
         (w full <= max - 2 /\ text = full \/ max - 2 < w full /\ text = [ellipsis])) ->
      hierarchy t total p max id (TT label (trees ++ last)).
End Report.

(** The activities of a trace, with their self durations. *)
Definition with_self (t : tree activity) (xs : list (stat activity)) (l : list (activity * Z)) : Prop :=
  Forall2 (fun i e => (exists s, reported xs i s /\ s_act s = fst e)
                      /\ self_duration t i = Ret (snd e)) (seq 0 (length xs)) l.

(** What is printed before the tree of the root activity. *)
Definition first_part (w : str -> nat) (graphemes : str -> list str) (rfc3339 : Z -> str) (debug_str : str -> str)
    (two_decimals : number -> str) (tr : trace) (xs : list (stat activity)) (total : Z) (p : Q)
    (max : nat) (out : list line) : Prop :=
  exists meta activities types flat,
    metadata w rfc3339 debug_str (tr_process tr) (tr_pid tr) (tr_thread tr) (tr_bot tr) max
      = Ret meta /\
    with_self (tr_tree tr) xs activities /\
    types_section two_decimals (map (fun e => (a_name (fst e), snd e)) activities) total p types /\
    flat_section w graphemes two_decimals activities total p max flat /\
    out = Stderr ' "Processing input data..." :: map Stdout (
            [newline :: meta] ++
            [newline :: ' "Self-duration breakdown by activity type:"] ++ types ++
            [newline :: ' "Hottest activities by self-duration:"] ++ flat ++
            [newline :: ' "Hierarchical profile:"]).

(** Columns that may be used: those asked for, but no more than the terminal has. *)
Definition columns (terminal_width : option nat) (asked : nat) : nat :=
  match terminal_width with
  | Some width => if Nat.leb width asked then width else asked
  | None => asked
  end.

(** A trace that can be reported: its tree is the one of the activities [xs], which can be
    described and do not take negative time, and its date is one the display knows. *)
Record reportable (w : str -> nat) (tr : trace) (xs : list (stat activity)) : Prop := {
  rp_tree : tree_of xs (tr_tree tr);
  rp_desc : Forall (fun s => describable w (s_act s)) xs;
  rp_time : Forall (fun s => (0 <= s_dur s)%Z) xs;
  rp_name : ~ In newline (tr_process tr);
  rp_date : forall us, tr_bot tr = Some us -> years_0_to_9999 us }.

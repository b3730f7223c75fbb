(** Model of the table that displays a full-build profile: src/ui/tui/build/display.rs.

    Simplifications:
    - The formats of memory sizes and of times are parameters.
    - Of cursive_table_view: the table keeps the order of its rows as a list of indices into
      its items, which is sorted by comparing items two at a time; drawing a row asks for the
      text of each of its cells.  The sorting algorithm is a parameter: a tree of comparisons.
      Any row may be drawn (which ones are depends on the size of the terminal and scrolling).
    - Unsigned underflow and failed debug assertions panic (debug build). *)
From Verif Require Import Base Asylum_Model Cmd_Model UI_Model.
Local Open Scope nat_scope.

(** cmakeperf/src/output.rs:52-65 *)
Record unit_profile := { u_path : str; u_rss : N; u_time : option f32 }.
(** output.rs:96-110, see Cmd_Model.v *)
Definition u_wall_time (u : unit_profile) : option (duration + f32) := wall_time (u_time u).

(** display.rs:110-119 *)
Inductive column := MaxRSS | WallTime | RelPath (cols : nat).

(** ** Comparisons (display.rs:147-161) *)

(** `f32::partial_cmp`: finite values are compared exactly, scaled to integers; infinities are
    beyond all of them *)
Definition scaled (x : f32) : Z :=
  match x with
  | FNan => 0
  | FInf neg => if neg then - 2 ^ 400 else 2 ^ 400
  | FFin neg m e => if neg then - (Z.of_N m * 2 ^ (e + 149)) else Z.of_N m * 2 ^ (e + 149)
  end%Z.
Definition f32_partial_cmp (x y : f32) : option comparison :=
  match x, y with
  | FNan, _ | _, FNan => None
  | _, _ => Some (scaled x ?= scaled y)%Z
  end.
(** derived PartialOrd of Result: Ok is less than Err *)
Definition time_partial_cmp (x y : duration + f32) : option comparison :=
  match x, y with
  | inl a, inl b => Some (a ?= b)%N
  | inl _, inr _ => Some Lt
  | inr _, inl _ => Some Gt
  | inr a, inr b => f32_partial_cmp a b
  end.

(** derived Ord of std::path::Component: by variant, then by contents (bytes, hence code
    points) *)
Fixpoint str_compare (a b : str) : comparison :=
  match a, b with
  | [], [] => Eq
  | [], _ => Lt
  | _, [] => Gt
  | x :: a', y :: b' => match (x ?= y)%N with Eq => str_compare a' b' | c => c end
  end.
Definition variant (c : component) : N :=
  match c with RootDir => 1 | CurDir => 2 | ParentDir => 3 | Normal _ => 4 end%N.
Definition component_compare (a b : component) : comparison :=
  match (variant a ?= variant b)%N with
  | Eq => match a, b with Normal s, Normal t => str_compare s t | _, _ => Eq end
  | c => c
  end.
(** Ord of std::path::Path: lexicographic *)
Fixpoint components_compare (a b : list component) : comparison :=
  match a, b with
  | [], [] => Eq
  | [], _ => Lt
  | _, [] => Gt
  | x :: a', y :: b' => match component_compare x y with Eq => components_compare a' b' | c => c end
  end.

(** display.rs:147-161 *)
Definition unit_cmp (u v : unit_profile) (c : column) : outcome comparison :=
  match c with
  | MaxRSS => Ret (u_rss u ?= u_rss v)%N
  | WallTime =>
      match u_wall_time u, u_wall_time v with
      | Some x, Some y => expect (time_partial_cmp x y)
      | _, _ => Panic
      end
  | RelPath _ => Ret (components_compare (path_components (u_path u)) (path_components (u_path v)))
  end.

(** ** Sorting: an algorithm compares elements, and finally gives a list *)
Inductive sorting := Sorted (l : list nat) | Compare (a b : nat) (k : comparison -> sorting).
Fixpoint run_sorting (s : sorting) (cmp : nat -> nat -> outcome comparison) : outcome (list nat) :=
  match s with
  | Sorted l => Ret l
  | Compare a b k => obind (cmp a b) (fun c => run_sorting (k c) cmp)
  end.

Section Table.
  Variable w : str -> nat.
  Variable graphemes : str -> list str.
  Variable show_gb : N -> str.                          (* "{:.2} GB" *)
  Variable show_seconds : duration + f32 -> str.        (* "{:.1}s" *)
  Variable sort : list nat -> sorting.                  (* slice::sort_by *)

  (** display.rs:122-145 *)
  Definition to_column (u : unit_profile) (c : column) : outcome str :=
    match c with
    | MaxRSS => Ret (show_gb (u_rss u))
    | WallTime => obind (expect (u_wall_time u)) (fun t => Ret (show_seconds t))
    | RelPath cols => truncate_path w graphemes (map component_str (path_components (u_path u))) cols
    end.

  Record table := {
    t_items : list unit_profile;
    t_columns : list column;
    t_order : list nat }.                               (* rows_to_items *)

  (** cursive_table_view: sort_items; [descending] is Ordering::Greater *)
  Definition sort_by (t : table) (c : column) (descending : bool) : outcome table :=
    let cmp a b :=
      obind (expect (nth_error (t_items t) a)) (fun u =>
      obind (expect (nth_error (t_items t) b)) (fun v =>
      if descending then unit_cmp v u c else unit_cmp u v c)) in
    obind (run_sorting (sort (t_order t)) cmp) (fun l =>
      Ret {| t_items := t_items t; t_columns := t_columns t; t_order := l |}).

  (** cursive_table_view: the cells of a row *)
  Fixpoint cells (u : unit_profile) (cs : list column) : outcome (list str) :=
    match cs with
    | [] => Ret []
    | c :: r => obind (to_column u c) (fun x => obind (cells u r) (fun y => Ret (x :: y)))
    end.
  Definition draw_row (t : table) (row : nat) : outcome (list str) :=
    obind (expect (nth_error (t_order t) row)) (fun a =>
    obind (expect (nth_error (t_items t) a)) (fun u =>
    cells u (t_columns t))).

  (** display.rs:31-34 *)
  Definition has_walltime (profile : list unit_profile) : bool :=
    match profile with
    | u :: _ => match u_wall_time u with Some _ => true | None => false end
    | [] => false
    end.

  (** display.rs:41-46 *)
  Definition max_rss_width : nat := 10.
  Definition wall_time_width : nat := 8.
  Definition non_file_width (timed : bool) : nat :=
    max_rss_width + 5 + (if timed then wall_time_width + 3 else 0).

  (** display.rs:22-105 *)
  Definition display_profile (profile : list unit_profile) (terminal_width terminal_height : nat)
    : outcome table :=
    let timed := has_walltime profile in
    obind (usub terminal_width (non_file_width timed)) (fun file_width =>
    let t := {| t_items := profile;
                t_columns := MaxRSS :: (if timed then [WallTime] else []) ++ [RelPath file_width];
                t_order := seq 0 (length profile) |} in
    obind (match profile with
           | [] => Ret t                                (* sort_items does nothing *)
           | _ => sort_by t MaxRSS true
           end) (fun t =>
    obind (usub terminal_height 1) (fun _ => Ret t))).

  (** The user sorts the table by one of its columns, in either direction. *)
  Inductive table_reach (profile : list unit_profile) (tw th : nat) : outcome table -> Prop :=
  | tr_open : table_reach profile tw th (display_profile profile tw th)
  | tr_sort t c d : table_reach profile tw th (Ret t) -> In c (t_columns t) -> t_items t <> [] ->
      table_reach profile tw th (sort_by t c d).
End Table.

(** Specification vocabulary for the table of a build profile. *)
From Coq Require Import Permutation Sorting.Sorted.
From Verif Require Import Base Asylum_Model Cmd_Model UI_Model UI_Spec Table_Model.
Local Open Scope nat_scope.

(** A total preorder, as a comparison function on the elements of a list. *)
Record preorder {A} (on : list A) (cmp : A -> A -> comparison) : Prop := {
  po_swap : forall a b, In a on -> In b on -> cmp b a = CompOpp (cmp a b);
  po_trans : forall a b c, In a on -> In b on -> In c on ->
    cmp a b <> Gt -> cmp b c <> Gt -> cmp a c <> Gt }.
(** No element comes before one that is smaller. *)
Definition in_order {A} (cmp : A -> A -> comparison) (l : list A) : Prop :=
  ForallOrdPairs (fun a b => cmp a b <> Gt) l.
(** What is assumed of the sorting algorithm. *)
Record sorts (sort : list nat -> sorting) : Prop := {
  so_sorted : forall l cmp, NoDup l -> preorder l cmp ->
    exists r, run_sorting (sort l) (fun a b => Ret (cmp a b)) = Ret r /\ Permutation l r /\ in_order cmp r;
  so_asks : forall l (cmp : nat -> nat -> outcome comparison), NoDup l ->
    (forall a b, In a l -> In b l -> cmp a b <> Panic) -> run_sorting (sort l) cmp <> Panic }.

(** ** Orders of the columns *)
From Coq Require Import QArith.
From Verif Require Import Cmd_Spec.
Local Open Scope nat_scope.

(** Numbers *)
Definition signed (neg : bool) (q : Q) : Q := if neg then Qopp q else q.
Inductive f32_le : f32 -> f32 -> Prop :=
| fl_bottom y : y <> FNan -> f32_le (FInf true) y
| fl_top x : x <> FNan -> f32_le x (FInf false)
| fl_fin n1 m1 e1 n2 m2 e2 : (signed n1 (seconds m1 e1) <= signed n2 (seconds m2 e2))%Q ->
    f32_le (FFin n1 m1 e1) (FFin n2 m2 e2).
(** Times: those that are no durations come last *)
Inductive time_le : duration + f32 -> duration + f32 -> Prop :=
| tl_ok a b : (a <= b)%N -> time_le (inl a) (inl b)
| tl_mixed a y : time_le (inl a) (inr y)
| tl_bad x y : f32_le x y -> time_le (inr x) (inr y).

(** Lexicographic orders *)
Inductive lex_lt {A} (lt : A -> A -> Prop) : list A -> list A -> Prop :=
| ll_nil y b : lex_lt lt [] (y :: b)
| ll_here x y a b : lt x y -> lex_lt lt (x :: a) (y :: b)
| ll_later x a b : lex_lt lt a b -> lex_lt lt (x :: a) (x :: b).
Inductive component_lt : component -> component -> Prop :=
| cl_root c : c <> RootDir -> component_lt RootDir c
| cl_cur_parent : component_lt CurDir ParentDir
| cl_cur s : component_lt CurDir (Normal s)
| cl_parent s : component_lt ParentDir (Normal s)
| cl_name s t : lex_lt N.lt s t -> component_lt (Normal s) (Normal t).
Definition path_le (p q : str) : Prop :=
  path_components p = path_components q \/ lex_lt component_lt (path_components p) (path_components q).

(** [u] may come before [v] when sorting by a column. *)
Definition column_le (c : column) (u v : unit_profile) : Prop :=
  match c with
  | MaxRSS => (u_rss u <= u_rss v)%N
  | WallTime => exists x y, wall_time (u_time u) = Some x /\ wall_time (u_time v) = Some y /\ time_le x y
  | RelPath _ => path_le (u_path u) (u_path v)
  end.

(** The table has no time column, or all compilation units have a time, which is a number. *)
Definition times_ok (profile : list unit_profile) : Prop :=
  (exists u r, profile = u :: r /\ u_time u = None) \/
  Forall (fun u => exists x, u_time u = Some x /\ x <> FNan /\ f32_ok x) profile.
(** Terminal columns needed by the other columns of the table. *)
Definition other_columns (profile : list unit_profile) (n : nat) : Prop :=
  exists u r, profile = u :: r /\ (u_time u = None /\ n = 15 \/ u_time u <> None /\ n = 26).
(** The components of a path, as texts *)
Definition components_of (u : unit_profile) : list str := map component_str (path_components (u_path u)).

(** The compilation units shown by a table, from top to bottom. *)
Definition shows (t : table) (us : list unit_profile) : Prop :=
  map (nth_error (t_items t)) (t_order t) = map Some us.
(** What a row should look like. *)
Definition row_of (w : str -> nat) show_gb show_seconds (profile : list unit_profile) (tw n : nat)
  (u : unit_profile) (cells : list str) : Prop :=
  exists r, w r <= tw - n /\ path_display (components_of u) r /\
    match profile with
    | {| u_time := Some _ |} :: _ =>
        exists x, wall_time (u_time u) = Some x /\ cells = [show_gb (u_rss u); show_seconds x; r]
    | _ => cells = [show_gb (u_rss u); r]
    end.

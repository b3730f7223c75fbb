(** Model of clang-time-trace/src/tree.rs (activity tree) and of src/trace.rs statistics.

    Simplification: timestamps and durations are exact integers (clang reports whole
    microseconds; the code stores them as f64, exact up to 2^53 µs, i.e. 285 years). *)
From Verif Require Import Base.

Section Tree.
  Variable A : Type.                        (* what clang was doing *)

  (** clang-time-trace/src/stats/activity/mod.rs:22-43, accessors 75-93 *)
  Record stat := mk_stat { s_act : A; s_start : Z; s_dur : Z }.
  Definition s_end (s : stat) : Z := (s_start s + s_dur s)%Z.

  (** tree.rs:189-210; children_indices is [n_ch0, n_ch1) *)
  Record node := mk_node {
    n_stat : stat; n_self : Z; n_first : nat; n_ch0 : nat; n_ch1 : nat; n_parent : option nat }.

  (** tree.rs:214-223; [None] stands for the initial `Timestamp::MIN` *)
  Record builder := mk_builder {
    b_acts : list node; b_children : list nat; b_last : option Z }.

  (** tree.rs:228-234 *)
  Definition b_new : builder := mk_builder [] [] None.

  (** tree.rs:340-360 (the descriptions are determined by the two stats) *)
  Inductive tree_error :=
  | UnexpectedOrder (prev current : Z)
  | PartialOverlap (prev current : stat).

  Definition set_parent (n : node) (p : option nat) : node :=
    mk_node (n_stat n) (n_self n) (n_first n) (n_ch0 n) (n_ch1 n) p.
  Fixpoint update {B} (l : list B) (i : nat) (f : B -> B) : list B :=
    match l, i with
    | [], _ => []
    | x :: l', 0 => f x :: l'
    | x :: l', S i' => x :: update l' i' f
    end.
  (** `NonZeroUsize::new` *)
  Definition nonzero (n : nat) : option nat := match n with 0 => None | S _ => Some n end.

  (** Loop state of `insert` (tree.rs:257-261) and its result. *)
  Record walk := mk_walk {
    w_acts : list node; w_children : list nat; w_dur : Z; w_first : nat }.
  Inductive walk_result := WDone (w : walk) | WErr (e : tree_error) (w : walk) | WPanic.

  (** tree.rs:263-290.  [n] is the length of `child_candidates` (a prefix of the
      activities); it strictly decreases, so [fuel] = its initial value suffices; the
      indexing `next_candidates[..first_related_idx]` panics out of bounds. *)
  Fixpoint insert_walk (fuel : nat) (n : nat) (cur : nat) (a : stat) (w : walk) : walk_result :=
    match n with
    | 0 => WDone w
    | S m =>
        match fuel, nth_error (w_acts w) m with
        | S fuel', Some cand =>
            if (s_start (n_stat cand) <? s_start a)%Z then
              if (s_end (n_stat cand) <=? s_start a)%Z then WDone w
              else WErr (PartialOverlap (n_stat cand) a) w
            else
              let w' := mk_walk (update (w_acts w) m (fun c => set_parent c (nonzero cur)))
                                (w_children w ++ [m])
                                (w_dur w + s_dur (n_stat cand))%Z
                                (n_first cand) in
              if Nat.leb (n_first cand) m then insert_walk fuel' (n_first cand) cur a w'
              else WPanic
        | _, _ => WPanic
        end
    end.

  Inductive insert_result := IOk | IErr (e : tree_error) | IPanic.

  (** tree.rs:248: is the activity ending before the last one?  (Some previous end) *)
  Definition out_of_order (b : builder) (a : stat) : option Z :=
    match b_last b with
    | Some l => if (s_end a <? l)%Z then Some l else None
    | None => None
    end.

  (** tree.rs:242-306 *)
  Definition insert (b : builder) (a : stat) : insert_result * builder :=
    match out_of_order b a with
    | Some l => (IErr (UnexpectedOrder l (s_end a)), b)
    | None =>
        let cur := length (b_acts b) in
        let ch0 := length (b_children b) in
        match insert_walk cur cur cur a (mk_walk (b_acts b) (b_children b) 0%Z cur) with
        | WPanic => (IPanic, b)
        | WErr e w => (IErr e, mk_builder (w_acts w) (w_children w) (Some (s_end a)))
        | WDone w =>
            (IOk, mk_builder
               (w_acts w ++ [mk_node a (s_dur a - w_dur w)%Z (w_first w) ch0
                               (length (w_children w)) None])
               (w_children w) (Some (s_end a)))
        end
    end.

  (** tree.rs:311-319 *)
  Fixpoint root_walk (fuel n : nat) (acts : list node) (children : list nat) : outcome (list nat) :=
    match n with
    | 0 => Ret children
    | S m =>
        match fuel, nth_error acts m with
        | S fuel', Some root =>
            if Nat.leb (n_first root) m
            then root_walk fuel' (n_first root) acts (children ++ [m])
            else Panic
        | _, _ => Panic
        end
    end.

  (** tree.rs:17-34 *)
  Record tree := mk_tree { t_acts : list node; t_children : list nat; t_first_root : nat }.

  (** tree.rs:309-335 *)
  Definition build (b : builder) : outcome tree :=
    let n := length (b_acts b) in
    obind (root_walk n n (b_acts b) (b_children b)) (fun children =>
      if Nat.eqb n (length children)
      then Ret (mk_tree (b_acts b) children (length (b_children b)))
      else Panic).

  (** Feed activities until the first error, as ClangTrace::from_str does. *)
  Fixpoint insert_all (b : builder) (xs : list stat) : (unit + nat * insert_result) * builder :=
    match xs with
    | [] => (inl tt, b)
    | x :: xs' =>
        match insert b x with
        | (IOk, b') =>
            match insert_all b' xs' with
            | (inr (i, e), b'') => (inr (S i, e), b'')
            | (inl tt, b'') => (inl tt, b'')
            end
        | (e, b') => (inr (0, e), b')
        end
    end.

  (** Slices `self.children[a..b]`; out of bounds panics *)
  Definition nslice (l : list nat) (a b : nat) : outcome (list nat) :=
    if (Nat.leb a b && Nat.leb b (length l))%bool then Ret (firstn (b - a) (skipn a l)) else Panic.

  (** Accessors, as lists of activity ids.  tree.rs:41-43, 50-61 *)
  Definition root_activities (t : tree) : outcome (list nat) :=
    nslice (t_children t) (t_first_root t) (length (t_children t)).
  (** tree.rs:67-76: (id, activity) pairs *)
  Definition all_activities (t : tree) : list (nat * stat) :=
    combine (seq 0 (length (t_acts t))) (map n_stat (t_acts t)).
  (** tree.rs:79-85 *)
  Definition activity_trace (t : tree) (id : nat) : outcome node := expect (nth_error (t_acts t) id).
  (** tree.rs:136-139 *)
  Definition direct_children (t : tree) (id : nat) : outcome (list nat) :=
    obind (activity_trace t id) (fun n => nslice (t_children t) (n_ch0 n) (n_ch1 n)).
  (** tree.rs:146-159: `activities[first..id]` *)
  Definition all_children (t : tree) (id : nat) : outcome (list nat) :=
    obind (activity_trace t id) (fun n =>
      if Nat.leb (n_first n) id then Ret (seq (n_first n) (id - n_first n)) else Panic).
  (** tree.rs:162-171 *)
  Definition parent (t : tree) (id : nat) : outcome (option nat) :=
    obind (activity_trace t id) (fun n => Ret (n_parent n)).
  (** tree.rs:118-125 *)
  Definition self_duration (t : tree) (id : nat) : outcome Z :=
    obind (activity_trace t id) (fun n => Ret (n_self n)).
  Definition duration (t : tree) (id : nat) : outcome Z :=
    obind (activity_trace t id) (fun n => Ret (s_dur (n_stat n))).
End Tree.

Arguments mk_stat {A}.
Arguments s_act {A}.
Arguments s_start {A}.
Arguments s_dur {A}.
Arguments s_end {A}.
Arguments mk_node {A}.
Arguments n_stat {A}.
Arguments n_self {A}.
Arguments n_first {A}.
Arguments n_ch0 {A}.
Arguments n_ch1 {A}.
Arguments n_parent {A}.
Arguments mk_builder {A}.
Arguments b_acts {A}.
Arguments b_children {A}.
Arguments b_last {A}.
Arguments b_new {A}.
Arguments UnexpectedOrder {A}.
Arguments PartialOverlap {A}.
Arguments set_parent {A}.
Arguments mk_walk {A}.
Arguments w_acts {A}.
Arguments w_children {A}.
Arguments w_dur {A}.
Arguments w_first {A}.
Arguments WDone {A}.
Arguments WErr {A}.
Arguments WPanic {A}.
Arguments insert_walk {A}.
Arguments IOk {A}.
Arguments IErr {A}.
Arguments IPanic {A}.
Arguments out_of_order {A}.
Arguments insert {A}.
Arguments root_walk {A}.
Arguments mk_tree {A}.
Arguments t_acts {A}.
Arguments t_children {A}.
Arguments t_first_root {A}.
Arguments build {A}.
Arguments insert_all {A}.
Arguments root_activities {A}.
Arguments all_activities {A}.
Arguments activity_trace {A}.
Arguments direct_children {A}.
Arguments all_children {A}.
Arguments parent {A}.
Arguments self_duration {A}.
Arguments duration {A}.

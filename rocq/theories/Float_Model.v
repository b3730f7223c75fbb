(** The activity tree with the floating-point numbers of the code

    Tree_Model.v computes with exact integers.  Here is the same code (tree.rs,
    stats/activity/mod.rs) with the arithmetic of f64, written function by function.

    A finite f64 is an integer number of 2^-1074, the smallest positive one: [Num z].
    Simplification: the two zeros are one value (no comparison tells them apart). *)
From Verif Require Import Base Tree_Model.

(** IEEE 754 binary64 *)
Inductive f64 := Num (z : Z) | Infinite (negative : bool) | NotANumber.

(** The largest finite f64: (2^53 - 1) * 2^971 *)
Definition max_finite : Z := ((2 ^ 53 - 1) * 2 ^ (971 + 1074))%Z.

(** Rounding to 53 significant bits, to nearest, ties to even *)
Definition round_abs (x : Z) : Z :=
  let p := (2 ^ (Z.log2 x - 52))%Z in
  if (x <? 2 ^ 53)%Z then x
  else
    let q := (x / p)%Z in
    let r := (x mod p)%Z in
    if ((2 * r <? p) || ((2 * r =? p) && Z.even q))%Z%bool then (q * p)%Z else ((q + 1) * p)%Z.
Definition round (x : Z) : Z := (Z.sgn x * round_abs (Z.abs x))%Z.
Definition of_exact (x : Z) : f64 :=
  if (Z.abs (round x) <=? max_finite)%Z then Num (round x) else Infinite (x <? 0)%Z.

Definition fadd (a b : f64) : f64 :=
  match a, b with
  | Num x, Num y => of_exact (x + y)
  | NotANumber, _ | _, NotANumber => NotANumber
  | Infinite s, Infinite t => if Bool.eqb s t then Infinite s else NotANumber
  | Infinite s, Num _ => Infinite s
  | Num _, Infinite t => Infinite t
  end.
Definition fneg (a : f64) : f64 :=
  match a with Num x => Num (- x) | Infinite s => Infinite (negb s) | NotANumber => NotANumber end.
Definition fsub (a b : f64) : f64 := fadd a (fneg b).
(** `<` *)
Definition flt (a b : f64) : bool :=
  match a, b with
  | Num x, Num y => (x <? y)%Z
  | NotANumber, _ | _, NotANumber => false
  | Infinite s, Infinite t => (s && negb t)%bool
  | Infinite s, Num _ => s
  | Num _, Infinite t => negb t
  end.
(** `<=` *)
Definition fle (a b : f64) : bool :=
  match a, b with
  | Num x, Num y => (x <=? y)%Z
  | NotANumber, _ | _, NotANumber => false
  | Infinite s, Infinite t => (s || negb t)%bool
  | Infinite s, Num _ => s
  | Num _, Infinite t => negb t
  end.
(** f64::MIN *)
Definition f64_min : f64 := Num (- max_finite).

Section Float.
  Variable A : Type.

  (** clang-time-trace/src/stats/activity/mod.rs:22-43, accessors 75-93 *)
  Record fstat := mk_fstat { fs_act : A; fs_start : f64; fs_dur : f64 }.
  Definition fs_end (s : fstat) : f64 := fadd (fs_start s) (fs_dur s).

  (** tree.rs:189-210 *)
  Record fnode := mk_fnode {
    fn_stat : fstat; fn_self : f64; fn_first : nat; fn_ch0 : nat; fn_ch1 : nat;
    fn_parent : option nat }.
  (** tree.rs:214-223 *)
  Record fbuilder := mk_fbuilder { fb_acts : list fnode; fb_children : list nat; fb_last : f64 }.
  (** tree.rs:228-234 *)
  Definition fb_new : fbuilder := mk_fbuilder [] [] f64_min.
  (** tree.rs:340-360 *)
  Inductive ftree_error :=
  | FUnexpectedOrder (prev current : f64)
  | FPartialOverlap (prev current : fstat).

  Definition fset_parent (n : fnode) (p : option nat) : fnode :=
    mk_fnode (fn_stat n) (fn_self n) (fn_first n) (fn_ch0 n) (fn_ch1 n) p.

  (** tree.rs:257-261 *)
  Record fwalk := mk_fwalk {
    fw_acts : list fnode; fw_children : list nat; fw_dur : f64; fw_first : nat }.
  Inductive fwalk_result := FWDone (w : fwalk) | FWErr (e : ftree_error) (w : fwalk) | FWPanic.

  (** tree.rs:263-290, see Tree_Model.insert_walk *)
  Fixpoint finsert_walk (fuel : nat) (n : nat) (cur : nat) (a : fstat) (w : fwalk) : fwalk_result :=
    match n with
    | 0 => FWDone w
    | S m =>
        match fuel, nth_error (fw_acts w) m with
        | S fuel', Some cand =>
            if flt (fs_start (fn_stat cand)) (fs_start a) then
              if fle (fs_end (fn_stat cand)) (fs_start a) then FWDone w
              else FWErr (FPartialOverlap (fn_stat cand) a) w
            else
              let w' := mk_fwalk (update (fw_acts w) m (fun c => fset_parent c (nonzero cur)))
                                 (fw_children w ++ [m])
                                 (fadd (fw_dur w) (fs_dur (fn_stat cand)))
                                 (fn_first cand) in
              if Nat.leb (fn_first cand) m then finsert_walk fuel' (fn_first cand) cur a w'
              else FWPanic
        | _, _ => FWPanic
        end
    end.

  Inductive finsert_result := FIOk | FIErr (e : ftree_error) | FIPanic.

  (** tree.rs:242-306 *)
  Definition finsert (b : fbuilder) (a : fstat) : finsert_result * fbuilder :=
    if flt (fs_end a) (fb_last b) then (FIErr (FUnexpectedOrder (fb_last b) (fs_end a)), b)
    else
      let cur := length (fb_acts b) in
      let ch0 := length (fb_children b) in
      match finsert_walk cur cur cur a (mk_fwalk (fb_acts b) (fb_children b) (Num 0) cur) with
      | FWPanic => (FIPanic, b)
      | FWErr e w => (FIErr e, mk_fbuilder (fw_acts w) (fw_children w) (fs_end a))
      | FWDone w =>
          (FIOk, mk_fbuilder
             (fw_acts w ++ [mk_fnode a (fsub (fs_dur a) (fw_dur w)) (fw_first w) ch0
                              (length (fw_children w)) None])
             (fw_children w) (fs_end a))
      end.

  (** tree.rs:311-319 *)
  Fixpoint froot_walk (fuel n : nat) (acts : list fnode) (children : list nat) : outcome (list nat) :=
    match n with
    | 0 => Ret children
    | S m =>
        match fuel, nth_error acts m with
        | S fuel', Some root =>
            if Nat.leb (fn_first root) m
            then froot_walk fuel' (fn_first root) acts (children ++ [m])
            else Panic
        | _, _ => Panic
        end
    end.

  (** tree.rs:17-34 *)
  Record ftree := mk_ftree { ft_acts : list fnode; ft_children : list nat; ft_first_root : nat }.
  (** tree.rs:309-335 *)
  Definition fbuild (b : fbuilder) : outcome ftree :=
    let n := length (fb_acts b) in
    obind (froot_walk n n (fb_acts b) (fb_children b)) (fun children =>
      if Nat.eqb n (length children)
      then Ret (mk_ftree (fb_acts b) children (length (fb_children b)))
      else Panic).

  (** lib.rs:276-280: activities are inserted until the first error *)
  Fixpoint finsert_all (b : fbuilder) (xs : list fstat) : (unit + nat * finsert_result) * fbuilder :=
    match xs with
    | [] => (inl tt, b)
    | x :: xs' =>
        match finsert b x with
        | (FIOk, b') =>
            match finsert_all b' xs' with
            | (inr (i, e), b'') => (inr (S i, e), b'')
            | (inl tt, b'') => (inl tt, b'')
            end
        | (e, b') => (inr (0, e), b')
        end
    end.

  (** Accessors: tree.rs:41-61, 79-85, 136-139, 146-159, 162-171, 118-125 *)
  Definition froot_activities (t : ftree) : outcome (list nat) :=
    nslice (ft_children t) (ft_first_root t) (length (ft_children t)).
  Definition factivity_trace (t : ftree) (id : nat) : outcome fnode := expect (nth_error (ft_acts t) id).
  Definition fdirect_children (t : ftree) (id : nat) : outcome (list nat) :=
    obind (factivity_trace t id) (fun n => nslice (ft_children t) (fn_ch0 n) (fn_ch1 n)).
  Definition fall_children (t : ftree) (id : nat) : outcome (list nat) :=
    obind (factivity_trace t id) (fun n =>
      if Nat.leb (fn_first n) id then Ret (seq (fn_first n) (id - fn_first n)) else Panic).
  Definition fparent (t : ftree) (id : nat) : outcome (option nat) :=
    obind (factivity_trace t id) (fun n => Ret (fn_parent n)).
  Definition fself_duration (t : ftree) (id : nat) : outcome f64 :=
    obind (factivity_trace t id) (fun n => Ret (fn_self n)).
End Float.

Arguments mk_fstat {A}. Arguments fs_act {A}. Arguments fs_start {A}. Arguments fs_dur {A}.
Arguments fs_end {A}.
Arguments mk_fnode {A}. Arguments fn_stat {A}. Arguments fn_self {A}. Arguments fn_first {A}.
Arguments fn_ch0 {A}. Arguments fn_ch1 {A}. Arguments fn_parent {A}.
Arguments mk_fbuilder {A}. Arguments fb_acts {A}. Arguments fb_children {A}. Arguments fb_last {A}.
Arguments fb_new {A}.
Arguments FUnexpectedOrder {A}. Arguments FPartialOverlap {A}.
Arguments fset_parent {A}.
Arguments mk_fwalk {A}. Arguments fw_acts {A}. Arguments fw_children {A}. Arguments fw_dur {A}.
Arguments fw_first {A}.
Arguments FWDone {A}. Arguments FWErr {A}. Arguments FWPanic {A}.
Arguments finsert_walk {A}.
Arguments FIOk {A}. Arguments FIErr {A}. Arguments FIPanic {A}.
Arguments finsert {A}. Arguments froot_walk {A}.
Arguments mk_ftree {A}. Arguments ft_acts {A}. Arguments ft_children {A}. Arguments ft_first_root {A}.
Arguments fbuild {A}. Arguments finsert_all {A}.
Arguments froot_activities {A}. Arguments factivity_trace {A}. Arguments fdirect_children {A}.
Arguments fall_children {A}. Arguments fparent {A}. Arguments fself_duration {A}.

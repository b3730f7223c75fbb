(** src/trace.rs (statistics of the reports) with the f64 arithmetic of the code.

    The exact model is in UI_Model.v (Section Stats) and Stdio_Model.v ([relative]).
    Simplification, as in Float_Model.v: the two zeros are one value (so 1 / 0 is plus infinity;
    a total of -0.0 needs activities whose durations are all written -0.0 in the trace). *)
From Verif Require Import Base Tree_Model Float_Model.

(** f64 rounding of the number n / d, for n >= 0 and d > 0: to 53 significant bits or to a multiple of
    2^-1074, to nearest, ties to even *)
Definition round_ratio (n d : Z) : Z :=
  let x := (n / d)%Z in
  let p := (2 ^ (if x <? 2 ^ 53 then 0 else Z.log2 x - 52))%Z in
  let q := (n / (d * p))%Z in
  let r := (n mod (d * p))%Z in
  if ((2 * r <? d * p) || ((2 * r =? d * p) && Z.even q))%Z%bool then (q * p)%Z else ((q + 1) * p)%Z.
(** Half a unit in the last place above the largest f64 and beyond, numbers become infinite *)
Definition too_large : Z := ((2 ^ 54 - 1) * 2 ^ (970 + 1074))%Z.
Definition of_ratio (n d : Z) : f64 :=
  if (too_large * d <=? Z.abs n)%Z then Infinite (n <? 0)%Z
  else Num (Z.sgn n * round_ratio (Z.abs n) d).

(** `a * b` *)
Definition fmul (a b : f64) : f64 :=
  match a, b with
  | NotANumber, _ | _, NotANumber => NotANumber
  | Num x, Num y => of_ratio (x * y) (2 ^ 1074)
  | Infinite s, Infinite t => Infinite (xorb s t)
  | Infinite s, Num y | Num y, Infinite s =>
      if (y =? 0)%Z then NotANumber else Infinite (xorb s (y <? 0)%Z)
  end.
(** `a / b` *)
Definition fdiv (a b : f64) : f64 :=
  match a, b with
  | NotANumber, _ | _, NotANumber => NotANumber
  | Num x, Num y =>
      if (y =? 0)%Z then if (x =? 0)%Z then NotANumber else Infinite (x <? 0)%Z
      else of_ratio (x * 2 ^ 1074 * Z.sgn y) (Z.abs y)
  | Infinite s, Num y => Infinite (xorb s (y <? 0)%Z)
  | Num _, Infinite _ => Num 0
  | Infinite _, Infinite _ => NotANumber
  end.

Definition one : f64 := Num (2 ^ 1074).
(** src/trace.rs:8-11, for the durations of the roots *)
Definition fduration_norm (roots : list f64) : f64 := fdiv one (fold_left fadd roots (Num 0)).
(** `duration * duration_norm` as in src/ui/stdio.rs:79, 104, 207 *)
Definition share (roots : list f64) (d : f64) : f64 := fmul d (fduration_norm roots).
(** src/ui/stdio.rs:53, 65: a threshold given in percents *)
Definition fthreshold (percents : f64) : f64 := fdiv percents (Num (100 * 2 ^ 1074)).

Definition is_nan (a : f64) : bool := match a with NotANumber => true | _ => false end.

Section Stats.
  (** A sort of the standard library by decreasing keys *)
  Variable sort_desc : forall B : Type, (B -> f64) -> list B -> list B.

  (** `sort_unstable_by(|a, b| key(b).partial_cmp(&key(a)).expect(..))`: with two elements or more each
      one is compared, and comparing a NaN panics *)
  Definition sort_by_key {B} (key : B -> f64) (l : list B) : outcome (list B) :=
    if (Nat.leb 2 (length l) && existsb (fun a => is_nan (key a)) l)%bool then Panic
    else Ret (sort_desc B key l).

  (** src/trace.rs:18-21 *)
  Fixpoint fadd_entry (profile : list (str * f64)) (name : str) (d : f64) : list (str * f64) :=
    match profile with
    | [] => [(name, fadd (Num 0) d)]
    | (n, t) :: r => if str_eqb n name then (n, fadd t d) :: r else (n, t) :: fadd_entry r name d
    end.
  (** src/trace.rs:14-26, as UI_Model.activity_type_breakdown *)
  Definition fbreakdown (activities : list (str * f64)) : outcome (list (str * f64)) :=
    sort_by_key snd (fold_left (fun p a => fadd_entry p (fst a) (snd a)) activities []).
  Definition ftrace_breakdown (t : ftree str) : outcome (list (str * f64)) :=
    fbreakdown (map (fun n => (fs_act (fn_stat n), fn_self n)) (ft_acts t)).

  (** src/trace.rs:34-48 *)
  Definition fhottest {B} (activities : list B) (duration : B -> f64) (threshold : f64)
    : outcome (list B) :=
    sort_by_key duration (filter (fun a => fle threshold (duration a)) activities).

  (** src/ui/tui/trace/display.rs:704-721, duration columns: what a row compares to another *)
  Definition row_cmp (d1 d2 : f64) : outcome comparison :=
    if (is_nan d1 || is_nan d2)%bool then Panic
    else Ret (if flt d1 d2 then Lt else if fle d1 d2 then Eq else Gt).
End Stats.

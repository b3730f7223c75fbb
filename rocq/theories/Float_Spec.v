(** Vocabulary for the activity tree over floating-point time stamps *)
From Verif Require Import Base Tree_Model Float_Model.

(** The finite f64 values: m * 2^e with at most 53 bits in m (in units of 2^-1074, e >= 0), and
    below 2^1024 *)
Definition representable (z : Z) : Prop :=
  (exists m e, z = m * 2 ^ e /\ 0 <= e /\ Z.abs m < 2 ^ 53)%Z /\ (Z.abs z < 2 ^ (1024 + 1074))%Z.

(** From here on, sums are too large for f64: half way between the largest f64 and 2^1024 *)
Definition overflow : Z := (2 ^ (1024 + 1074) - 2 ^ (970 + 1074))%Z.

(** IEEE 754, roundTiesToEven: [a] is the f64 for the exact number [x] *)
Definition rounds_to (x : Z) (a : f64) : Prop :=
  match a with
  | Num z =>
      (Z.abs x < overflow)%Z /\ representable z /\
      forall y, representable y -> y <> z ->
        (Z.abs (z - x) < Z.abs (y - x))%Z \/
        (Z.abs (z - x) = Z.abs (y - x) /\ exists m, z = 2 * m * Z.abs (y - z))%Z
  | Infinite negative => (overflow <= Z.abs x)%Z /\ (negative = true <-> (x < 0)%Z)
  | NotANumber => False
  end.

(** Order of the extended real line *)
Definition at_most (a b : f64) : Prop :=
  match a, b with
  | NotANumber, _ | _, NotANumber => False
  | Num x, Num y => (x <= y)%Z
  | Infinite true, _ | _, Infinite false => True
  | _, _ => False
  end.
Definition less (a b : f64) : Prop := at_most a b /\ ~ at_most b a.

(** Running total of finite durations, rounded at each step; once infinite it stays so *)
Inductive total : list f64 -> f64 -> Prop :=
| total_nil : total [] (Num 0)
| total_add ds t d r : total ds (Num t) -> rounds_to (t + d) r -> total (ds ++ [Num d]) r
| total_inf ds s d : total ds (Infinite s) -> total (ds ++ [Num d]) (Infinite s).
(** What a total leaves of a finite duration *)
Definition left_by (d t r : f64) : Prop :=
  match d, t with
  | Num x, Num y => rounds_to (x - y) r
  | Num _, Infinite s => r = Infinite (negb s)
  | _, _ => False
  end.

Section Spec.
  Context {A : Type}.
  (** A start and a duration as JSON can give them: finite f64 values *)
  Definition finite (a : f64) : Prop := exists z, a = Num z /\ representable z.
  Definition timed (xs : list (fstat A)) : Prop :=
    Forall (fun s => finite (fs_start s) /\ finite (fs_dur s)) xs.
  Definition freported (xs : list (fstat A)) (i : nat) (s : fstat A) : Prop := nth_error xs i = Some s.
  Definition finside (a b : fstat A) : Prop :=
    at_most (fs_start b) (fs_start a) /\ at_most (fs_end a) (fs_end b).
  Definition fbefore (a b : fstat A) : Prop := at_most (fs_end a) (fs_start b).
  Definition ftree_of (xs : list (fstat A)) (t : ftree A) : Prop :=
    exists b, finsert_all fb_new xs = (inl tt, b) /\ fbuild b = Ret t.

  (** A trace with whole times in units of 2^k (times 2^-1074) *)
  Definition whole (k : Z) (s : stat A) : fstat A :=
    mk_fstat (s_act s) (Num (s_start s * 2 ^ k)) (Num (s_dur s * 2 ^ k)).
  Definition whole_error (k : Z) (e : tree_error A) : ftree_error A :=
    match e with
    | UnexpectedOrder p c => FUnexpectedOrder (Num (p * 2 ^ k)) (Num (c * 2 ^ k))
    | PartialOverlap p c => FPartialOverlap (whole k p) (whole k c)
    end.
  (** Non-negative durations, no time stamp (start or end) beyond 2^53 units *)
  Definition within_2_53 (xs : list (stat A)) : Prop :=
    Forall (fun s => 0 <= s_dur s /\ - 2 ^ 53 <= s_start s /\ s_start s + s_dur s <= 2 ^ 53
                     /\ s_dur s <= 2 ^ 53)%Z xs.
End Spec.

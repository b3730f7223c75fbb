(** Vocabulary for statistics with floating-point numbers *)
From Coq Require Import Sorted Permutation.
From Verif Require Import Base Tree_Model Float_Model Float_Spec.

(** [a] is the f64 for the exact number n / d (d > 0), as [rounds_to] *)
Definition ratio_rounds_to (n d : Z) (a : f64) : Prop :=
  match a with
  | Num z =>
      (Z.abs n < overflow * d)%Z /\ representable z /\
      forall y, representable y -> y <> z ->
        (Z.abs (z * d - n) < Z.abs (y * d - n))%Z \/
        (Z.abs (z * d - n) = Z.abs (y * d - n) /\ exists m, z = 2 * m * Z.abs (y - z))%Z
  | Infinite negative => (overflow * d <= Z.abs n)%Z /\ (negative = true <-> (n < 0)%Z)
  | NotANumber => False
  end.

(** Sorting algorithms: on keys that are numbers, a permutation with decreasing keys *)
Definition fsorts (sort : forall B : Type, (B -> f64) -> list B -> list B) : Prop :=
  forall B (key : B -> f64) l,
    Permutation l (sort B key l) /\
    ((forall x, In x l -> key x <> NotANumber) -> StronglySorted (fun x y => at_most (key y) (key x)) (sort B key l)).

(** The durations of the activities of a given type, in order *)
Definition of_type (name : str) (activities : list (str * f64)) : list f64 :=
  map snd (filter (fun a => str_eqb (fst a) name) activities).

(** Specification vocabulary for activity trees. *)
From Verif Require Import Base Tree_Model.

Section Spec.
  Context {A : Type}.
  (** Activity [i] of the reported sequence [xs]. *)
  Definition reported (xs : list (stat A)) (i : nat) (s : stat A) : Prop := nth_error xs i = Some s.
  (** The interval of [a] lies inside the one of [b]. *)
  Definition inside (a b : stat A) : Prop := (s_start b <= s_start a /\ s_end a <= s_end b)%Z.
  (** [a] is over when [b] starts. *)
  Definition before (a b : stat A) : Prop := (s_end a <= s_start b)%Z.

  (** Sorted by end time. *)
  Definition sorted_by_end (xs : list (stat A)) : Prop :=
    forall i j a b, i < j -> reported xs i a -> reported xs j b -> (s_end a <= s_end b)%Z.
  (** Any two activities are nested or disjoint. *)
  Definition nested_or_disjoint (xs : list (stat A)) : Prop :=
    forall i j a b, i < j -> reported xs i a -> reported xs j b -> inside a b \/ before a b.

  Definition accepted (xs : list (stat A)) (b : builder A) : Prop :=
    insert_all b_new xs = (inl tt, b).
  (** [t] is the tree of the reported sequence [xs]. *)
  Definition tree_of (xs : list (stat A)) (t : tree A) : Prop :=
    exists b, accepted xs b /\ build b = Ret t.

  Definition sumZ (l : list Z) : Z := fold_right Z.add 0%Z l.
  (** Sum of a quantity given by a fallible accessor over ids. *)
  Fixpoint osum (f : nat -> outcome Z) (ids : list nat) : outcome Z :=
    match ids with
    | [] => Ret 0%Z
    | i :: r => obind (f i) (fun x => obind (osum f r) (fun y => Ret (x + y)%Z))
    end.
End Spec.

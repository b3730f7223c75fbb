(** Shared vocabulary: panics as values, strings as lists of Unicode scalar values. *)
From Coq Require Export List Arith NArith ZArith Lia Bool.
From Coq Require Import Ascii String.
Export ListNotations.

(** A Rust computation that returns normally or unwinds (panic!, expect, unwrap,
    failed assert!, index out of bounds, arithmetic overflow in a debug build). *)
Inductive outcome (A : Type) : Type :=
| Ret (a : A)
| Panic.
Arguments Ret {A} a.
Arguments Panic {A}.

Definition obind {A B} (x : outcome A) (f : A -> outcome B) : outcome B :=
  match x with Ret a => f a | Panic => Panic end.

(** `Option::expect` / `Option::unwrap`. *)
Definition expect {A} (x : option A) : outcome A :=
  match x with Some a => Ret a | None => Panic end.

(** A `&str`: its sequence of Unicode scalar values. *)
Definition chr := N.
Definition str := list chr.

Fixpoint str_eqb (a b : str) : bool :=
  match a, b with
  | [], [] => true
  | x :: a', y :: b' => N.eqb x y && str_eqb a' b'
  | _, _ => false
  end.

Lemma str_eqb_spec : forall a b, reflect (a = b) (str_eqb a b).
Proof.
  induction a as [|x a IH]; destruct b as [|y b]; simpl; try (constructor; congruence).
  destruct (N.eqb_spec x y) as [->|Hne]; simpl.
  - destruct (IH b) as [->|Hne]; constructor; congruence.
  - constructor; congruence.
Qed.

Lemma str_eqb_eq : forall a b, str_eqb a b = true <-> a = b.
Proof. intros a b; destruct (str_eqb_spec a b); split; congruence. Qed.

Lemma str_eqb_refl : forall a, str_eqb a a = true.
Proof. intros a; apply str_eqb_eq; reflexivity. Qed.

(** ASCII literals of the source code. *)
Fixpoint of_string (s : string) : str :=
  match s with
  | EmptyString => []
  | String c s' => N_of_ascii c :: of_string s'
  end.

(** The horizontal ellipsis U+2026 used by all displays. *)
Definition ellipsis : chr := 8230%N.
Definition slash : chr := 47%N.
Definition dot : chr := 46%N.

Lemma Forall2_impl {A B} (P Q : A -> B -> Prop) l1 l2 :
  (forall a b, P a b -> Q a b) -> Forall2 P l1 l2 -> Forall2 Q l1 l2.
Proof. intros H; induction 1; constructor; auto. Qed.

Lemma Forall2_length {A B} (P : A -> B -> Prop) l1 l2 :
  Forall2 P l1 l2 -> List.length l1 = List.length l2.
Proof. induction 1; simpl; congruence. Qed.

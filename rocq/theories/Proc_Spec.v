(** Specification vocabulary for the processing thread. *)
From Verif Require Import Base Proc_Model.

Section Spec.
  Variables trace arg info : Type.
  Variable parse : trace -> N -> outcome (trace * arg).
  Variable render : trace -> N -> arg -> config -> outcome (str * bool).
  Variable metadata : trace -> N -> outcome str.
  Variable activities : trace -> list_query -> outcome (list info).

  (** [t'] is [t] after some arguments were parsed. *)
  Inductive evolves : trace -> trace -> Prop :=
  | ev_refl t : evolves t t
  | ev_parse t t1 t2 id a : evolves t t1 -> parse t1 id = Ret (t2, a) -> evolves t t2.

  (** What a freshly loaded trace, whose argument is parsed for the occasion, displays. *)
  Definition fresh_description (t : trace) (id : N) (c : config) (r : str * bool) : Prop :=
    exists t' a, parse t id = Ret (t', a) /\ render t' id a c = Ret r.

  (** Parsing has no visible effect on what was or will be parsed, or on other answers: this
      is what interners provide (properties C01-C10). *)
  Record stable (t : trace) : Prop := {
    st_render : forall t1 t2 t3 id a c r,
      evolves t t1 -> parse t1 id = Ret (t2, a) -> evolves t2 t3 -> render t3 id a c = Ret r ->
      fresh_description t id c r;
    st_metadata : forall t1 w, evolves t t1 -> metadata t1 w = metadata t w;
    st_activities : forall t1 q, evolves t t1 -> activities t1 q = activities t q }.

  (** The right answer to a request about trace [t], from scratch. *)
  Definition fresh_answer (t : trace) (i : instruction trace) (r : reply_t info) : Prop :=
    match i with
    | LoadTrace _ => False
    | DescribeTrace w => exists s, metadata t w = Ret s /\ r = RString s false
    | GetActivities q => exists l, activities t q = Ret l /\ r = RActivities l
    | DescribeActivities ids w =>
        exists l, Forall2 (fun id s => fresh_description t id (SingleLine w) (s, false)) ids l /\ r = RDescs l
    | DescribeActivity id w =>
        exists s wrap, fresh_description t id (MultiLine w) (s, wrap) /\ r = RString s wrap
    end.

  (** The last load among instructions, if any. *)
  Definition last_load (l : list (instruction trace)) (r : option trace) : Prop :=
    exists l1 l2, l = l1 ++ LoadTrace r :: l2 /\ forall r', ~ In (LoadTrace r') l2.
End Spec.

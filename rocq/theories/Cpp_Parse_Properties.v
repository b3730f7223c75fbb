(** C29, C64, C65: what `parse_entity` does on arbitrary text. *)
From Coq Require Import Ascii String.
From Verif Require Import Base Cpp_Lex_Model Cpp_Ast_Model Cpp_Parse_Model Cpp_Display_Spec
  Cpp_Parse_Spec Cpp_Parse_Proofs5.
Local Open Scope nat_scope.
Local Open Scope bool_scope.
Local Open Scope list_scope.

(** C29 as stated is false: `,,` between values, a source location with a relative path, and a
    call with 64 arguments all panic. *)
Theorem C29_refuted :
  parse_entity (of_string "A<f(1,,2)>") = EPanic PROperator /\
  parse_entity (of_string "(lambda at foo.cpp:3:4)") = EPanic PRRelativePath /\
  parse_entity (of_string "A<f(" ++ concat (repeat (of_string "1,") 63) ++ of_string "1)>")
    = EPanic PRSequence.
Proof. repeat split; vm_compute; reflexivity. Qed.
Print Assumptions C29_refuted.

(** C29: whatever the text, there is no other reason to panic.  A panic implies that the text
    doubles one of the operators ^ % / * ~ ! , or has `at ` before something other than an
    absolute path, or has at least 63 characters that are neither white space nor part of
    identifiers or numbers. *)
Theorem C29_panics_only_if : forall s why,
  parse_entity s = EPanic why ->
  match why with
  | PROperator => has_doubled_operator s
  | PRRelativePath => has_relative_location s
  | PRSequence => is_crowded s
  | PRImpossible => False
  end.
Proof. exact entity_panic. Qed.
Print Assumptions C29_panics_only_if.

(** C29: all other texts get a verdict. *)
Theorem C29_verdict : forall s,
  ~ has_doubled_operator s -> ~ has_relative_location s -> ~ is_crowded s ->
  parse_entity s = EErr \/ exists e, parse_entity s = EOk e.
Proof.
  intros s A B C. destruct (parse_entity s) as [e| |why|] eqn:P; [right; eauto|left; reflexivity|exfalso..].
  - apply entity_panic in P. destruct why; cbn in P; auto.
  - destruct (entity_terminates s (S (List.length s)) (Nat.lt_succ_diag_r _)) as [_ F]. exact (F P).
Qed.
Print Assumptions C29_verdict.
(** a long name that meets none of the three conditions *)
Example C29_witness :
  let s := of_string "std::map<std::pair<int, char const*>, std::vector<(anonymous namespace)::T> >::operator[](std::pair<int, char const*>&&)" in
  (exists e, parse_entity s = EOk e) /\ ~ is_crowded s.
Proof.
  cbn zeta. split; [eexists; vm_compute; reflexivity|].
  intros H. unfold is_crowded in H. vm_compute in H. lia.
Qed.

(** C64: parsing ends with a verdict for every text: the nesting of recursive calls is bounded
    by the length of the text, and a larger bound makes no difference. *)
Theorem C64_parsing_terminates : forall s n,
  List.length s < n ->
  parse_entity_n n s = parse_entity s /\ parse_entity s <> EFuel.
Proof. exact entity_terminates. Qed.
Print Assumptions C64_parsing_terminates.
Example C64_witness :
  parse_entity_n 3 (of_string "a<b<c<d> > >") = EFuel /\
  exists e, parse_entity (of_string "a<b<c<d> > >") = EOk e.
Proof. split; [vm_compute; reflexivity|eexists; vm_compute; reflexivity]. Qed.

(** C65: in a parsed entity every name is a C++ identifier and no declarator operator is
    invisible, at any depth. *)
Theorem C65_parsed_entities_are_well_formed : forall s e,
  parse_entity s = EOk e -> well_formed e = true.
Proof. exact entity_wf. Qed.
Print Assumptions C65_parsed_entities_are_well_formed.

(** C81: the `simpp` program. *)
From Coq Require Import Ascii String.
From Verif Require Import Base Cpp_Lex_Model Cpp_Ast_Model Cpp_Parse_Model Cpp_Display_Spec
  Cpp_Display_Properties Cpp_Parse_Properties Cpp_Core_Spec Cpp_Core_Properties Simpp_Model.
Local Open Scope nat_scope.
Local Open Scope bool_scope.
Local Open Scope list_scope.
Local Notation "' s" := (of_string s) (at level 0, s at level 0).

(** The name to simplify: the argument if there is one, else what is piped in, else none. *)
Inductive given (a : args) (stdin : input) : str -> Prop :=
| given_argument s : entity_arg a = Some s -> given a stdin s
| given_input s : entity_arg a = None -> stdin = Piped (Some s) -> given a stdin s.

(** With a name that can be read and some room, one line is printed: the deepest rendering
    of the entity that fits (see C31), or an ellipsis. *)
Theorem C81_prints_one_line : forall verbatim cw a stdin text e,
  terminal_widths cw -> given a stdin text -> parse_entity text = EOk e -> (1 <= max_cols a)%N ->
  exists line, stdout (simpp verbatim (width_of cw) a stdin) = line ++ [10%N] /\
    outcome_of (simpp verbatim (width_of cw) a stdin) = Ret tt /\
    (width_of cw line <= max_cols a)%N /\
    ((line = [ellipsis] /\ (max_cols a < width_of cw (entity_at verbatim e 0))%N) \/
     exists d, (d <= entity_depth e)%N /\ line = entity_at verbatim e d /\
       (d = entity_depth e \/ (max_cols a < width_of cw (entity_at verbatim e (d + 1)))%N)).
Proof.
  intros vb cw a stdin text e [Hw _] G P Hc.
  assert (E : exists reads, simpp vb (width_of cw) a stdin = simplify vb (width_of cw) reads (max_cols a) text).
  { destruct G as [s H|s H ->]; unfold simpp; rewrite H; eauto. }
  destruct E as [reads ->]. unfold simplify. rewrite P.
  destruct (C31_bounded_display_is_deepest vb (width_of cw) e (max_cols a) Hc) as (line & E & C).
  rewrite E. exists line. split; [reflexivity|]. split; [reflexivity|]. split.
  - apply (C30_bounded_display_fits vb (width_of cw) e (max_cols a)); [|exact E].
    unfold width_of. cbn [fold_right]. rewrite Hw. reflexivity.
  - destruct C as [C|(d & H1 & H2 & _ & H4)]; [left; exact C|right; exists d; auto].
Qed.
Print Assumptions C81_prints_one_line.

(** Otherwise nothing at all is printed on the standard output and the program fails. *)
Theorem C81_or_fails : forall verbatim width a stdin,
  ~ ((1 <= max_cols a)%N /\ exists text e, given a stdin text /\ parse_entity text = EOk e) ->
  stdout (simpp verbatim width a stdin) = [] /\ outcome_of (simpp verbatim width a stdin) = Panic.
Proof.
  intros vb width a stdin H.
  assert (E : forall reads text, given a stdin text ->
    stdout (simplify vb width reads (max_cols a) text) = [] /\
    outcome_of (simplify vb width reads (max_cols a) text) = Panic).
  { intros reads text G. unfold simplify. destruct (parse_entity text) as [e| | |] eqn:P; try (split; reflexivity).
    unfold bounded_display. destruct (N.leb_spec 1 (max_cols a)); [|split; reflexivity].
    exfalso. apply H. split; [assumption|]. exists text, e. split; assumption. }
  unfold simpp. destruct (entity_arg a) as [s|] eqn:A; [now apply E, given_argument|].
  destruct stdin as [|[s|]]; [split; reflexivity| |split; reflexivity].
  apply E. now apply given_input.
Qed.
Print Assumptions C81_or_fails.

(** The argument wins, and then the standard input is not touched; no terminal is ever read. *)
Theorem C81_argument_first : forall verbatim width a stdin stdin',
  entity_arg a <> None ->
  simpp verbatim width a stdin = simpp verbatim width a stdin' /\
  reads_stdin (simpp verbatim width a stdin) = false.
Proof.
  intros vb width a stdin stdin' H. unfold simpp. destruct (entity_arg a); [|congruence].
  split; [reflexivity|]. unfold simplify.
  destruct (parse_entity s) as [e| | |]; try reflexivity.
  destruct (bounded_display vb width e (max_cols a)); reflexivity.
Qed.
Print Assumptions C81_argument_first.
Theorem C81_no_prompt : forall verbatim width a,
  reads_stdin (simpp verbatim width a Terminal) = false.
Proof.
  intros vb width a. destruct (entity_arg a) as [s|] eqn:E.
  - apply (C81_argument_first vb width a Terminal Terminal). congruence.
  - unfold simpp. rewrite E. reflexivity.
Qed.
Print Assumptions C81_no_prompt.

(** With enough columns for all of it, the complete entity is printed (the restriction is
    that of C32). *)
Theorem C81_complete_if_it_fits : forall verbatim cw a stdin text e,
  terminal_widths cw -> given a stdin text -> parse_entity text = EOk e -> (1 <= max_cols a)%N ->
  well_counted e = true -> (entity_depth e <= full_depth)%N ->
  stdout (simpp verbatim (width_of cw) a stdin) = entity_full verbatim e ++ [10%N] <->
  (width_of cw (entity_full verbatim e) <= max_cols a)%N.
Proof.
  intros vb cw a stdin text e Hw G P Hc Hcount Hd.
  pose proof (C65_parsed_entities_are_well_formed text e P) as Hf.
  destruct (C81_prints_one_line vb cw a stdin text e Hw G P Hc) as (line & E & _ & _ & _).
  rewrite <- (C32_full_display_iff_it_fits vb cw e (max_cols a) Hw Hf Hcount Hd Hc).
  assert (B : bounded_display vb (width_of cw) e (max_cols a) = Ret line).
  { destruct (C31_bounded_display_is_deepest vb (width_of cw) e (max_cols a) Hc) as (l & B & _).
    rewrite B. f_equal. apply (app_inv_tail [10%N]). rewrite <- E.
    destruct G as [s H|s H ->]; unfold simpp, simplify; rewrite H, P, B; reflexivity. }
  rewrite E, B. split.
  - intros H. apply app_inv_tail in H. now subst.
  - intros H. injection H as ->. reflexivity.
Qed.
Print Assumptions C81_complete_if_it_fits.

(** So a name of the core language of C76 is printed with crofiler's own spacing if there is
    room for it, and giving this output to simpp prints it again. *)
Theorem C81_core_names : forall verbatim cw t cols stdin,
  (forall c, (32 <= c < 127)%N -> verbatim c = true) -> terminal_widths cw ->
  core_ok t = true -> well_counted (Some (tmean t)) = true ->
  (entity_depth (Some (tmean t)) < full_depth)%N -> (1 <= cols)%N ->
  (width_of cw (displayed_text t) <= cols)%N ->
  stdout (simpp verbatim (width_of cw) (mk_args cols (Some (written_text t))) stdin)
    = displayed_text t ++ [10%N] /\
  stdout (simpp verbatim (width_of cw) (mk_args cols None) (Piped (Some (displayed_text t))))
    = displayed_text t ++ [10%N].
Proof.
  intros vb cw t cols stdin Hv Hw Ht Hcount Hd Hc Hfit.
  destruct (C76_core_text_is_read t Ht) as [P P'].
  assert (F : entity_full vb (Some (tmean t)) = displayed_text t) by now apply C76_core_entity_is_displayed.
  assert (Hd' : (entity_depth (Some (tmean t)) <= full_depth)%N) by lia.
  rewrite <- F in Hfit. split; [rewrite <- F|rewrite <- F at 2].
  - apply (C81_complete_if_it_fits vb cw (mk_args cols (Some (written_text t))) stdin
             (written_text t) (Some (tmean t))); try assumption. now apply given_argument.
  - apply (C81_complete_if_it_fits vb cw (mk_args cols None) (Piped (Some (displayed_text t)))
             (displayed_text t) (Some (tmean t))); try assumption. now apply given_input.
Qed.
Print Assumptions C81_core_names.

(** `simpp -c 13 'std::vector<...>::push_back(int const&)'`, piped with a final newline and
    more columns, an unreadable name, and no column. *)
Example C81_witness :
  let name := '"std::vector<int, std::allocator<int> >::push_back(int const&)" in
  let run := simpp printable_ascii (width_of one_column) in
  given (mk_args 13 (Some name)) Terminal name /\
  (exists e, parse_entity name = EOk e /\ well_counted e = true /\ (entity_depth e <= full_depth)%N) /\
  terminal_widths one_column /\
  run (mk_args 13 (Some name)) Terminal
    = mk_run false (ellipsis :: '"::push_back" ++ [ellipsis; 10%N]) (Ret tt) /\
  run (mk_args 80 None) (Piped (Some (name ++ [10%N])))
    = mk_run true ('"std::vector<int, std::allocator<int>>::push_back(int const&)" ++ [10%N]) (Ret tt) /\
  run (mk_args 80 (Some '"a<")) Terminal = mk_run false [] Panic /\
  run (mk_args 0 (Some name)) Terminal = mk_run false [] Panic.
Proof.
  cbv zeta. split; [now apply given_argument|]. split.
  { eexists. split; [vm_compute; reflexivity|]. split; [vm_compute; reflexivity|]. now vm_compute. }
  split; [repeat split; vm_compute; reflexivity|].
  repeat split; vm_compute; reflexivity.
Qed.

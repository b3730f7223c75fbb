(** C30-C33, C63: display of C++ entities within a budget. *)
From Coq Require Import Ascii String.
From Verif Require Import Base Cpp_Lex_Model Cpp_Ast_Model Cpp_Parse_Model Cpp_Display_Spec
  Cpp_Display_Proofs4.
Local Open Scope nat_scope.
Local Open Scope bool_scope.
Local Open Scope list_scope.

(** Terminal of the witnesses: every character is one column wide *)
Definition one_column (_ : chr) : N := 1%N.
Definition printable_ascii (c : chr) : bool := N.leb 32 c && N.ltb c 127.

(** C30: a bounded display is at most as wide as asked, for any table of widths in which the
    ellipsis is one column wide; it is defined for every budget of at least one column. *)
Theorem C30_bounded_display_fits : forall verbatim width e cols,
  width [ellipsis] = 1%N ->
  (forall s, bounded_display verbatim width e cols = Ret s -> (width s <= cols)%N) /\
  ((1 <= cols)%N -> exists s, bounded_display verbatim width e cols = Ret s).
Proof.
  exact (fun vb width e cols H => conj (fun s => bounded_fits vb width e cols s H)
    (fun H1 => match bounded_cases vb width e cols H1 with
               | ex_intro _ s (conj E _) => ex_intro _ s E end)).
Qed.
Print Assumptions C30_bounded_display_fits.
Example C30_witness :
  exists e, parse_entity (of_string "std::vector<int, std::allocator<int> >::push_back(int const&)") = EOk e /\
  bounded_display printable_ascii (width_of one_column) e 13
    = Ret (ellipsis :: of_string "::push_back" ++ [ellipsis]) /\
  bounded_display printable_ascii (width_of one_column) e 12 = Ret [ellipsis].
Proof. eexists. split; [vm_compute; reflexivity|]. split; vm_compute; reflexivity. Qed.

(** C31: it shows the rendering at some depth, where this and all smaller depths fit, and the
    next one does not fit or the entity has no deeper level; or an ellipsis if not even depth 0
    fits. *)
Theorem C31_bounded_display_is_deepest : forall verbatim width e cols,
  (1 <= cols)%N ->
  exists s, bounded_display verbatim width e cols = Ret s /\
  ((s = [ellipsis] /\ (cols < width (entity_at verbatim e 0))%N) \/
   exists d, (d <= entity_depth e)%N /\ s = entity_at verbatim e d /\
     (forall d', (d' <= d)%N -> (width (entity_at verbatim e d') <= cols)%N) /\
     (d = entity_depth e \/ (cols < width (entity_at verbatim e (d + 1)))%N)).
Proof. exact bounded_cases. Qed.
Print Assumptions C31_bounded_display_is_deepest.

(** C31: no deeper rendering that would fit is missed (for the entities of C32) *)
Theorem C31_nothing_deeper_fits : forall verbatim cw e cols,
  terminal_widths cw -> well_formed e = true -> well_counted e = true -> (1 <= cols)%N ->
  exists s, bounded_display verbatim (width_of cw) e cols = Ret s /\
  ((s = [ellipsis] /\ forall d, (cols < width_of cw (entity_at verbatim e d))%N) \/
   exists d, s = entity_at verbatim e d /\
     forall d', (d < d')%N ->
       entity_at verbatim e d' = s \/ (cols < width_of cw (entity_at verbatim e d'))%N).
Proof. exact bounded_widest. Qed.
Print Assumptions C31_nothing_deeper_fits.
Example C31_witness :
  exists e, parse_entity (of_string "a<b<c<1> > >") = EOk e /\
  well_formed e = true /\ well_counted e = true /\ entity_depth e = 3%N /\
  map (fun cols => bounded_display printable_ascii (width_of one_column) e cols)
    [3; 4; 7; 10; 11; 12]%N =
  [Ret [ellipsis];
   Ret (of_string "a<" ++ [ellipsis] ++ of_string ">");
   Ret (of_string "a<b<" ++ [ellipsis] ++ of_string ">>");
   Ret (of_string "a<b<c<1>>>"); Ret (of_string "a<b<c<1>>>"); Ret (of_string "a<b<c<1>>>")].
Proof. eexists. split; [vm_compute; reflexivity|]. repeat split; vm_compute; reflexivity. Qed.

(** C32: bounded display shows the whole entity exactly if the whole entity fits, for entities
    without `::x` and `f(...)` whose depth is a machine word. *)
Theorem C32_full_display_iff_it_fits : forall verbatim cw e cols,
  terminal_widths cw -> well_formed e = true -> well_counted e = true ->
  (entity_depth e <= full_depth)%N -> (1 <= cols)%N ->
  bounded_display verbatim (width_of cw) e cols = Ret (entity_full verbatim e) <->
  (width_of cw (entity_full verbatim e) <= cols)%N.
Proof. exact bounded_full_width. Qed.
Print Assumptions C32_full_display_iff_it_fits.
Example C32_witness :
  exists e, parse_entity (of_string "std::f<A>(int, char const*, ...) const") = EOk e /\
  well_formed e = true /\ well_counted e = true /\ (entity_depth e <= full_depth)%N /\
  terminal_widths one_column.
Proof.
  eexists. split; [vm_compute; reflexivity|]. repeat split; try (vm_compute; reflexivity).
  now vm_compute.
Qed.

(** C32 without these restrictions is false: the depth of `::foo` and `f(...)` is one less
    by the code's account, so they lose a part however much room there is (and the full display
    of `f(...)` has a stray comma). *)
Theorem C32_refuted :
  (exists e, parse_entity (of_string "::foo") = EOk e /\
     entity_full printable_ascii e = of_string "::foo" /\
     forall cols, (10 <= cols)%N ->
       bounded_display printable_ascii (width_of one_column) e cols = Ret (of_string "foo")) /\
  (exists e, parse_entity (of_string "f(...)") = EOk e /\
     entity_full printable_ascii e = of_string "f(, ...)" /\
     forall cols, (10 <= cols)%N ->
       bounded_display printable_ascii (width_of one_column) e cols = Ret (of_string "f()")).
Proof.
  split; (eexists; split; [vm_compute; reflexivity|]; split; [vm_compute; reflexivity|]);
    intros cols H;
    match goal with |- bounded_display ?vb ?w ?e _ = _ =>
      destruct (bounded_cases vb w e cols ltac:(lia)) as (s & -> & C);
      assert (D : (entity_depth e <= 1)%N) by (vm_compute; discriminate);
      assert (W0 : (w (entity_at vb e 0) <= 3)%N) by (vm_compute; discriminate);
      assert (W1 : (entity_depth e = 0 \/ w (entity_at vb e 1) <= 3)%N)
        by (vm_compute; try (now left); right; discriminate);
      destruct C as [[-> C]|(d & H1 & -> & _ & C)]; [lia|];
      assert (Hd : d = entity_depth e)
        by (destruct C as [C|C]; [exact C|];
            destruct (N.eq_dec d 0) as [->|Hne]; [cbn [N.add] in C; lia|lia]);
      rewrite Hd; vm_compute; reflexivity
    end.
Qed.
Print Assumptions C32_refuted.

(** C33: rendering an entity at depth budget [d] ends with budget [d], leaves every level it
    entered, and never has more than [d] levels open. *)
Theorem C33_recursion_is_balanced : forall verbatim e d,
  snd (entity_render verbatim e d) = d /\ well_nested d (fst (entity_render verbatim e d)).
Proof. exact entity_balanced. Qed.
Print Assumptions C33_recursion_is_balanced.
Example C33_witness :
  exists e, parse_entity (of_string "a<b<c<1> > >") = EOk e /\
  enters (fst (entity_render printable_ascii e 2%N)) = 4 /\
  enters (fst (entity_render printable_ascii e 3%N)) = 6.
Proof. eexists. split; [vm_compute; reflexivity|]. split; vm_compute; reflexivity. Qed.

(** C63: more depth never makes a rendering narrower; beyond the recursion depth, nothing
    changes. *)
Theorem C63_deeper_is_wider : forall verbatim cw e d d',
  terminal_widths cw -> well_formed e = true -> (d <= d')%N ->
  (width_of cw (entity_at verbatim e d) <= width_of cw (entity_at verbatim e d'))%N.
Proof. exact entity_mono. Qed.
Print Assumptions C63_deeper_is_wider.
Theorem C63_depth_suffices : forall verbatim e d d',
  (entity_depth e < d)%N -> (entity_depth e < d')%N ->
  entity_at verbatim e d = entity_at verbatim e d'.
Proof. exact entity_stable. Qed.
Print Assumptions C63_depth_suffices.
Example C63_witness :
  exists e, parse_entity (of_string "a<b<c<1> > >") = EOk e /\ well_formed e = true /\
  map (fun d => width_of one_column (entity_at printable_ascii e d)) [0; 1; 2; 3; 4]%N = [4; 7; 10; 10; 10]%N.
Proof. eexists. split; [vm_compute; reflexivity|]. split; vm_compute; reflexivity. Qed.

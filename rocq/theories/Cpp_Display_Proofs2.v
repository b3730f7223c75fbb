(** Every entity renders like a document. *)
From Coq Require Import Ascii String DecimalPos.
From Verif Require Import Base Cpp_Lex_Model Cpp_Ast_Model Cpp_Display_Spec Cpp_Display_Proofs.
Local Open Scope nat_scope.
Local Open Scope bool_scope.
Local Open Scope list_scope.

Section All.
  Context {A : Type} (P : A -> Prop) (f : forall x, P x).
  Fixpoint every (l : list A) : Forall P l :=
    match l with [] => Forall_nil P | x :: r => Forall_cons x (f x) (every r) end.
End All.

Lemma vis_show_int z : vis (show_int z) = true.
Proof.
  unfold show_int. rewrite vis_app. apply orb_true_iff. right.
  assert (H : N.to_uint (Z.abs_N z) <> Decimal.Nil).
  { unfold N.to_uint. destruct (Z.abs_N z) as [|p]; [discriminate|].
    apply DecimalPos.Unsigned.to_uint_nonnil. }
  destruct (N.to_uint (Z.abs_N z)); try reflexivity. congruence.
Qed.

Lemma vis_identifier i : is_identifier i = true -> vis i = true.
Proof.
  destruct i as [|c r]; [discriminate|]. cbn [is_identifier]. rewrite andb_true_iff. intros [H _].
  cbn. apply orb_true_iff. left. unfold is_id_start, is_alpha, in_range in H.
  cbn in H. rewrite !orb_true_iff, !andb_true_iff, !N.leb_le, !N.eqb_eq in H.
  rewrite andb_true_iff, N.leb_le, N.ltb_lt. lia.
Qed.

Lemma vis_literal v l : vis (show_literal v l) = true.
Proof.
  unfold show_literal. rewrite vis_app. apply orb_true_iff. left. destruct (lit_value l); cbn [show_literal_value].
  - apply vis_show_int.
  - apply vis_show_int.
  - unfold debug_char. now rewrite vis_app.
Qed.

Lemma vis_legacy n : vis (show_legacy n) = true.
Proof. now destruct n. Qed.
Lemma vis_sym n : vis (show_sym n) = true.
Proof. now destruct n. Qed.

Lemma scope_rep_assoc a b c n b1 b2 :
  scope_rep ((a >> b) >> c) n b1 b2 -> scope_rep (a >> b >> c) n b1 b2.
Proof.
  intros (d & H1 & H2). exists d. split; [|exact H2]. intros st. rewrite <- H1. unfold andthen.
  destruct (a st) as [e1 st1]. destruct (b st1) as [e2 st2]. destruct (c st2) as [e3 st3].
  now rewrite app_assoc.
Qed.

Lemma sig_shape abi sl v close rest n b1 b2 p :
  rep (abi >> (sl >> v >> close) >> rest) n b1 b2 p ->
  rep (abi >> sl >> v >> close >> rest) n b1 b2 p.
Proof.
  apply rep_ext. intros st. unfold andthen.
  destruct (abi st) as [e1 st1]. destruct (sl st1) as [e2 st2]. destruct (v st2) as [e3 st3].
  destruct (close st3) as [e4 st4]. destruct (rest st4) as [e5 st5].
  now rewrite <- !app_assoc.
Qed.

Section Eqs.
  Variables (id_ok : str -> bool) (decl_ok : decl_operator -> bool) (path_ok : nested_name -> bool)
            (sig_ok : fn_signature -> bool).
  Notation F f := (f id_ok decl_ok path_ok sig_ok).
    Lemma type_all_eq t :
      F type_all t =
      match t with
    | TypeLike a s d => forallb (F value_all) a && (F spec_all) s && forallb (F decl_all) d
    end.
    Proof. destruct t; reflexivity. Qed.
    Lemma spec_all_eq t :
      F spec_all t =
      match t with TypeSpec _ st => (F simple_all) st end.
    Proof. destruct t; reflexivity. Qed.
    Lemma simple_all_eq t :
      F simple_all t =
      match t with STId i => (F idexpr_all) i | _ => true end.
    Proof. destruct t; reflexivity. Qed.
    Lemma decl_all_eq d :
      F decl_all d =
      decl_ok d &&
    match d with
    | DPointer path _ _ => (F nested_all) path
    | DArray v => opt_all (F value_all) v
    | DFunction f => (F sig_all) f
    | DParen l => forallb (F decl_all) l
    | DVector v => (F value_all) v
    | _ => true
    end.
    Proof. destruct d; reflexivity. Qed.
    Lemma value_all_eq v :
      F value_all v =
      match v with Value h t => (F header_all) h && forallb (F after_all) t end.
    Proof. destruct v; reflexivity. Qed.
    Lemma header_all_eq h :
      F header_all h =
      match h with
    | VHParen v => (F value_all) v
    | VHUnary op v => op_all id_ok (F type_all) op && (F value_all) v
    | VHNew n => (F new_all) n
    | VHId i => (F idexpr_all) i
    | VHSizeOf t => (F type_all) t
    | VHDeclVal t => (F type_all) t
    | VHLiteral _ => true
    | VHEllipsis => true
    end.
    Proof. destruct h; reflexivity. Qed.
    Lemma new_all_eq n :
      F new_all n =
      match n with
    | NewExpr _ p t c =>
        opt_all (forallb (F value_all)) p && (F type_all) t && opt_all (forallb (F value_all)) c
    end.
    Proof. destruct n; reflexivity. Qed.
    Lemma after_all_eq a :
      F after_all a =
      match a with
    | AVIndex v => (F value_all) v
    | AVCall l => forallb (F value_all) l
    | AVBinary op v => op_all id_ok (F type_all) op && (F value_all) v
    | AVTernary v1 v2 => (F value_all) v1 && (F value_all) v2
    | AVMember u => (F unqualified_all) u
    | AVPostfix op => op_all id_ok (F type_all) op
    | AVEllipsis => true
    end.
    Proof. destruct a; reflexivity. Qed.
    Lemma idexpr_all_eq i :
      F idexpr_all i =
      match i with IdExpr path u => (F nested_all) path && (F unqualified_all) u end.
    Proof. destruct i; reflexivity. Qed.
    Lemma nested_all_eq n :
      F nested_all n =
      path_ok n && match n with Nested _ scopes => forallb (F scope_all) scopes end.
    Proof. destruct n; reflexivity. Qed.
    Lemma scope_all_eq s :
      F scope_all s =
      match s with Scope u f => (F unqualified_all) u && opt_all (F sig_all) f end.
    Proof. destruct s; reflexivity. Qed.
    Lemma unqualified_all_eq u :
      F unqualified_all u =
      match u with
    | UNamed _ i tp => id_ok i && opt_all (F template_all) tp
    | UOperator op tp => op_all id_ok (F type_all) op && opt_all (F template_all) tp
    | UDecltype v => (F value_all) v
    | UAnonymous a => (F anonymous_all) a
    end.
    Proof. destruct u; reflexivity. Qed.
    Lemma template_all_eq t :
      F template_all t =
      match t with TPInvalid => true | TPList l => forallb (F param_all) l end.
    Proof. destruct t; reflexivity. Qed.
    Lemma param_all_eq p :
      F param_all p =
      match p with TPType t => (F type_all) t | TPValue v => (F value_all) v end.
    Proof. destruct p; reflexivity. Qed.
    Lemma sig_all_eq f :
      F sig_all f =
      sig_ok f &&
    match f with
    | FnSig _ params _ _ _ noexcept trailing =>
        forallb (F type_all) params && opt_all (opt_all (F value_all)) noexcept && opt_all (F type_all) trailing
    end.
    Proof. destruct f; reflexivity. Qed.
    Lemma anonymous_all_eq a :
      F anonymous_all a =
      match a with ALibLambda f _ => (F sig_all) f | _ => true end.
    Proof. destruct a; reflexivity. Qed.
End Eqs.


Section Rep.
  Variable vb : chr -> bool.

  (* the predicates of [well_counted] and [well_formed], as variables *)
  Variables (id1 : str -> bool) (decl1 : decl_operator -> bool) (path1 : nested_name -> bool)
            (sig1 : fn_signature -> bool).
  Variables (id2 : str -> bool) (decl2 : decl_operator -> bool) (path2 : nested_name -> bool)
            (sig2 : fn_signature -> bool).
  Hypothesis Hpath1 : forall n, path1 n = true -> path_is_counted n = true.
  Hypothesis Hsig1 : forall n, sig1 n = true -> sig_is_counted n = true.
  Hypothesis Hid2 : forall n, id2 n = true -> is_identifier n = true.
  Hypothesis Hdecl2 : forall n, decl2 n = true -> is_visible n = true.

  Notation C f := (f id1 decl1 path1 sig1).
  Notation W f := (f id2 decl2 path2 sig2).

  Ltac build :=
    lazymatch goal with
    | |- rep (_ >> _) _ _ _ _ => eapply rep_cat; [build|build]
    | |- rep (write _) _ _ _ _ => eapply rep_write
    | |- rep (writes _) _ _ _ _ => eapply rep_writes
    | |- rep nothing _ _ _ _ => apply rep_nothing
    | |- rep (when _ _) _ _ _ _ => eapply rep_when; [build|reflexivity]
    | |- rep (slice_render _ _ _ _) _ _ _ _ => eapply rep_slice; eassumption
    | |- rep _ _ _ _ _ => eauto
    end.
  Ltac side :=
    intros; rewrite ?vis_sym, ?vis_show_int, ?vis_literal, ?vis_legacy, ?orb_true_r;
    repeat match goal with
           | H : _ && _ = true |- _ => apply andb_true_iff in H; destruct H
           end;
    repeat match goal with H : ?b = true |- context [?b] => rewrite H end;
    first [ reflexivity | lia | assumption | discriminate
          | repeat match goal with
                   | |- context [vis ?s] =>
                       let v := eval vm_compute in (vis s) in
                       match v with true => idtac | false => idtac end;
                       change (vis s) with v
                   end;
            rewrite ?vis_identifier by auto;
            cbn [orb]; rewrite ?andb_false_r; cbn [orb]; rewrite ?orb_true_r; reflexivity ].
  Ltac rep := eapply rep_weaken; [build | side ..].

  Lemma op_rep (op : operator type_like) (c : op_context) :
    match op with
    | OConversion t => rep (type_render vb t) (type_depth t) (C type_all t) (W type_all t) true
    | _ => True
    end ->
    rep (op_render (type_render vb) op c) (op_depth type_depth op)
        (op_all id1 (C type_all) op) (op_all id2 (W type_all) op) true.
  Proof.
    destruct op as [s twice equal|star| |is_index|id|is_delete array| |t];
      unfold op_render; cbn [op_depth op_all]; intros Ht.
    - rep.
    - rep.
    - rep.
    - destruct is_index; rep.
    - rep.
    - destruct is_delete; rep.
    - rep.
    - destruct (is_decl c); [|destruct (is_prefix c)]; rep.
  Qed.
  Lemma type_rep (x : type_like) :
    rep (type_render vb x) (type_depth x) (C type_all x) (W type_all x) true
  with spec_rep (x : type_specifier) :
    rep (spec_render vb x) (spec_depth x) (C spec_all x) (W spec_all x) true
  with simple_rep (x : simple_type) :
    rep (simple_render vb x) (simple_depth x) (C simple_all x) (W simple_all x) true
  with decl_op_rep (x : decl_operator) :
    rep (decl_op_render vb x) (decl_op_depth x) (C decl_all x) (W decl_all x) true
  with value_rep (x : value_like) :
    rep (value_render vb x) (value_depth x) (C value_all x) (W value_all x) true
  with header_rep (x : value_header) :
    rep (header_render vb x) (header_depth x) (C header_all x) (W header_all x) true
  with new_rep (x : new_expression) :
    rep (new_render vb x) (new_depth x) (C new_all x) (W new_all x) true
  with after_rep (x : after_value) :
    rep (after_render vb x) (after_depth x) (C after_all x) (W after_all x) true
  with id_rep (x : id_expression) :
    rep (id_render vb x) (id_depth x) (C idexpr_all x) (W idexpr_all x) true
  with nested_rep (x : nested_name) :
    rep (nested_render vb x) (nested_depth x) (C nested_all x) (W nested_all x) false
  with scope_srep (x : scope) :
    scope_rep (scope_render vb x) (scope_depth x) (C scope_all x) (W scope_all x)
  with unqualified_rep (x : unqualified_id) :
    rep (unqualified_render vb x) (unqualified_depth x) (C unqualified_all x) (W unqualified_all x) true
  with template_rep (x : template_parameters) :
    rep (template_render vb x) (template_depth x) (C template_all x) (W template_all x) true
  with param_rep (x : template_parameter) :
    rep (param_render vb x) (param_depth x) (C param_all x) (W param_all x) true
  with sig_rep (x : fn_signature) :
    rep (sig_render vb x) (sig_depth x) (C sig_all x) (W sig_all x) true
  with anonymous_rep (x : anonymous) :
    rep (anonymous_render vb x) (anonymous_depth x) (C anonymous_all x) (W anonymous_all x) true.
  Proof.
  { destruct x as [a s d]. pose proof (lrep_map (value_render vb) value_depth (C value_all) (W value_all) a (every _ value_rep a)) as Ha. pose proof (lrep_map (decl_op_render vb) decl_op_depth (C decl_all) (W decl_all) d (every _ decl_op_rep d)) as Hd.
    pose proof (spec_rep s) as Hs. clear - Hpath1 Hsig1 Hid2 Hdecl2 Ha Hd Hs. rewrite !type_all_eq; cbn [type_render type_depth].
    assert (Ra : rep (match a with
       | [] => nothing
       | _ => writes "__attribute__(" >>
              slice_render "(" ", " ")" (map (value_render vb) a) >> writes ") "
       end) (slice_depth (map value_depth a)) (forallb (C value_all) a) (forallb (W value_all) a) false).
    { destruct a as [|v a]; [apply rep_nothing|]. rep. }
    assert (Rd : rep (match d with [] => nothing | _ => slice_render "" "" "" (map (decl_op_render vb) d) end)
       (slice_depth (map decl_op_depth d)) (forallb (C decl_all) d) (forallb (W decl_all) d) false).
    { destruct d as [|v d]; [apply rep_nothing|]. rep. }
    rep. }
  { destruct x as [c st]. pose proof (simple_rep st) as Hs. clear - Hpath1 Hsig1 Hid2 Hdecl2 Hs. rewrite !spec_all_eq; cbn [spec_render spec_depth]. rep. }
  { destruct x as [i|n|u]; rewrite !simple_all_eq; cbn [simple_render simple_depth].
    - apply id_rep.
    - clear - Hpath1 Hsig1 Hid2 Hdecl2. rep.
    - clear - Hpath1 Hsig1 Hid2 Hdecl2. rep. }
  { destruct x as [c|path c restrict|r|v|f|d|v]; rewrite !decl_all_eq; cbn [decl_op_render decl_op_depth].
    - clear - Hpath1 Hsig1 Hid2 Hdecl2. rep.
    - pose proof (nested_rep path) as Hp. clear - Hpath1 Hsig1 Hid2 Hdecl2 Hp.
      assert (Rp : rep (match path with Nested false [] => nothing | _ => writes " " >> nested_render vb path end)
         (nested_depth path) (C nested_all path) (W nested_all path) false).
      { destruct path as [[] [|s l]]; try apply rep_nothing; rep. }
      rep.
    - clear - Hpath1 Hsig1 Hid2 Hdecl2. destruct r; [|rep|rep].
      eapply rep_weaken; [build|side|side|side|].
      intros H _. apply andb_true_iff in H. destruct H as [H _]. apply Hdecl2 in H. discriminate.
    - destruct v as [v|]; cbn [opt_render opt_depth opt_all].
      + pose proof (value_rep v) as Hv. clear - Hpath1 Hsig1 Hid2 Hdecl2 Hv. rep.
      + clear - Hpath1 Hsig1 Hid2 Hdecl2. rep.
    - pose proof (sig_rep f) as Hf. clear - Hpath1 Hsig1 Hid2 Hdecl2 Hf. rep.
    - pose proof (lrep_map (decl_op_render vb) decl_op_depth (C decl_all) (W decl_all) d (every _ decl_op_rep d)) as Hd. clear - Hpath1 Hsig1 Hid2 Hdecl2 Hd. rep.
    - pose proof (value_rep v) as Hv. clear - Hpath1 Hsig1 Hid2 Hdecl2 Hv. rep. }
  { destruct x as [h t]. pose proof (header_rep h) as Hh. pose proof (lrep_map (after_render vb) after_depth (C after_all) (W after_all) t (every _ after_rep t)) as Ht. clear - Hpath1 Hsig1 Hid2 Hdecl2 Hh Ht. rewrite !value_all_eq; cbn [value_render value_depth]. rep. }
  { destruct x as [l|v|op v|n|i| |t|t]; rewrite !header_all_eq; cbn [header_render header_depth].
    - clear - Hpath1 Hsig1 Hid2 Hdecl2. rep.
    - pose proof (value_rep v) as Hv. clear - Hpath1 Hsig1 Hid2 Hdecl2 Hv. rep.
    - pose proof (op_rep op PrefixUsage (match op with OConversion t => type_rep t | _ => I end)) as Ho. pose proof (value_rep v) as Hv. clear - Hpath1 Hsig1 Hid2 Hdecl2 Ho Hv. rep.
    - pose proof (new_rep n) as Hn. clear - Hpath1 Hsig1 Hid2 Hdecl2 Hn. rep.
    - pose proof (id_rep i) as Hn. clear - Hpath1 Hsig1 Hid2 Hdecl2 Hn. rep.
    - clear - Hpath1 Hsig1 Hid2 Hdecl2. rep.
    - pose proof (type_rep t) as Ht. clear - Hpath1 Hsig1 Hid2 Hdecl2 Ht. rep.
    - pose proof (type_rep t) as Ht. clear - Hpath1 Hsig1 Hid2 Hdecl2 Ht. rep. }
  { destruct x as [rooted p t c].
    assert (Rp : rep (opt_render (fun l => slice_render "(" ", " ")" (map (value_render vb) l)) p)
               (opt_depth (fun l => slice_depth (map value_depth l)) p)
               (opt_all (forallb (C value_all)) p) (opt_all (forallb (W value_all)) p) false).
    { destruct p as [l|]; cbn [opt_render opt_depth opt_all].
      - pose proof (lrep_map (value_render vb) value_depth (C value_all) (W value_all) l (every _ value_rep l)) as Hl. clear - Hpath1 Hsig1 Hid2 Hdecl2 Hl. rep.
      - clear - Hpath1 Hsig1 Hid2 Hdecl2. rep. }
    assert (Rc : rep (opt_render (fun l => slice_render "(" ", " ")" (map (value_render vb) l)) c)
               (opt_depth (fun l => slice_depth (map value_depth l)) c)
               (opt_all (forallb (C value_all)) c) (opt_all (forallb (W value_all)) c) false).
    { destruct c as [l|]; cbn [opt_render opt_depth opt_all].
      - pose proof (lrep_map (value_render vb) value_depth (C value_all) (W value_all) l (every _ value_rep l)) as Hl. clear - Hpath1 Hsig1 Hid2 Hdecl2 Hl. rep.
      - clear - Hpath1 Hsig1 Hid2 Hdecl2. rep. }
    pose proof (type_rep t) as Ht. clear - Hpath1 Hsig1 Hid2 Hdecl2 Rp Rc Ht. rewrite !new_all_eq; cbn [new_render new_depth]. rep. }
  { destruct x as [v|l|op v|v1 v2|u|op| ]; rewrite !after_all_eq; cbn [after_render after_depth].
    - pose proof (value_rep v) as Hv. clear - Hpath1 Hsig1 Hid2 Hdecl2 Hv. rep.
    - pose proof (lrep_map (value_render vb) value_depth (C value_all) (W value_all) l (every _ value_rep l)) as Hl. clear - Hpath1 Hsig1 Hid2 Hdecl2 Hl. rep.
    - pose proof (op_rep op BinaryUsage (match op with OConversion t => type_rep t | _ => I end)) as Ho. pose proof (value_rep v) as Hv. clear - Hpath1 Hsig1 Hid2 Hdecl2 Ho Hv. rep.
    - pose proof (value_rep v1) as H1. pose proof (value_rep v2) as H2. clear - Hpath1 Hsig1 Hid2 Hdecl2 H1 H2. rep.
    - pose proof (unqualified_rep u) as Hu. clear - Hpath1 Hsig1 Hid2 Hdecl2 Hu. rep.
    - pose proof (op_rep op PostfixUsage (match op with OConversion t => type_rep t | _ => I end)) as Ho. clear - Hpath1 Hsig1 Hid2 Hdecl2 Ho. rep.
    - clear - Hpath1 Hsig1 Hid2 Hdecl2. rep. }
  { destruct x as [path u]. pose proof (nested_rep path) as Hp. pose proof (unqualified_rep u) as Hu.
    clear - Hpath1 Hsig1 Hid2 Hdecl2 Hp Hu. rewrite !idexpr_all_eq; cbn [id_render id_depth]. rep. }
  { destruct x as [rooted l].
    pose proof (lrep_scopes (scope_render vb) scope_depth (C scope_all) (W scope_all) l (every _ scope_srep l)) as Hl.
    clear - Hpath1 Hsig1 Hid2 Hdecl2 Hl. rewrite !nested_all_eq; cbn [nested_render nested_depth].
    eapply rep_weaken; [eapply rep_nested; [exact Hl|destruct l; reflexivity]|..].
    - reflexivity.
    - intros H. apply andb_true_iff in H. destruct H as [Hp Hs]. apply andb_true_iff.
      split; [|exact Hs]. apply Hpath1 in Hp. destruct l; [|reflexivity].
      destruct rooted; [discriminate|reflexivity].
    - intros H. apply andb_true_iff in H. destruct H as [_ H]; exact H.
    - discriminate. }
  { destruct x as [u f]. pose proof (unqualified_rep u) as Hu.
    assert (Rf : rep (opt_render (sig_render vb) f) (opt_depth sig_depth f)
                     (opt_all (C sig_all) f) (opt_all (W sig_all) f) false).
    { destruct f as [f|]; cbn [opt_render opt_depth opt_all].
      - pose proof (sig_rep f) as Hf. clear - Hpath1 Hsig1 Hid2 Hdecl2 Hf. rep.
      - clear - Hpath1 Hsig1 Hid2 Hdecl2. rep. }
    clear - Hpath1 Hsig1 Hid2 Hdecl2 Hu Rf. rewrite !scope_all_eq; cbn [scope_render scope_depth].
    apply scope_rep_assoc. apply scope_rep_of. rep. }
  { assert (Rt : forall tp, rep (opt_render (template_render vb) tp) (opt_depth template_depth tp)
                     (opt_all (C template_all) tp) (opt_all (W template_all) tp) false -> True) by auto. clear Rt.
    destruct x as [b i tp|op tp|v|a]; rewrite !unqualified_all_eq; cbn [unqualified_render unqualified_depth].
    - assert (Rt : rep (opt_render (template_render vb) tp) (opt_depth template_depth tp)
                     (opt_all (C template_all) tp) (opt_all (W template_all) tp) false).
      { destruct tp as [tp|]; cbn [opt_render opt_depth opt_all].
        - pose proof (template_rep tp) as Ht. clear - Hpath1 Hsig1 Hid2 Hdecl2 Ht. rep.
        - clear - Hpath1 Hsig1 Hid2 Hdecl2. rep. }
      clear - Hpath1 Hsig1 Hid2 Hdecl2 Rt. rep.
    - assert (Rt : rep (opt_render (template_render vb) tp) (opt_depth template_depth tp)
                     (opt_all (C template_all) tp) (opt_all (W template_all) tp) false).
      { destruct tp as [tp|]; cbn [opt_render opt_depth opt_all].
        - pose proof (template_rep tp) as Ht. clear - Hpath1 Hsig1 Hid2 Hdecl2 Ht. rep.
        - clear - Hpath1 Hsig1 Hid2 Hdecl2. rep. }
      pose proof (op_rep op Declaration (match op with OConversion t => type_rep t | _ => I end)) as Ho. clear - Hpath1 Hsig1 Hid2 Hdecl2 Rt Ho. rep.
    - pose proof (value_rep v) as Hv. clear - Hpath1 Hsig1 Hid2 Hdecl2 Hv. rep.
    - pose proof (anonymous_rep a) as Ha. clear - Hpath1 Hsig1 Hid2 Hdecl2 Ha. rep. }
  { destruct x as [|l]; rewrite !template_all_eq; cbn [template_render template_depth].
    - clear - Hpath1 Hsig1 Hid2 Hdecl2. apply rep_invalid.
    - pose proof (lrep_map (param_render vb) param_depth (C param_all) (W param_all) l (every _ param_rep l)) as Hl. clear - Hpath1 Hsig1 Hid2 Hdecl2 Hl. rep. }
  { destruct x as [t|v]; rewrite !param_all_eq; cbn [param_render param_depth].
    - apply type_rep.
    - apply value_rep. }
  { destruct x as [abi params v c r ne tr].
    pose proof (lrep_map (type_render vb) type_depth (C type_all) (W type_all) params (every _ type_rep params)) as Hp.
    assert (Rn : rep (opt_render (fun o => writes " noexcept" >>
                    opt_render (fun v => writes "(" >> value_render vb v >> writes ")") o) ne)
               (opt_depth (opt_depth value_depth) ne)
               (opt_all (opt_all (C value_all)) ne) (opt_all (opt_all (W value_all)) ne) false).
    { destruct ne as [[o|]|]; cbn [opt_render opt_depth opt_all].
      - pose proof (value_rep o) as Hv. clear - Hpath1 Hsig1 Hid2 Hdecl2 Hv. rep.
      - clear - Hpath1 Hsig1 Hid2 Hdecl2. rep.
      - clear - Hpath1 Hsig1 Hid2 Hdecl2. rep. }
    assert (Rt : rep (opt_render (fun t => writes " -> " >> type_render vb t) tr) (opt_depth type_depth tr)
               (opt_all (C type_all) tr) (opt_all (W type_all) tr) false).
    { destruct tr as [t|]; cbn [opt_render opt_depth opt_all].
      - pose proof (type_rep t) as Ht. clear - Hpath1 Hsig1 Hid2 Hdecl2 Ht. rep.
      - clear - Hpath1 Hsig1 Hid2 Hdecl2. rep. }
    clear - Hpath1 Hsig1 Hid2 Hdecl2 Hp Rn Rt. rewrite !sig_all_eq; cbn [sig_render sig_depth].
    pose proof (rep_params _ _ _ _ v Hp) as Rp.
    apply sig_shape.
    eapply rep_weaken.
    - eapply rep_cat; [|eapply rep_cat; [exact Rp|build]].
      instantiate (4 := 0%N). instantiate (3 := true). instantiate (2 := true). instantiate (1 := false).
      destruct abi; cbn [opt_render]; rep.
    - side.
    - intros H. rewrite !andb_true_iff in H. destruct H as [Hs [[H1 H2] H3]]. apply Hsig1 in Hs.
      rewrite H1, H2, H3. destruct params, v; try discriminate Hs; reflexivity.
    - side.
    - side. }
  { destruct x as [l|i l|f i|i]; rewrite !anonymous_all_eq; cbn [anonymous_render anonymous_depth].
    - clear - Hpath1 Hsig1 Hid2 Hdecl2. eapply rep_weaken; [apply rep_write|..]; try reflexivity.
    - clear - Hpath1 Hsig1 Hid2 Hdecl2. destruct i as [i|], l as [l|]; cbn [opt_render]; rep.
    - pose proof (sig_rep f) as Hf. clear - Hpath1 Hsig1 Hid2 Hdecl2 Hf. rep.
    - clear - Hpath1 Hsig1 Hid2 Hdecl2. rep. }
  Qed.
End Rep.

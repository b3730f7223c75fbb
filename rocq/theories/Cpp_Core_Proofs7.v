(** Round trip of the core entities, part 7: the whole text is read, and the entity that was read
    is displayed as this text. *)
From Coq Require Import Ascii String.
From Verif Require Import Base Cpp_Lex_Model Cpp_Ast_Model Cpp_Parse_Model Cpp_Lex_Spec
  Cpp_Display_Spec Cpp_Parse_Spec Cpp_Parse_Proofs Cpp_Parse_Proofs2 Cpp_Parse_Proofs5 Cpp_Lex_Proofs Cpp_Lex_Proofs2
  Cpp_Lex_Proofs3 Cpp_Lex_Proofs4 Cpp_Lex_Proofs5 Cpp_Lex_Proofs6 Cpp_Core_Spec Cpp_Core_Proofs Cpp_Core_Proofs2
  Cpp_Core_Proofs3 Cpp_Core_Proofs4 Cpp_Core_Proofs5 Cpp_Core_Proofs6.
Local Open Scope nat_scope.
Local Open Scope bool_scope.
Local Open Scope list_scope.
Local Notation "' s" := (of_string s) (at level 0, s at level 0).

Section Style.
Context {st : style}.

Lemma core_is_read t : core_ok t = true -> parse_entity (ttext t) = EOk (Some (tmean t)).
Proof.
  intros Ht. set (n := Nat.max (tdep t) (List.length (ttext t))).
  destruct (entity_terminates (ttext t) (S (S n))) as [E _]; [unfold n; lia|]. rewrite <- E. unfold parse_entity_n.
  assert (H : r_type (env_n (S (S n))) (ttext t ++ []) = POk [] (tmean t)).
  { apply (type_ok_body (env_n (S n)) n (good_n n)); [now apply alone_has_body| |unfold n; lia|now left|exact no_ge_nil].
    unfold core_ok in Ht. apply orb_true_iff in Ht as [Ht|Ht]; [now left|right].
    clear E. clearbody n. destruct t as [c b [|o ops]]; [exists c, b; now split|discriminate]. }
  rewrite app_nil_r in H.
  rewrite (terminated_ok _ _ (ttext t) [] (Some (tmean t)) [] tt); [reflexivity| |reflexivity].
  apply por_ok. now apply (pmap_to _ _ _ _ (tmean t)).
Qed.

End Style.

(** ** Display *)
Section Displayed.
Local Instance plain_style : style := false.

Definition shows (r : render) (n : N) (s : str) : Prop :=
  forall st, (n < st)%N -> exists es, r st = (es, st) /\ text es = s.

Lemma text_app a b : text (a ++ b) = text a ++ text b.
Proof. induction a as [|[s| |] a IH]; cbn [app text]; try exact IH; [reflexivity|]. now rewrite IH, app_assoc. Qed.
Lemma shows_eq r n s s' : shows r n s -> s = s' -> shows r n s'.
Proof. now intros H <-. Qed.
Lemma shows_write s n : shows (write s) n s.
Proof. intros st _. eexists. split; [reflexivity|]. apply app_nil_r. Qed.
Lemma shows_writes s n : shows (writes s) n (of_string s).
Proof. apply shows_write. Qed.
Lemma shows_nothing n : shows nothing n [].
Proof. intros st _. exists []. now split. Qed.
Lemma shows_cat a b n s1 s2 : shows a n s1 -> shows b n s2 -> shows (a >> b) n (s1 ++ s2).
Proof.
  intros H1 H2 st H. destruct (H1 st H) as (e1 & E1 & T1). destruct (H2 st H) as (e2 & E2 & T2).
  exists (e1 ++ e2). unfold andthen. rewrite E1, E2. split; [reflexivity|]. now rewrite text_app, T1, T2.
Qed.
Lemma shows_when b a n s : shows a n s -> shows (when b a) n (if b then s else []).
Proof. intros H. destruct b; [exact H|apply shows_nothing]. Qed.
Lemma shows_opt {A} (f : A -> render) g n o : (forall a, o = Some a -> shows (f a) n (g a)) -> shows (opt_render f o) n (opt_text g o).
Proof. intros H. destruct o as [a|]; [now apply H|apply shows_nothing]. Qed.
Lemma shows_can yes no n s : shows yes n s -> shows (if_can yes no) n s.
Proof. intros H st Hs. unfold if_can, can_recurse. destruct (N.ltb_spec 0 st); [now apply H|lia]. Qed.
Lemma shows_items {A} (f : A -> render) (g : A -> str) sep n l : (forall a, In a l -> shows (f a) n (g a)) ->
  shows (items_render sep (map f l)) n (join sep (map g l)).
Proof.
  induction l as [|a l IH]; intros H; [apply shows_nothing|]. destruct l as [|b l]; [apply H; now left|].
  change (shows (f a >> write sep >> items_render sep (map f (b :: l))) n (g a ++ sep ++ join sep (map g (b :: l)))).
  apply shows_cat; [apply H; now left|]. apply shows_cat; [apply shows_write|]. apply IH. intros x Hx. apply H. now right.
Qed.
Lemma shows_slice {A} h sep tr (f : A -> render) (d : A -> N) (g : A -> str) n l : (slice_depth (map d l) <= n)%N ->
  (forall a m, In a l -> (d a <= m)%N -> shows (f a) m (g a)) ->
  shows (slice_render h sep tr (map f l)) n (of_string h ++ join (of_string sep) (map g l) ++ of_string tr).
Proof.
  intros Hd H. apply shows_cat; [apply shows_writes|]. apply shows_cat; [|apply shows_writes].
  intros st Hst. unfold with_guard, can_recurse. destruct (N.ltb_spec 0 st) as [_|B]; [|lia].
  destruct l as [|a0 l0] eqn:El; [exists [EEnter; ELeave]; cbn [map items_render]; unfold nothing; cbn [app]; split; [f_equal; lia|reflexivity]|].
  rewrite <- El in *.
  destruct (shows_items f g (of_string sep) (n - 1)%N l) with (st := (st - 1)%N) as (es & Ee & Et).
  - intros a Ha. apply H; [exact Ha|].
    assert (D : (d a + 1 <= slice_depth (map d l))%N).
    { clear - Ha. induction l as [|b l IH]; [destruct Ha|]. cbn [map slice_depth fold_right]. fold (slice_depth (map d l)).
      destruct Ha as [->|Ha]; [lia|]. specialize (IH Ha). lia. }
    lia.
  - rewrite El in Hd. cbn [map slice_depth fold_right] in Hd. lia.
  - rewrite Ee. eexists. split; [f_equal; lia|]. cbn [text]. rewrite text_app. cbn [text]. now rewrite app_nil_r.
Qed.

Lemma show_cv_eq c : show_cv c = cv_text c.
Proof. now destruct c as [[] []]. Qed.
Lemma cv_default_eq c : negb (cv_is_default c) = negb (no_cv c).
Proof. now destruct c as [[] []]. Qed.
Lemma shows_cv c n : shows (when (negb (cv_is_default c)) (writes " " >> write (show_cv c))) n (if no_cv c then [] else '" " ++ cv_text c).
Proof.
  rewrite cv_default_eq, show_cv_eq. destruct (no_cv c); [apply shows_nothing|]. apply shows_cat; [apply shows_writes|apply shows_write].
Qed.
Lemma join_empty l : join [] l = concat l.
Proof. induction l as [|a [|b l] IH]; [reflexivity|cbn; now rewrite app_nil_r|]. cbn [join concat] in *. now rewrite <- IH. Qed.
Lemma shows_concat {A} (f : A -> render) (d : A -> N) (g : A -> str) n l : (slice_depth (map d l) <= n)%N ->
  (forall a m, In a l -> (d a <= m)%N -> shows (f a) m (g a)) ->
  shows (slice_render "" "" "" (map f l)) n (concat (map g l)).
Proof.
  intros H1 H2. eapply shows_eq; [apply (shows_slice "" "" "" f d g n l H1 H2)|]. cbn [of_string app]. now rewrite app_nil_r, join_empty.
Qed.
Lemma shows_empty n : shows (slice_render "" "" "" []) n [].
Proof. apply (shows_concat (fun _ : unit => nothing) (fun _ => 0%N) (fun _ => []) n []); [cbn; lia|intros _ _ []]. Qed.
Lemma join_names_eq l : join_names l = join '"/" l.
Proof. induction l as [|a [|b l] IH]; [reflexivity|reflexivity|]. cbn [join_names join] in *. now rewrite IH. Qed.
Lemma location_eq l : show_location (locmean l) = loc_text l.
Proof. unfold show_location, locmean, loc_text. cbn [loc_file loc_line loc_column show_path]. now rewrite join_names_eq, <- app_assoc. Qed.

Section Shows.
  Variable vb : chr -> bool.
  Hypothesis Hvb : forall c, printable c = true -> vb c = true.

  Lemma literal_shown l : literal_ok l = true -> show_literal vb l = show_literal printable l.
  Proof.
    unfold literal_ok, show_literal. rewrite andb_true_iff. intros [H _]. destruct (lit_value l) as [z|z|c]; try reflexivity.
    f_equal. cbn [show_literal_value]. unfold debug_char. cbv zeta. f_equal. f_equal.
    destruct (N.eqb c 0) eqn:E0; [reflexivity|]. destruct (N.eqb c 9) eqn:E1; [reflexivity|].
    destruct (N.eqb c 13) eqn:E2; [reflexivity|]. destruct (N.eqb c 10) eqn:E3; [reflexivity|].
    destruct (N.eqb c 92) eqn:E4; [reflexivity|]. destruct (N.eqb c 39) eqn:E5; [reflexivity|].
    cbn [existsb] in H. rewrite E0, E1, E2, E3, !orb_false_r in H. now rewrite H, (Hvb c H).
  Qed.

  (** operators *)
  Lemma oper_shown op n : shows (op_render (type_render vb) (opermean op) Declaration) n ('"operator" ++ oper_text op).
  Proof.
    unfold op_render. cbn [is_decl is_prefix is_binary when].
    apply shows_cat; [apply shows_writes|].
    destruct op as [s twice equal|star| | | |array|array| |w]; cbn [opermean oper_text].
    - eapply shows_eq; [repeat (apply shows_cat); try apply shows_nothing; [apply shows_write|apply shows_when, shows_write|apply shows_when, shows_writes]|].
      cbn [app]. now rewrite app_nil_r.
    - eapply shows_eq; [apply shows_cat; [apply shows_writes|apply shows_when, shows_writes]|]. now destruct star.
    - eapply shows_eq; [repeat (apply shows_cat); try apply shows_nothing; apply shows_writes|]. reflexivity.
    - apply shows_writes.
    - apply shows_writes.
    - eapply shows_eq; [repeat (apply shows_cat); try apply shows_nothing; [apply shows_writes|apply shows_writes|apply shows_when, shows_writes]|].
      now destruct array.
    - eapply shows_eq; [repeat (apply shows_cat); try apply shows_nothing; [apply shows_writes|apply shows_writes|apply shows_when, shows_writes]|].
      now destruct array.
    - eapply shows_eq; [repeat (apply shows_cat); try apply shows_nothing; apply shows_writes|]. reflexivity.
    - apply shows_cat; apply shows_write.
  Qed.

  Definition shown {A} (r : A -> render) (d : A -> N) (g : A -> str) (a : A) : Prop :=
    forall n, (d a <= n)%N -> shows (r a) n (g a).

  Section Step.
    Variable k : nat.
    Hypothesis HT : forall t, tok t = true -> tdep t <= k -> shown (fun t => type_render vb (tmean t)) (fun t => type_depth (tmean t)) ttext t.
    Hypothesis HV : forall v, vok v = true -> vdep v <= k -> shown (fun v => value_render vb (vmean v)) (fun v => value_depth (vmean v)) vtext v.
    Hypothesis HO : forall o, opok o = true -> opdep o < k -> shown (fun o => decl_op_render vb (opmean o)) (fun o => decl_op_depth (opmean o)) optext o.

    Lemma params_shown l : forallb pok l = true -> lmax pdep l <= k ->
      forall n, (slice_depth (map param_depth (map pmean l)) <= n)%N ->
      shows (slice_render "<" ", " ">" (map (param_render vb) (map pmean l))) n ('"<" ++ join '", " (map ptext l) ++ '">").
    Proof.
      intros Hl Hk n Hn. rewrite map_map in *. apply (shows_slice _ _ _ _ (fun p => param_depth (pmean p))); [exact Hn|].
      intros p m Hp Hm. rewrite forallb_forall in Hl. specialize (Hl p Hp). pose proof (lmax_in pdep l k Hk p Hp) as Hd.
      destruct p as [t|v]; cbn [pmean param_render param_depth ptext pok pdep] in *.
      - apply HT; [exact Hl|lia|exact Hm].
      - apply andb_true_iff in Hl as [Hl _]. apply HV; [exact Hl|lia|exact Hm].
    Qed.
    Lemma sig_shown f : sigok f = true -> sigdep f <= k -> shown (fun f => sig_render vb (sigmean f)) (fun f => sig_depth (sigmean f)) sigtext f.
    Proof.
      destruct f as [params variadic c r noexcept ret]. cbn [sigok sigdep]. rewrite !andb_true_iff. intros [[[[Hp _] _] Hx] Hr] Hk n Hn.
      cbn [sigmean sig_render sig_depth sigtext opt_render] in *. rewrite map_map in *.
      eapply shows_eq.
      - apply shows_cat; [apply shows_nothing|].
        apply shows_cat; [apply (shows_slice _ _ _ _ (fun t => type_depth (tmean t)) ttext); [lia|]|].
        { intros t m Ht Hm. rewrite forallb_forall in Hp. assert (Ht' : lmax tdep params <= k) by lia.
          pose proof (lmax_in tdep params k Ht' t Ht). apply HT; [now apply Hp|lia|exact Hm]. }
        apply shows_cat; [apply shows_can, shows_when, shows_writes|].
        apply shows_cat; [apply shows_writes|].
        apply shows_cat; [apply shows_cv|].
        apply shows_cat; [apply shows_when, shows_cat; [apply shows_writes|apply shows_write]|].
        apply (shows_cat _ _ n (opt_text (fun o => '" noexcept" ++ opt_text (fun v => '"(" ++ vtext v ++ '")") o) noexcept) (opt_text (fun t => '" -> " ++ ttext t) ret)).
        + destruct noexcept as [[v|]|]; cbn [option_map opt_render opt_text opt_ok omax opt_depth] in *.
          * apply shows_cat; [apply shows_writes|]. apply shows_cat; [apply shows_writes|]. apply shows_cat; [|apply shows_writes].
            apply HV; [exact Hx|lia|lia].
          * apply shows_cat; [apply shows_writes|apply shows_nothing].
          * apply shows_nothing.
        + destruct ret as [t|]; cbn [option_map opt_render opt_text opt_ok omax opt_depth] in *; [|apply shows_nothing].
          apply shows_cat; [apply shows_writes|]. apply HT; [exact Hr|lia|lia].
      - rewrite <- !app_assoc. destruct r; reflexivity.
    Qed.
    Lemma id_shown i : idok i = true -> idep i <= k -> shown (fun i => unqualified_render vb (idmean i)) (fun i => unqualified_depth (idmean i)) idtext i.
    Proof.
      intros Hi Hk n Hn. destruct i as [d w tp|op tp|v|u w l|l|m|f m]; cbn [idok idep idmean unqualified_render unqualified_depth idtext] in *.
      - apply andb_true_iff in Hi as [_ Hi].
        apply shows_cat; [apply shows_when, shows_writes|]. apply shows_cat; [apply shows_write|].
        destruct tp as [l|]; cbn [option_map opt_render opt_text opt_ok omax opt_depth template_render template_depth] in *; [|apply shows_nothing].
        apply andb_true_iff in Hi as [Hi _]. now apply params_shown.
      - apply andb_true_iff in Hi as [_ Hi].
        change ('"operator" ++ oper_text op ++ opt_text (fun l => '"<" ++ join '", " (map ptext l) ++ '">") tp)
          with (('"operator" ++ oper_text op) ++ opt_text (fun l => '"<" ++ join '", " (map ptext l) ++ '">") tp).
        apply shows_cat; [apply oper_shown|].
        destruct tp as [l|]; cbn [option_map opt_render opt_text opt_ok omax opt_depth template_render template_depth] in *; [|apply shows_nothing].
        apply andb_true_iff in Hi as [Hi _]. apply params_shown; [exact Hi|exact Hk|lia].
      - apply shows_cat; [apply shows_writes|]. apply shows_cat; [|apply shows_writes]. now apply HV.
      - rewrite !andb_true_iff in Hi. destruct Hi as [[_ _] Hi]. cbn [anonymous_render].
        apply shows_cat; [apply shows_writes|].
        apply shows_cat.
        + destruct w as [w|]; cbn [opt_text is_none negb orb] in *; [apply shows_cat; [apply shows_writes|apply shows_write]|].
          destruct l; [discriminate|]. apply shows_nothing.
        + apply shows_cat; [|apply shows_writes].
          destruct l as [l|]; cbn [option_map opt_render opt_text]; [|apply shows_nothing].
          apply shows_cat; [apply shows_writes|]. rewrite location_eq. apply shows_write.
      - cbn [anonymous_render]. rewrite location_eq. apply shows_write.
      - cbn [anonymous_render]. apply shows_cat; [apply shows_writes|]. apply shows_cat; [apply shows_write|apply shows_writes].
      - cbn [anonymous_render anonymous_depth] in *. rewrite !andb_true_iff in Hi. destruct Hi as [[Hf _] _].
        apply shows_cat; [apply shows_writes|]. apply shows_cat; [now apply sig_shown|].
        apply shows_cat; [apply shows_writes|]. apply shows_cat; [apply shows_write|apply shows_writes].
    Qed.
    Lemma scope_shown s : sok s = true -> sdep s <= k -> shown (fun s => scope_render vb (smean s)) (fun s => scope_depth (smean s)) stext s.
    Proof.
      destruct s as [i f]. cbn [sok sdep]. rewrite !andb_true_iff. intros [[Hi Hf] _] Hk n Hn.
      cbn [smean scope_render scope_depth stext] in *.
      apply shows_cat; [apply id_shown; [exact Hi|lia|lia]|]. apply shows_cat; [|apply shows_writes].
      destruct f as [f|]; cbn [option_map opt_render opt_text opt_ok omax opt_depth] in *; [|apply shows_nothing].
      apply andb_true_iff in Hf as [Hf _]. apply sig_shown; [exact Hf|lia|lia].
    Qed.
    Lemma nested_shown rooted ss : forallb sok ss = true -> lmax sdep ss <= k ->
      forall n, (slice_depth (map scope_depth (map smean ss)) <= n)%N ->
      shows (nested_render vb (Nested rooted (map smean ss))) n ((if rooted then '"::" else []) ++ concat (map stext ss)).
    Proof.
      intros Hs Hk n Hn. cbn [nested_render]. apply shows_can. apply shows_cat; [apply shows_when, shows_writes|].
      rewrite map_map in *. apply (shows_concat _ (fun s => scope_depth (smean s))); [exact Hn|].
      intros s m Hi Hm. rewrite forallb_forall in Hs. apply scope_shown; [now apply Hs|now apply (lmax_in sdep ss k Hk)|exact Hm].
    Qed.
    Lemma name_shown x : nok x = true -> ndep x <= k -> shown (fun x => id_render vb (nmean x)) (fun x => id_depth (nmean x)) ntext x.
    Proof.
      destruct x as [rooted ss i]. cbn [nok ndep]. rewrite !andb_true_iff. intros [[Hs _] Hi] Hk n Hn.
      cbn [nmean id_render id_depth ntext nested_depth] in *. rewrite app_assoc.
      apply shows_cat; [apply nested_shown; [exact Hs|lia|lia]|apply id_shown; [exact Hi|lia|lia]].
    Qed.
    Lemma op_shown o : opok o = true -> opdep o <= k -> shown (fun o => decl_op_render vb (opmean o)) (fun o => decl_op_depth (opmean o)) optext o.
    Proof.
      intros Ho Hk n Hn. destruct o as [c|p c r l|b l|v l|f l|ops]; cbn [opok opdep opmean decl_op_render decl_op_depth optext] in *.
      - rewrite show_cv_eq. apply shows_cat; [apply shows_writes|apply shows_write].
      - rewrite !andb_true_iff in Ho. destruct Ho as [[Ho _] _].
        apply shows_cat.
        + destruct p as [|s p]; [apply shows_nothing|]. cbn [map].
          apply shows_cat; [apply shows_writes|]. now apply (nested_shown false (s :: p)).
        + apply shows_cat; [apply shows_writes|].
          eapply shows_eq; [apply shows_cat; [apply shows_cv|apply shows_when, shows_writes]|].
          destruct c as [[] []], r; reflexivity.
      - change (mark (l_before l)) with false. destruct b; apply shows_write.
      - change (mark (l_before l)) with false. cbn [space app].
        apply shows_cat; [apply shows_writes|]. apply shows_cat; [|apply shows_writes].
        destruct v as [v|]; cbn [option_map opt_render opt_text opt_ok omax opt_depth] in *; [|apply shows_nothing]. now apply HV.
      - change (mark (l_before l)) with false. now apply sig_shown.
      - rewrite !andb_true_iff in Ho. destruct Ho as [[[Ho _] _] _].
        apply shows_cat; [apply shows_writes|]. apply shows_cat; [|apply shows_writes].
        rewrite map_map in *. apply (shows_concat _ (fun o => decl_op_depth (opmean o))); [exact Hn|].
        intros o m Hi Hm. rewrite forallb_forall in Ho. assert (Hl : lmax opdep ops <= pred k) by lia.
        pose proof (lmax_in opdep ops _ Hl o Hi). apply HO; [now apply Ho|lia|exact Hm].
    Qed.
    Lemma type_shown t : tok_body t = true -> tdep t <= S k -> shown (fun t => type_render vb (tmean t)) (fun t => type_depth (tmean t)) ttext t.
    Proof.
      destruct t as [c b ops]. cbn [tok_body tdep]. rewrite !andb_true_iff. intros [[[[Hb Ho] _] _] _] Hk n Hn.
      cbn [tmean type_render type_depth ttext spec_render spec_depth map] in *.
      change (shows (nothing >> (when (negb (cv_is_default c)) (write (show_cv c) >> writes " ") >> simple_render vb (bmean b)) >>
                match map opmean ops with [] => nothing | _ => slice_render "" "" "" (map (decl_op_render vb) (map opmean ops)) end) n
                ([] ++ (if no_cv c then [] else cv_text c ++ '" ") ++ btext b ++ concat (map optext ops))).
      apply shows_cat; [apply shows_nothing|]. rewrite app_assoc.
      apply shows_cat; [apply shows_cat|].
      - rewrite cv_default_eq, show_cv_eq. destruct (no_cv c); [apply shows_nothing|apply shows_cat; [apply shows_write|apply shows_writes]].
      - destruct b as [l|u|c' x]; cbn [bmean simple_render simple_depth btext bok bdep] in *.
        + apply shows_write.
        + apply shows_cat; [apply shows_writes|apply shows_write].
        + replace (opt_text _ c') with (@nil chr) by (now destruct c'). apply name_shown; [exact Hb|lia|lia].
      - destruct ops as [|o ops]; [apply shows_nothing|]. rewrite map_map in *.
        apply (shows_concat _ (fun o => decl_op_depth (opmean o))); [lia|].
        intros o' m Hi Hm. rewrite forallb_forall in Ho. assert (Hl : lmax opdep (o :: ops) <= k) by lia.
        apply op_shown; [now apply Ho|now apply (lmax_in opdep _ _ Hl)|exact Hm].
    Qed.
    Lemma step_shown up c n : c = PrefixUsage \/ c = PostfixUsage -> shows (op_render (type_render vb) (stepmean up) c) n (step_text up).
    Proof.
      intros Hc. unfold op_render, stepmean. destruct Hc as [->| ->]; cbn [is_decl is_prefix is_binary when];
        (eapply shows_eq; [repeat (apply shows_cat); try apply shows_nothing; apply shows_write|]; now destruct up).
    Qed.
    Lemma header_shown v : vok v = true -> vdep v <= S k -> is_expr v = false ->
      exists h, vmean v = Value h [] /\ forall n, (header_depth h <= n)%N -> shows (header_render vb h) n (vtext v).
    Proof.
      intros Hv Hk He. destruct v as [l|x|s v|up v|t v|v|b t|v ts]; try discriminate He; clear He;
        [exists (VHLiteral l)|exists (VHId (nmean x))|exists (VHUnary (OBasic s false false) (vmean v))|exists (VHUnary (stepmean up) (vmean v))|
         exists (VHUnary (OConversion (tmean t)) (vmean v))|exists (VHParen (vmean v))|
         exists (if b then VHDeclVal (tmean t) else VHSizeOf (tmean t))]; (split; [reflexivity|]); intros n Hn;
        cbn [vok vdep vmean vtext header_render value_depth header_depth op_depth map slice_depth fold_right] in *.
      - rewrite <- literal_shown by exact Hv. apply shows_write.
      - rewrite !andb_true_iff in Hv. destruct Hv as [[Hv _] _]. apply name_shown; [exact Hv|lia|lia].
      - apply andb_true_iff in Hv as [Hv _]. apply shows_cat; [|apply HV; [exact Hv|lia|lia]].
        unfold op_render. cbn [is_decl is_prefix is_binary when].
        eapply shows_eq; [repeat (apply shows_cat); try apply shows_nothing; apply shows_write|]. cbn [app]. now rewrite app_nil_r.
      - apply shows_cat; [apply step_shown; tauto|apply HV; [exact Hv|lia|destruct up; cbn [stepmean op_depth] in *; lia]].
      - apply andb_true_iff in Hv as [Ht Hv]. rewrite app_assoc, app_assoc.
        apply shows_cat; [|apply HV; [exact Hv|lia|lia]]. rewrite <- app_assoc.
        unfold op_render. cbn [is_decl is_prefix is_binary when].
        eapply shows_eq; [apply shows_cat; [apply shows_nothing|apply shows_cat; [apply shows_writes|apply shows_cat; [|apply shows_writes]]]|reflexivity].
        apply HT; [exact Ht|lia|lia].
      - apply andb_true_iff in Hv as [Hv _]. apply shows_cat; [apply shows_writes|]. apply shows_cat; [|apply shows_writes]. apply HV; [exact Hv|lia|lia].
      - destruct b; cbn [header_render header_depth] in *; (apply shows_cat; [apply shows_writes|]; apply shows_cat; [apply shows_writes|];
          apply shows_cat; [|apply shows_writes]; apply HT; [exact Hv|lia|lia]).
    Qed.
    Lemma binary_shown op n : shows (op_render (type_render vb) (binarymean op) BinaryUsage) n (binary_text op).
    Proof.
      unfold op_render. cbn [is_decl is_prefix is_binary when].
      destruct op as [s twice equal|star|]; cbn [binarymean binary_text].
      - eapply shows_eq; [repeat (apply shows_cat); try apply shows_nothing; [apply shows_writes|apply shows_write|apply shows_when, shows_write|apply shows_when, shows_writes|apply shows_writes]|].
        reflexivity.
      - eapply shows_eq; [apply shows_cat; [apply shows_nothing|apply shows_cat; [apply shows_writes|apply shows_when, shows_writes]]|]. now destruct star.
      - eapply shows_eq; [repeat (apply shows_cat); try apply shows_nothing; apply shows_writes|]. reflexivity.
    Qed.
    Lemma after_shown a : aok a = true -> adep a <= k -> shown (fun a => after_render vb (amean a)) (fun a => after_depth (amean a)) atext a.
    Proof.
      intros Ha Hk n Hn. destruct a as [v|args|i| |up|op v|v w]; cbn [aok adep amean after_render after_depth atext] in *.
      - apply shows_cat; [apply shows_writes|]. apply shows_cat; [|apply shows_writes]. now apply HV.
      - apply andb_true_iff in Ha as [Ha _]. rewrite map_map in *. apply (shows_slice _ _ _ _ (fun v => value_depth (vmean v))); [exact Hn|].
        intros v m Hi Hm. rewrite forallb_forall in Ha. apply HV; [now apply Ha|now apply (lmax_in vdep args k Hk)|exact Hm].
      - apply andb_true_iff in Ha as [Ha _]. apply shows_cat; [apply shows_writes|]. now apply id_shown.
      - apply shows_writes.
      - apply step_shown. tauto.
      - rewrite !andb_true_iff in Ha. destruct Ha as [[Ha _] _]. apply shows_cat; [apply binary_shown|]. apply HV; [exact Ha|exact Hk|lia].
      - rewrite !andb_true_iff in Ha. destruct Ha as [[Hv Hw] _]. apply shows_cat; [apply shows_writes|].
        apply shows_cat; [apply HV; [exact Hv|lia|lia]|]. apply shows_cat; [apply shows_writes|]. apply HV; [exact Hw|lia|lia].
    Qed.
    Lemma value_shown v : vok v = true -> vdep v <= S k -> shown (fun v => value_render vb (vmean v)) (fun v => value_depth (vmean v)) vtext v.
    Proof.
      intros Hv Hk n Hn.
      assert (H : exists w ts, vok w = true /\ vdep w <= S k /\ is_expr w = false /\ forallb aok ts = true /\ lmax adep ts <= k /\
        vtext v = vtext w ++ concat (map atext ts) /\
        vmean v = match vmean w with Value h before => Value h (before ++ map amean ts) end).
      { destruct (is_expr v) eqn:Ev.
        - destruct v as [l|x|s v|up v|t v|v|b t|v ts]; try discriminate Ev. exists v, ts. destruct (expr_header v ts Hv) as [H1 H2].
          cbn [vok vdep] in *. rewrite !andb_true_iff in Hv. destruct Hv as [[[[[[_ Ha] _] _] _] _] _].
          repeat split; try assumption; lia.
        - exists v, []. cbn [map concat lmax fold_right]. rewrite app_nil_r. repeat split; try assumption; [lia|].
          destruct (vmean v). now rewrite app_nil_r. }
      destruct H as (w & ts & H1 & H2 & H3 & H4 & H5 & H6 & H7). destruct (header_shown w H1 H2 H3) as (h & Eh & Hs).
      rewrite Eh in H7. cbn [app] in H7. rewrite H6. rewrite H7 in *. cbn [value_render value_depth] in *.
      rewrite map_map in *. apply shows_cat; [apply Hs; lia|]. apply (shows_concat _ (fun a => after_depth (amean a))); [lia|].
      intros a m Hi Hm. rewrite forallb_forall in H4. apply after_shown; [now apply H4|now apply (lmax_in adep ts k H5)|exact Hm].
    Qed.
  End Step.

  Lemma all_shown k :
    (forall t, tok t = true -> tdep t <= k -> shown (fun t => type_render vb (tmean t)) (fun t => type_depth (tmean t)) ttext t) /\
    (forall v, vok v = true -> vdep v <= k -> shown (fun v => value_render vb (vmean v)) (fun v => value_depth (vmean v)) vtext v) /\
    (forall o, opok o = true -> opdep o < k -> shown (fun o => decl_op_render vb (opmean o)) (fun o => decl_op_depth (opmean o)) optext o).
  Proof.
    induction k as [|k (HT & HV & HO)].
    - split; [|split]; [intros [c b ops] _ H; cbn [tdep] in H; lia|intros [] _ H; cbn [vdep] in H; lia|intros o _ H; lia].
    - split; [|split].
      + intros t Ht. apply type_shown; try assumption. now apply tok_has_body.
      + now apply value_shown.
      + intros o Ho Hk. apply (op_shown k); try assumption. lia.
  Qed.
  Lemma core_is_displayed t d : core_ok t = true -> (entity_depth (Some (tmean t)) < d)%N -> entity_at vb (Some (tmean t)) d = ttext t.
  Proof.
    intros Ht Hd. destruct (all_shown (tdep t)) as (HT & HV & HO).
    destruct (type_shown (tdep t) HT HV HO t (alone_has_body t Ht) ltac:(lia) (type_depth (tmean t)) (N.le_refl _) d Hd) as (es & E & T).
    unfold entity_at. cbn [entity_render]. now rewrite E.
  Qed.
End Shows.
End Displayed.

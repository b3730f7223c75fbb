(** Proofs about the cutting of command lines into words. *)
From Coq Require Import String.
From Verif Require Import Base.
From Verif Require Import Cpp_Lex_Model Cmd_Model Shell_Model Shell_Spec.
Local Open Scope nat_scope.
Local Open Scope bool_scope.
Local Open Scope list_scope.
Local Notation length := List.length.

Lemma is_blank_spec c : is_blank c = true <-> blank c.
Proof. unfold is_blank, blank. rewrite !orb_true_iff, !N.eqb_eq. tauto. Qed.
Lemma not_blank c : ~ blank c -> is_blank c = false.
Proof. intros H. destruct (is_blank c) eqn:E; [|reflexivity]. apply is_blank_spec in E. contradiction. Qed.
Lemma blank_dec c : blank c \/ ~ blank c.
Proof. destruct (is_blank c) eqn:E; [left; now apply is_blank_spec|right; intros H; apply is_blank_spec in H; congruence]. Qed.
Lemma escapable_spec c : N.eqb c 36 || N.eqb c 96 || N.eqb c 34 || N.eqb c 92 = true <-> escapable c.
Proof. unfold escapable. rewrite !orb_true_iff, !N.eqb_eq. tauto. Qed.
Lemma eqb_no (a b : N) : a <> b -> N.eqb a b = false.
Proof. apply N.eqb_neq. Qed.

(** *** Quotes *)
Lemma single_lex v w rest : ~ In 39%N v -> shlex InSingle w (v ++ 39%N :: rest) = shlex InWord (w ++ v) rest.
Proof.
  revert w. induction v as [|c v IH]; intros w H.
  - cbn. now rewrite app_nil_r.
  - cbn [app shlex]. rewrite (eqb_no c 39) by (intros ->; apply H; now left).
    rewrite IH by (intros X; apply H; now right). now rewrite <- app_assoc.
Qed.
Lemma single_open v w : ~ In 39%N v -> shlex InSingle w v = [].
Proof.
  revert w. induction v as [|c v IH]; intros w H; [reflexivity|].
  cbn [shlex]. rewrite (eqb_no c 39) by (intros ->; apply H; now left). apply IH. intros X. apply H. now right.
Qed.

Lemma double_lex v t : in_double v t -> forall w rest, shlex InDouble w (t ++ rest) = shlex InDouble (w ++ v) rest.
Proof.
  induction 1 as [|c v t H1 H2 H IH|c v t H1 H IH|v t H IH|c v t H1 H2 H IH]; intros w rest.
  - now rewrite app_nil_r.
  - cbn [app shlex]. rewrite (eqb_no c 92) by exact H2. rewrite (eqb_no c 34) by exact H1.
    rewrite IH. now rewrite <- app_assoc.
  - cbn [app shlex]. rewrite N.eqb_refl. apply escapable_spec in H1. rewrite H1. rewrite IH. now rewrite <- app_assoc.
  - cbn [app shlex]. cbn [N.eqb Pos.eqb orb]. apply IH.
  - cbn [app shlex]. rewrite N.eqb_refl. destruct (_ || N.eqb c 92) eqn:E.
    + apply escapable_spec in E. contradiction.
    + rewrite (eqb_no c 10) by exact H2. rewrite IH. now rewrite <- app_assoc.
Qed.

(** *** Words *)
Lemma piece_lex v t : piece v t -> forall w rest, shlex InWord w (t ++ rest) = shlex InWord (w ++ v) rest.
Proof.
  intros [c [H1 (H2 & H3 & H4)]|c H| |u H|u t' H] w rest.
  - cbn [app shlex]. rewrite (not_blank c H1). unfold word_char. rewrite (eqb_no c 34), (eqb_no c 39), (eqb_no c 92) by assumption.
    reflexivity.
  - cbn [app shlex]. cbn [is_blank N.eqb Pos.eqb orb word_char]. rewrite (eqb_no c 10) by exact H. reflexivity.
  - cbn [app shlex]. cbn [is_blank N.eqb Pos.eqb orb word_char]. now rewrite app_nil_r.
  - cbn [app shlex]. cbn [is_blank N.eqb Pos.eqb orb word_char]. rewrite <- app_assoc. now apply single_lex.
  - cbn [app shlex]. cbn [is_blank N.eqb Pos.eqb orb word_char]. rewrite <- app_assoc. rewrite (double_lex _ _ H).
    reflexivity.
Qed.
Lemma pieces_lex v t : pieces v t -> forall w rest, shlex InWord w (t ++ rest) = shlex InWord (w ++ v) rest.
Proof.
  induction 1 as [|v t v' t' H Hs IH]; intros w rest.
  - now rewrite app_nil_r.
  - rewrite <- app_assoc, (piece_lex _ _ H), IH. now rewrite <- app_assoc.
Qed.
Lemma unclosed_lex u w : unclosed u -> shlex InWord w u = [].
Proof.
  intros [|v H|v t H|v t H]; cbn [shlex]; cbn [is_blank N.eqb Pos.eqb orb word_char].
  - reflexivity.
  - now apply single_open.
  - rewrite <- (app_nil_r t), (double_lex _ _ H). reflexivity.
  - rewrite (double_lex _ _ H). reflexivity.
Qed.

Lemma between_word c s : ~ blank c -> c <> 35%N -> shlex Between [] (c :: s) = shlex InWord [] (c :: s).
Proof. intros H1 H2. cbn [shlex]. rewrite (not_blank c H1), (eqb_no c 35) by exact H2. reflexivity. Qed.

Lemma piece_start v t : piece v t -> exists c s, t = c :: s /\ ~ blank c.
Proof.
  intros [c [H _]|c H| |u H|u t' H]; eexists _, _; (split; [reflexivity|]); try exact H;
    unfold blank; intros [X|[X|X]]; discriminate.
Qed.
Lemma pieces_start v t c s : pieces v t -> t = c :: s -> ~ blank c.
Proof.
  intros H. revert c s. induction H as [|v t v' t' H Hs IH]; intros c s E; [discriminate|].
  destruct (piece_start _ _ H) as (d & s' & -> & Hd). injection E as <- _. exact Hd.
Qed.

Lemma word_lex v t rest : word_text v t -> shlex Between [] (t ++ rest) = shlex InWord v rest.
Proof.
  intros (H & Hne & Hh). destruct t as [|c s] eqn:E; [contradiction|].
  change ((c :: s) ++ rest) with (c :: s ++ rest). rewrite between_word.
  - change (c :: s ++ rest) with ((c :: s) ++ rest). rewrite (pieces_lex _ _ H). reflexivity.
  - exact (pieces_start _ _ _ _ H eq_refl).
  - exact Hh.
Qed.

(** *** Spaces *)
Lemma comment_lex u s : ~ In 10%N u -> shlex Comment [] (u ++ 10%N :: s) = shlex Between [] s.
Proof.
  induction u as [|c u IH]; intros H; [reflexivity|].
  cbn [app shlex]. rewrite (eqb_no c 10) by (intros ->; apply H; now left). apply IH. intros X. apply H. now right.
Qed.
Lemma comment_end u : ~ In 10%N u -> shlex Comment [] u = [].
Proof.
  induction u as [|c u IH]; intros H; [reflexivity|].
  cbn [shlex]. rewrite (eqb_no c 10) by (intros ->; apply H; now left). apply IH. intros X. apply H. now right.
Qed.
Lemma space_lex sp s : space sp -> shlex Between [] (sp ++ s) = shlex Between [] s.
Proof.
  induction 1 as [|c t H Hs IH|u t H Hs IH].
  - reflexivity.
  - cbn [app shlex]. apply is_blank_spec in H. now rewrite H.
  - cbn [app shlex]. cbn [is_blank N.eqb Pos.eqb orb]. rewrite <- app_assoc. cbn [app]. now rewrite comment_lex.
Qed.
Lemma blank_lex c s : blank c -> shlex Between [] (c :: s) = shlex Between [] s.
Proof. intros H. cbn [shlex]. apply is_blank_spec in H. now rewrite H. Qed.
Lemma word_end c s w : blank c -> shlex InWord w (c :: s) = w :: shlex Between [] s.
Proof. intros H. cbn [shlex]. apply is_blank_spec in H. now rewrite H. Qed.

(** *** Commands *)
Theorem command_lex ws text : command_text ws text -> shlex Between [] text = ws.
Proof.
  induction 1 as [sp H|sp u H Hu|sp v t H Hw|sp v t c s vs H Hw Hc Hs IH].
  - rewrite <- (app_nil_r sp), space_lex by exact H. reflexivity.
  - rewrite space_lex by exact H. cbn [shlex]. cbn [is_blank N.eqb Pos.eqb orb]. now apply comment_end.
  - rewrite space_lex by exact H. rewrite <- (app_nil_r t), (word_lex v) by exact Hw. reflexivity.
  - rewrite space_lex by exact H. rewrite (word_lex v) by exact Hw. rewrite word_end by exact Hc.
    f_equal. now rewrite blank_lex in IH.
Qed.

Theorem broken_lex ws text : broken_text ws text -> shlex Between [] text = ws.
Proof.
  induction 1 as [sp v t u H Hp Hh Hu|sp v t c s vs H Hw Hc Hs IH].
  - rewrite space_lex by exact H. destruct t as [|c t].
    + cbn [app]. destruct u as [|c u]; [reflexivity|]. rewrite between_word.
      * now apply unclosed_lex.
      * inversion Hu; subst; unfold blank; intros [X|[X|X]]; discriminate.
      * inversion Hu; subst; discriminate.
    + change ((c :: t) ++ u) with (c :: t ++ u). rewrite between_word.
      * change (c :: t ++ u) with ((c :: t) ++ u). rewrite (pieces_lex _ _ Hp). now apply unclosed_lex.
      * exact (pieces_start _ _ _ _ Hp eq_refl).
      * intros ->. exact (Hh t eq_refl).
  - rewrite space_lex by exact H. rewrite (word_lex v) by exact Hw. rewrite word_end by exact Hc.
    f_equal. now rewrite blank_lex in IH.
Qed.

(** *** Every text is one or the other *)
Lemma split_at (x : chr) (s : str) : (exists a b, s = a ++ x :: b /\ ~ In x a) \/ ~ In x s.
Proof.
  induction s as [|c s IH]; [right; intros []|].
  destruct (N.eq_dec c x) as [->|Hne].
  - left. exists [], s. split; [reflexivity|intros []].
  - destruct IH as [(a & b & -> & Ha)|Hn].
    + left. exists (c :: a), b. split; [reflexivity|]. intros [X|X]; contradiction.
    + right. intros [X|X]; contradiction.
Qed.

Lemma double_total n : forall s : str, length s <= n ->
  (exists v t rest, s = t ++ 34%N :: rest /\ in_double v t) \/
  (exists v t, in_double v t /\ (s = t \/ s = t ++ [92%N])).
Proof.
  induction n as [|n IH]; intros s Hn.
  - destruct s; [|cbn in Hn; lia]. right. exists [], []. split; [constructor|now left].
  - destruct s as [|c s]; [right; exists [], []; split; [constructor|now left]|].
    cbn in Hn. destruct (N.eq_dec c 34) as [->|H1]; [left; exists [], [], s; split; [reflexivity|constructor]|].
    destruct (N.eq_dec c 92) as [->|H2].
    + destruct s as [|d s]; [right; exists [], []; split; [constructor|now right]|]. cbn in Hn.
      assert (Hd : exists v0, forall v t, in_double v t -> in_double (v0 ++ v) (92%N :: d :: t)).
      { destruct (N.eq_dec d 10) as [->|Hnl]; [exists []; intros; now constructor|].
        destruct (N.eqb d 36 || N.eqb d 96 || N.eqb d 34 || N.eqb d 92) eqn:E.
        - apply escapable_spec in E. exists [d]. intros. now constructor.
        - exists [92%N; d]. intros. apply dq_backslash; [|exact Hnl|assumption].
          intros X. apply escapable_spec in X. congruence. }
      destruct Hd as [v0 Hd]. destruct (IH s ltac:(lia)) as [(v & t & rest & -> & H)|(v & t & H & Hs)].
      * left. exists (v0 ++ v), (92%N :: d :: t), rest. split; [reflexivity|now apply Hd].
      * right. exists (v0 ++ v), (92%N :: d :: t). split; [now apply Hd|].
        destruct Hs as [->| ->]; [now left|now right].
    + destruct (IH s ltac:(lia)) as [(v & t & rest & -> & H)|(v & t & H & Hs)].
      * left. exists (c :: v), (c :: t), rest. split; [reflexivity|now constructor].
      * right. exists (c :: v), (c :: t). split; [now constructor|].
        destruct Hs as [->| ->]; [now left|now right].
Qed.

(** What a text that does not start with a blank starts with *)
Lemma piece_total c s : ~ blank c ->
  (exists v t rest, c :: s = t ++ rest /\ piece v t) \/ unclosed (c :: s).
Proof.
  intros Hb. destruct (N.eq_dec c 92) as [->|H1].
  - destruct s as [|d s]; [right; constructor|]. left. destruct (N.eq_dec d 10) as [->|Hd].
    + exists [], [92%N; 10%N], s. split; [reflexivity|constructor].
    + exists [d], [92%N; d], s. split; [reflexivity|now constructor].
  - destruct (N.eq_dec c 39) as [->|H2].
    + destruct (split_at 39%N s) as [(a & b & -> & Ha)|Hn].
      * left. exists a, (39%N :: a ++ [39%N]), b. split; [|now constructor].
        cbn [app]. rewrite <- app_assoc. reflexivity.
      * right. now constructor.
    + destruct (N.eq_dec c 34) as [->|H3].
      * destruct (double_total (length s) s (le_n _)) as [(v & t & rest & -> & H)|(v & t & H & [->| ->])].
        -- left. exists v, (34%N :: t ++ [34%N]), rest. split; [|now constructor].
           cbn [app]. rewrite <- app_assoc. reflexivity.
        -- right. exact (un_double _ _ H).
        -- right. exact (un_double_backslash _ _ H).
      * left. exists [c], [c], s. split; [reflexivity|]. constructor. now repeat split.
Qed.

Lemma pieces_total n : forall s : str, length s <= n ->
  exists v t rest, s = t ++ rest /\ pieces v t /\
    (rest = [] \/ (exists c r, rest = c :: r /\ blank c) \/ unclosed rest).
Proof.
  induction n as [|n IH]; intros s Hn.
  - destruct s; [|cbn in Hn; lia]. exists [], [], []. split; [reflexivity|]. split; [constructor|now left].
  - destruct s as [|c s]; [exists [], [], []; split; [reflexivity|split; [constructor|now left]]|].
    destruct (blank_dec c) as [Hb|Hb].
    { exists [], [], (c :: s). split; [reflexivity|]. split; [constructor|]. right. left. now exists c, s. }
    destruct (piece_total c s Hb) as [(v & t & rest & E & H)|H].
    + assert (Hl : length rest <= n).
      { destruct (piece_start _ _ H) as (d & t' & -> & _). injection E as _ E. rewrite E in Hn.
        cbn [List.length] in Hn. rewrite app_length in Hn. lia. }
      destruct (IH rest Hl) as (v' & t' & rest' & -> & H' & Hr).
      exists (v ++ v'), (t ++ t'), rest'. split; [rewrite E; apply app_assoc|]. split; [now constructor|exact Hr].
    + exists [], [], (c :: s). split; [reflexivity|]. split; [constructor|]. now right; right.
Qed.

Lemma space_total n : forall s : str, length s <= n ->
  exists sp rest, s = sp ++ rest /\ space sp /\
    (rest = [] \/ (exists u, rest = 35%N :: u /\ ~ In 10%N u) \/
     (exists c r, rest = c :: r /\ ~ blank c /\ c <> 35%N)).
Proof.
  induction n as [|n IH]; intros s Hn.
  - destruct s; [|cbn in Hn; lia]. exists [], []. split; [reflexivity|]. split; [constructor|now left].
  - destruct s as [|c s]; [exists [], []; split; [reflexivity|split; [constructor|now left]]|]. cbn in Hn.
    destruct (blank_dec c) as [Hb|Hb].
    { destruct (IH s ltac:(lia)) as (sp & rest & -> & H & Hr). exists (c :: sp), rest.
      split; [reflexivity|]. split; [now constructor|exact Hr]. }
    destruct (N.eq_dec c 35) as [->|Hc].
    + destruct (split_at 10%N s) as [(a & b & -> & Ha)|Hno].
      * destruct (IH b) as (sp & rest & -> & H & Hr); [rewrite app_length in Hn; cbn in Hn; lia|].
        exists (35%N :: a ++ 10%N :: sp), rest. split; [cbn [app]; rewrite <- app_assoc; reflexivity|].
        split; [now constructor|exact Hr].
      * exists [], (35%N :: s). split; [reflexivity|]. split; [constructor|]. right. left. now exists s.
    + exists [], (c :: s). split; [reflexivity|]. split; [constructor|]. right. right. now exists c, s.
Qed.

Theorem text_total n : forall s : str, length s <= n -> exists ws, command_text ws s \/ broken_text ws s.
Proof.
  induction n as [|n IH]; intros s Hn.
  - destruct s; [|cbn in Hn; lia]. exists []. left. constructor. constructor.
  - destruct (space_total (length s) s (le_n _)) as (sp & rest & -> & Hsp & [->|[(u & -> & Hu)|(c & r & -> & Hb & Hc)]]).
    + exists []. left. rewrite app_nil_r. now constructor.
    + exists []. left. now constructor.
    + destruct (pieces_total (length (c :: r)) (c :: r) (le_n _)) as (v & t & rest & E & H & [->|[(d & q & -> & Hd)|Hr]]).
      * exists [v]. left. rewrite E, app_nil_r. rewrite app_nil_r in E. apply cmd_last; [exact Hsp|]. split; [exact H|].
        rewrite <- E. split; [discriminate|exact Hc].
      * assert (Hw : word_text v t).
        { split; [exact H|]. destruct t as [|x t]; [|injection E as -> E; split; [discriminate|exact Hc]].
          cbn [app] in E. injection E as -> _. contradiction. }
        rewrite E in Hn |- *.
        assert (Hl : length (d :: q) <= n).
        { destruct Hw as (_ & Hne & _). destruct t; [contradiction|]. rewrite !app_length in Hn. cbn in Hn |- *. lia. }
        destruct (IH (d :: q) Hl) as [ws [Hws|Hws]]; exists (v :: ws); [left|right]; now constructor.
      * exists []. right. rewrite E. apply (br_last sp v); [exact Hsp|exact H| |exact Hr].
        intros w ->. cbn [app] in E. injection E as -> _. contradiction.
Qed.

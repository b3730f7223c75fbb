(** Documents: a common shape for all renderings, on which the display properties are proved. *)
From Coq Require Import Ascii String.
From Verif Require Import Base Cpp_Lex_Model Cpp_Ast_Model Cpp_Display_Spec.
Local Open Scope nat_scope.
Local Open Scope bool_scope.
Local Open Scope list_scope.

Inductive doc :=
| Nil
| Text (s : str)
| Cat (a b : doc)
| Slice (header sep trailer : string) (l : list doc)
| NestedDoc (rooted : bool) (l : list doc)
| Guard (yes no : str)
| Params (l : list doc) (variadic : bool).

Section DocInd.
  Variable P : doc -> Prop.
  Hypothesis H0 : P Nil.
  Hypothesis HT : forall s, P (Text s).
  Hypothesis HC : forall a b, P a -> P b -> P (Cat a b).
  Hypothesis HS : forall h sep tr l, Forall P l -> P (Slice h sep tr l).
  Hypothesis HN : forall r l, Forall P l -> P (NestedDoc r l).
  Hypothesis HG : forall y n, P (Guard y n).
  Hypothesis HP : forall l v, Forall P l -> P (Params l v).
  Fixpoint doc_ind' (d : doc) : P d :=
    let all := fix all (l : list doc) : Forall P l :=
      match l with [] => Forall_nil P | x :: r => Forall_cons x (doc_ind' x) (all r) end in
    match d with
    | Nil => H0
    | Text s => HT s
    | Cat a b => HC a b (doc_ind' a) (doc_ind' b)
    | Slice h sep tr l => HS h sep tr l (all l)
    | NestedDoc r l => HN r l (all l)
    | Guard y n => HG y n
    | Params l v => HP l v (all l)
    end.
End DocInd.

Fixpoint dr (d : doc) : render :=
  match d with
  | Nil => nothing
  | Text s => write s
  | Cat a b => dr a >> dr b
  | Slice h sep tr l => slice_render h sep tr (map dr l)
  | NestedDoc rooted l =>
      if_can (when rooted (writes "::") >> slice_render "" "" "" (map dr l))
             (match l with [] => nothing | _ => write (ellipsis :: of_string "::") end)
  | Guard y n => with_guard (write y) (write n)
  | Params l v =>
      slice_render "(" ", " "" (map dr l) >> if_can (when v (writes ", ...")) nothing >> writes ")"
  end.

Fixpoint dd (d : doc) : N :=
  match d with
  | Nil => 0%N
  | Text _ => 0%N
  | Cat a b => N.max (dd a) (dd b)
  | Slice _ _ _ l => slice_depth (map dd l)
  | NestedDoc _ l => slice_depth (map dd l)
  | Guard _ _ => 1%N
  | Params l _ => slice_depth (map dd l)
  end.

Fixpoint counted (d : doc) : bool :=
  match d with
  | Nil => true
  | Text _ => true
  | Cat a b => counted a && counted b
  | Slice _ _ _ l => forallb counted l
  | NestedDoc rooted l =>
      match l with [] => negb rooted | _ => true end && forallb counted l
  | Guard _ _ => true
  | Params l v => match l with [] => negb v | _ => true end && forallb counted l
  end.

(** has a printable ASCII character *)
Definition vis (s : str) : bool := existsb (fun c => N.leb 32 c && N.ltb c 127) s.
Fixpoint pos (d : doc) : bool :=
  match d with
  | Nil => false
  | Text s => vis s
  | Cat a b => pos a || pos b
  | Slice h _ tr _ => vis (of_string h) || vis (of_string tr)
  | NestedDoc _ _ => false
  | Guard _ _ => true
  | Params _ _ => true
  end.
Definition is_scope_doc (d : doc) : bool :=
  match d with Cat x (Text t) => pos x && str_eqb t (of_string "::") | _ => false end.
Fixpoint solid (d : doc) : bool :=
  match d with
  | Nil => true
  | Text _ => true
  | Cat a b => solid a && solid b
  | Slice _ _ _ l => forallb solid l && forallb pos l
  | NestedDoc _ l => forallb solid l && forallb is_scope_doc l
  | Guard y n => str_eqb y (of_string "<, void>") && str_eqb n [60; ellipsis; 62]%N
  | Params l _ => forallb solid l && forallb pos l
  end.

(** [r] behaves like a document of depth [n]; if [b1] it is well counted, if [b2] it is solid
    and then [p] tells that it is visible *)
Definition rep (r : render) (n : N) (b1 b2 p : bool) : Prop :=
  exists d, (forall st, r st = dr d st) /\ dd d = n /\
            (b1 = true -> counted d = true) /\
            (b2 = true -> solid d = true /\ (p = true -> pos d = true)).

Lemma rep_weaken r n b1 b2 p n' b1' b2' p' :
  rep r n b1 b2 p -> n' = n -> (b1' = true -> b1 = true) -> (b2' = true -> b2 = true) ->
  (b2' = true -> p' = true -> p = true) -> rep r n' b1' b2' p'.
Proof.
  intros (d & H1 & H2 & H3 & H4) -> Hb1 Hb2 Hp. exists d. repeat split; auto.
  all: intros; apply H4; auto.
Qed.

Lemma rep_write s : rep (write s) 0 true true (vis s).
Proof. exists (Text s). repeat split; auto. Qed.
Lemma rep_writes s : rep (writes s) 0 true true (vis (of_string s)).
Proof. apply rep_write. Qed.
Lemma rep_nothing : rep nothing 0 true true false.
Proof. exists Nil. repeat split; auto. Qed.

Lemma rep_cat a b n1 n2 c1 c2 s1 s2 p1 p2 :
  rep a n1 c1 s1 p1 -> rep b n2 c2 s2 p2 ->
  rep (a >> b) (N.max n1 n2) (c1 && c2) (s1 && s2) (p1 || p2).
Proof.
  intros (d & A1 & A2 & A3 & A4) (d' & B1 & B2 & B3 & B4).
  exists (Cat d d'). simpl. split; [|split; [congruence|split]].
  - intros st. unfold andthen. rewrite A1. destruct (dr d st) as [e st1]. now rewrite B1.
  - rewrite !andb_true_iff. intros [H1 H2]; split; auto.
  - rewrite !andb_true_iff. intros [H1 H2]. split; [split; [apply A4|apply B4]; auto|].
    rewrite !orb_true_iff. intros [H|H]; [left; apply A4|right; apply B4]; auto.
Qed.

Lemma rep_ext r r' n b1 b2 p : (forall st, r st = r' st) -> rep r' n b1 b2 p -> rep r n b1 b2 p.
Proof.
  intros E (d & H1 & H2). exists d. split; [|exact H2]. intros st. rewrite E. apply H1.
Qed.

Definition lrep (q : doc -> bool) (rs : list render) (ns : list N) (b1 b2 : bool) : Prop :=
  exists ds, Forall2 (fun r d => forall st, r st = dr d st) rs ds /\ map dd ds = ns /\
             (b1 = true -> forallb counted ds = true) /\
             (b2 = true -> forallb solid ds = true /\ forallb q ds = true).

Lemma lrep_nil q : lrep q [] [] true true.
Proof. exists []. repeat split; auto. Qed.

Lemma andthen_congr (a a' b b' : render) :
  (forall st, a st = a' st) -> (forall st, b st = b' st) -> forall st, (a >> b) st = (a' >> b') st.
Proof.
  intros Ha Hb st. unfold andthen. rewrite Ha. destruct (a' st) as [e st']. now rewrite Hb.
Qed.

Lemma items_congr sep rs ds :
  Forall2 (fun r d => forall st, r st = dr d st) rs ds ->
  forall st, items_render sep rs st = items_render sep (map dr ds) st.
Proof.
  induction 1 as [|r d rs ds Hrd H IH]; intros st; [reflexivity|].
  destruct H as [|r' d' rs' ds' Hrd' H].
  - apply Hrd.
  - change ((r >> write sep >> items_render sep (r' :: rs')) st =
            (dr d >> write sep >> items_render sep (map dr (d' :: ds'))) st).
    apply andthen_congr; [exact Hrd|]. apply andthen_congr; [reflexivity|exact IH].
Qed.

Lemma slice_congr h sep tr rs ds :
  Forall2 (fun r d => forall st, r st = dr d st) rs ds ->
  forall st, slice_render h sep tr rs st = slice_render h sep tr (map dr ds) st.
Proof.
  intros H st. unfold slice_render, andthen, with_guard, writes, write.
  rewrite (items_congr _ _ _ H). destruct (can_recurse st); [reflexivity|].
  destruct H; reflexivity.
Qed.

Lemma rep_slice h sep tr rs ns b1 b2 :
  lrep pos rs ns b1 b2 ->
  rep (slice_render h sep tr rs) (slice_depth ns) b1 b2 (vis (of_string h) || vis (of_string tr)).
Proof.
  intros (ds & H1 & H2 & H3 & H4). exists (Slice h sep tr ds). cbn [dr dd counted solid pos].
  repeat split; auto.
  - now apply slice_congr.
  - now rewrite H2.
  - rewrite andb_true_iff; auto.
Qed.

Lemma rep_nested rooted rs ns b1 b2 no :
  lrep is_scope_doc rs ns b1 b2 ->
  (no = match rs with [] => nothing | _ => write (ellipsis :: of_string "::") end) ->
  rep (if_can (when rooted (writes "::") >> slice_render "" "" "" rs) no)
      (slice_depth ns) (match rs with [] => negb rooted | _ => true end && b1) b2 false.
Proof.
  intros (ds & H1 & H2 & H3 & H4) ->. exists (NestedDoc rooted ds).
  split; [|split; [|split]].
  - intros st. cbn [dr]. unfold if_can. destruct (can_recurse st).
    + unfold andthen. destruct (when rooted (writes "::") st). now rewrite (slice_congr _ _ _ _ _ H1).
    + destruct H1; reflexivity.
  - cbn [dd]. now rewrite H2.
  - cbn [counted]. rewrite !andb_true_iff. destruct H1; intros [? ?]; split; auto.
  - cbn [solid]. intros H. rewrite andb_true_iff. split; [auto|discriminate].
Qed.

Lemma rep_params rs ns b1 b2 v :
  lrep pos rs ns b1 b2 ->
  rep (slice_render "(" ", " "" rs >> if_can (when v (writes ", ...")) nothing >> writes ")")
      (slice_depth ns) (match rs with [] => negb v | _ => true end && b1) b2 true.
Proof.
  intros (ds & H1 & H2 & H3 & H4). exists (Params ds v).
  split; [|split; [|split]].
  - cbn [dr]. apply andthen_congr; [now apply slice_congr|reflexivity].
  - cbn [dd]. now rewrite H2.
  - cbn [counted]. rewrite !andb_true_iff. destruct H1; intros [? ?]; split; auto.
  - cbn [solid pos]. intros H. rewrite andb_true_iff. auto.
Qed.

Lemma rep_invalid :
  rep (with_guard (writes "<, void>") (write [60; ellipsis; 62]%N)) 1 true true true.
Proof.
  exists (Guard (of_string "<, void>") [60; ellipsis; 62]%N). repeat split; auto.
Qed.

Lemma rep_when b a n c s p : rep a n c s p -> n = 0%N -> rep (when b a) 0 c s (b && p).
Proof.
  intros H ->. destruct b; [exact H|]. eapply rep_weaken; [apply rep_nothing|..]; auto.
Qed.

Lemma rep_assoc a b c n b1 b2 p : rep ((a >> b) >> c) n b1 b2 p -> rep (a >> b >> c) n b1 b2 p.
Proof.
  apply rep_ext. intros st. unfold andthen.
  destruct (a st) as [e1 st1]. destruct (b st1) as [e2 st2]. destruct (c st2) as [e3 st3].
  now rewrite app_assoc.
Qed.

Lemma lrep_map {A} (f : A -> render) (g : A -> N) (h1 h2 : A -> bool) l :
  Forall (fun x => rep (f x) (g x) (h1 x) (h2 x) true) l ->
  lrep pos (map f l) (map g l) (forallb h1 l) (forallb h2 l).
Proof.
  induction 1 as [|x l (d & H1 & H2 & H3 & H4) _ (ds & I1 & I2 & I3 & I4)].
  - apply lrep_nil.
  - exists (d :: ds). cbn [map forallb]. split; [now constructor|]. split; [cbn; congruence|].
    rewrite !andb_true_iff. split.
    + intros [? ?]; auto.
    + intros [? ?]. destruct H4 as [? ?]; auto. destruct I4; auto.
Qed.

(** a scope ends with `::` after something visible *)
Definition scope_rep (r : render) (n : N) (b1 b2 : bool) : Prop :=
  exists d, (forall st, r st = dr d st) /\ dd d = n /\
            (b1 = true -> counted d = true) /\ (b2 = true -> solid d = true /\ is_scope_doc d = true).

Lemma lrep_scopes {A} (f : A -> render) (g : A -> N) (h1 h2 : A -> bool) l :
  Forall (fun x => scope_rep (f x) (g x) (h1 x) (h2 x)) l ->
  lrep is_scope_doc (map f l) (map g l) (forallb h1 l) (forallb h2 l).
Proof.
  induction 1 as [|x l (d & H1 & H2 & H3 & H4) _ (ds & I1 & I2 & I3 & I4)].
  - apply lrep_nil.
  - exists (d :: ds). cbn [map forallb]. split; [now constructor|]. split; [cbn; congruence|].
    rewrite !andb_true_iff. split.
    + intros [? ?]; auto.
    + intros [? ?]. destruct H4 as [? ?]; auto. destruct I4; auto.
Qed.

Lemma scope_rep_of a n b1 b2 :
  rep a n b1 b2 true -> scope_rep (a >> writes "::") n b1 b2.
Proof.
  intros (d & H1 & H2 & H3 & H4). exists (Cat d (Text (of_string "::"))).
  split; [|split; [|split]].
  - intros st. cbn [dr]. unfold andthen. rewrite H1. reflexivity.
  - cbn [dd]. rewrite H2. lia.
  - intros H. cbn [counted]. now rewrite H3.
  - intros H. cbn [solid is_scope_doc]. destruct (H4 H) as [Hs Hp].
    now rewrite Hs, Hp.
Qed.

Lemma vis_app a b : vis (a ++ b) = vis a || vis b.
Proof. apply existsb_app. Qed.

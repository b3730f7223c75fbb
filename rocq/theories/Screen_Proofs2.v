(** * Proofs about the screen: the invariant of calm executions *)

From Coq Require Import List PeanoNat NArith Bool Lia.
From Verif Require Import Screen_Model Screen_Spec Screen_Proofs.
Import ListNotations.
Local Open Scope nat_scope.

Definition plain (l : layer) : Prop :=
  match l with
  | LTable | LPrompt _ | LInfo | LDialog QuitDialog | LDialog HelpDialog => True
  | _ => False
  end.

(** Layers that may be over profiles ([n] of them, over [b] layers). *)
Definition overlay (n b : nat) (l : layer) : Prop :=
  match l with
  | LInfo | LDialog QuitDialog | LDialog HelpDialog => True
  | LDialog (Backtrace m c) => m = n /\ c = b
  | _ => False
  end.

(** Layers that may be over a progress dialog. *)
Definition cover (l : layer) : Prop :=
  match l with
  | LInfo | LDialog QuitDialog | LDialog HelpDialog => True
  | _ => False
  end.

Definition important (canceled : list nat) (c : callback) : bool :=
  match c with
  | CLoaded l => negb (mem l canceled)
  | CEndMeasure _ => true
  | _ => false
  end.

Definition expected (s : state) : list callback :=
  filter (important (canceled s)) (callbacks s).

Definition waiting (s : state) : list nat :=
  flat_map (fun j => match snd j with None => [fst j] | Some _ => [] end) (jobs s).

Definition benign (c : callback) : Prop :=
  match c with CShowLoader _ | CInfo => True | _ => False end.

Definition base (s : state) : Prop :=
  (forall t th l, t <> cur s -> nth_error (threads s) t = Some th -> In l (t_queue th) ->
     In l (canceled s))
  /\ (forall l, In l (canceled s) -> l < next_load s)
  /\ (forall m c, In (m, Some c) (jobs s) -> Forall benign c)
  /\ (forall m x, In (m, x) (jobs s) -> m < next_job s)
  /\ NoDup (map fst (jobs s)).

Definition other_kind (k : pkind) : pkind :=
  match k with Hierarchical => Flat | Flat => Hierarchical end.

Definition other_ok (l : nat) (tr : trace) (e : entry) (v : view) : Prop :=
  match p_other v with
  | Query a => e_kind e = Hierarchical /\ a = e_name e
  | Saved rows src => src = l /\ rows <> [] /\ lists tr (e_name e) (other_kind (e_kind e)) rows
  end.

Definition shows (l : nat) (tr : trace) (d : dd) (key : column) (e : entry) (v : view) : Prop :=
  describes tr e v /\ p_src v = l /\ p_rows v <> [] /\ other_ok l tr e v
  /\ p_dd v = with_norm d (e_norm e) /\ p_key v = kind_column (e_kind e) key.

Definition total (tr : trace) : N := duration tr.

Lemma duration_sum tr : sum_durations (map info tr) = duration tr.
Proof. induction tr as [|n r IH]; [reflexivity|].
  change (n_dur n + sum_durations (map info r) = n_dur n + duration r)%N. now rewrite IH.
Qed.

Definition global_ok (tr : trace) (d : dd) : Prop :=
  match d with Percentage x Global => x = total tr | _ => True end.

Definition ready (s : state) (d : option nat) : Prop :=
  nth_error (threads s) (cur s) = Some {| t_queue := []; t_data := d |}.

(** Profiles are on screen. *)
Definition profiling (W : nat -> option trace) (s : state) (l : nat) (tr : trace) (d : dd)
    (tops : list layer) (profs : list view) (bots : list layer) : Prop :=
  screen s = tops ++ map LProfile profs ++ bots
  /\ profs <> []
  /\ Forall (overlay (length profs) (length bots)) tops
  /\ Forall plain bots
  /\ length bots = below s
  /\ Forall2 (shows l tr d (cfg_key s)) (stack s) profs
  /\ (forall e, In e (tl (stack s)) -> e_kind e = Hierarchical)
  /\ numbered profs
  /\ cfg_dd s = Some d
  /\ global_norm s = Some (total tr)
  /\ global_ok tr d
  /\ W l = Some tr
  /\ ready s (Some l).

Inductive mode (W : nat -> option trace) (s : state) : Prop :=
| Idle d :
    Forall plain (screen s) -> stack s = [] -> no_escape s = false ->
    ready s d -> expected s = [] -> waiting s = [] -> mode W s
| Prof l tr d tops profs bots :
    profiling W s l tr d tops profs bots -> no_escape s = false ->
    expected s = [] -> waiting s = [] -> mode W s
| Load l tops bots :
    screen s = tops ++ LLoading l :: bots -> Forall cover tops -> Forall plain bots ->
    length bots = below s -> stack s = [] -> no_escape s = true -> ~ In l (canceled s) ->
    l < next_load s -> waiting s = [] ->
    ((exists d, nth_error (threads s) (cur s) = Some {| t_queue := [l]; t_data := d |}
                /\ expected s = [])
     \/ (ready s (match W l with Some _ => Some l | None => None end)
         /\ expected s = [CLoaded l])) ->
    mode W s
| Meas m tops bots d :
    screen s = tops ++ LMeasuring m :: bots -> Forall cover tops -> Forall plain bots ->
    length bots = below s -> stack s = [] -> no_escape s = true -> ready s d ->
    ((waiting s = [m] /\ expected s = []) \/ (waiting s = [] /\ expected s = [CEndMeasure m])) ->
    mode W s.

(** No trace without durations. *)
Definition unfit (W : nat -> option trace) : Prop :=
  exists l tr, W l = Some tr /\ ~ takes_time tr.

Definition good (W : nat -> option trace) (w : world) : Prop :=
  match w with
  | Running s => base s /\ mode W s
  | Ended => True
  | Crash => unfit W
  end.

(** ** Helpers *)

Lemma ask_ready W s l tr : ready s (Some l) -> W l = Some tr -> ask W s = Some (l, tr, s).
Proof.
  unfold ready, ask. intros R E. rewrite R. cbn [t_queue t_data load_all].
  rewrite E. rewrite (replace_same _ _ _ R). cbn [map]. rewrite app_nil_r.
  destruct s; reflexivity.
Qed.

Lemma plain_no_profile l : Forall plain l -> no_profile l.
Proof. intros F v H. rewrite Forall_forall in F. exact (F _ H). Qed.

Lemma overlay_no_profile n b l : Forall (overlay n b) l -> no_profile l.
Proof. intros F v H. rewrite Forall_forall in F. exact (F _ H). Qed.

Lemma shows_tables l tr d key st vs :
  Forall2 (shows l tr d key) st vs -> Forall2 (fun e v => e_table e = p_table v) st vs.
Proof.
  intros F. induction F as [|e v st vs H F IH]; constructor; [|exact IH].
  destruct H as [[H _] _]. exact H.
Qed.

Lemma shows_norm l tr d x key st vs :
  Forall2 (shows l tr d key) st vs -> Forall2 (shows l tr (with_norm d x) key) st vs.
Proof.
  intros F. induction F as [|e v st vs H F IH]; constructor; [|exact IH].
  destruct H as [A [B [C [D [E G]]]]]. repeat split; auto; try apply A.
  rewrite with_norm_twice. exact E.
Qed.

Lemma Forall2_length {A B} (R : A -> B -> Prop) l m : Forall2 R l m -> length l = length m.
Proof. intros F. induction F; cbn; congruence. Qed.

Lemma Forall2_skipn {A B} (R : A -> B -> Prop) n : forall l m,
  Forall2 R l m -> Forall2 R (skipn n l) (skipn n m).
Proof.
  induction n as [|n IH]; intros l m F; [exact F|].
  destruct F; cbn; [constructor|apply IH; assumption].
Qed.

Lemma numbered_skipn n : forall vs, numbered vs -> numbered (skipn n vs).
Proof.
  induction n as [|n IH]; intros vs H; [exact H|].
  destruct vs as [|v r]; [exact H|]. cbn. apply IH. exact (numbered_tail v r H).
Qed.

Lemma In_skipn {A} n : forall (l : list A) x, In x (skipn n l) -> In x l.
Proof.
  induction n as [|n IH]; intros l x H; [exact H|].
  destruct l as [|y r]; [exact H|]. right. apply IH. exact H.
Qed.

Lemma In_tl_skipn {A} n : forall (l : list A) x, In x (tl (skipn n l)) -> In x (tl l).
Proof.
  destruct n as [|n]; intros l x H; [exact H|].
  destruct l as [|y r]; [destruct H|]. cbn [skipn] in H. cbn [tl].
  apply (In_skipn n). destruct (skipn n r); [destruct H|right; exact H].
Qed.

Lemma cover_overlay n b l : cover l -> overlay n b l.
Proof. destruct l as [| | |[| |]| | |]; cbn; tauto. Qed.

Lemma cover_plain l : cover l -> plain l.
Proof. destruct l as [| | |[| |]| | |]; cbn; tauto. Qed.

(** ** Layers pushed and popped by dialogs *)

Lemma mode_push W s x : cover x -> mode W s -> mode W (push x s).
Proof.
  intros C M. destruct M as [d P St NE R E Wt|l tr d tops profs bots Pr NE E Wt
                            |l tops bots Sc Ct Pb Lb St NE Nc Lt Wt Src
                            |m tops bots d Sc Ct Pb Lb St NE R Src].
  - eapply Idle; cbn; eauto. constructor; [apply cover_plain; exact C|exact P].
  - eapply (Prof W _ l tr d (x :: tops) profs bots); try assumption.
    destruct Pr as [Sc [Ne [To [Pb Pr]]]]. repeat split; try apply Pr; try assumption.
    + cbn. rewrite Sc. reflexivity.
    + constructor; [apply cover_overlay; exact C|exact To].
  - eapply (Load W _ l (x :: tops) bots); cbn; auto. rewrite Sc. reflexivity.
  - eapply (Meas W _ m (x :: tops) bots); cbn; eauto. rewrite Sc. reflexivity.
Qed.

Lemma mode_repeat W s n : mode W s -> mode W (set_screen (repeat LInfo n ++ screen s) s).
Proof.
  induction n as [|n IH]; intros M.
  - cbn. destruct s; exact M.
  - cbn [repeat app]. specialize (IH M). apply (mode_push W _ LInfo I) in IH. exact IH.
Qed.

Lemma mode_dismiss W s x r :
  screen s = x :: r -> (forall v, x <> LProfile v) -> (forall l, x <> LLoading l) ->
  (forall l, x <> LMeasuring l) ->
  mode W s -> mode W (pop s).
Proof.
  intros E N1 N2 N3 M.
  destruct M as [d P St NE R Ex Wt|l tr d tops profs bots Pr NE Ex Wt
                |l tops bots Sc Ct Pb Lb St NE Nc Lt Wt Src
                |m tops bots d Sc Ct Pb Lb St NE R Src].
  - eapply Idle; cbn; eauto. rewrite E in *. inversion P; assumption.
  - destruct Pr as [Sc [Ne [To [Pb Pr]]]].
    destruct tops as [|y tops].
    { exfalso. destruct profs as [|v ps]; [congruence|]. rewrite E in Sc. inversion Sc.
      exact (N1 v ltac:(assumption)). }
    eapply (Prof W _ l tr d tops profs bots); try assumption.
    repeat split; try apply Pr; try assumption.
    + cbn. rewrite Sc. reflexivity.
    + inversion To; assumption.
  - destruct tops as [|y tops].
    { exfalso. rewrite E in Sc. inversion Sc. exact (N2 l ltac:(assumption)). }
    eapply (Load W _ l tops bots); cbn; auto.
    + rewrite Sc. reflexivity.
    + inversion Ct; assumption.
  - destruct tops as [|y tops].
    { exfalso. rewrite E in Sc. inversion Sc. exact (N3 m ltac:(assumption)). }
    eapply (Meas W _ m tops bots); cbn; eauto.
    + rewrite Sc. reflexivity.
    + inversion Ct; assumption.
Qed.

(** ** Esc *)

Lemma mode_esc W s : mode W s -> mode W (exit_current_layer s).
Proof.
  intros M. unfold exit_current_layer.
  destruct (Nat.ltb_spec 1 (length (screen s))) as [L|L]; [|exact M].
  destruct (no_escape s) eqn:NE; [exact M|].
  destruct M as [d P St NE' R Ex Wt|l tr d tops profs bots Pr NE' Ex Wt
                |l tops bots Sc Ct Pb Lb St NE' Nc Lt Wt Src
                |m tops bots d Sc Ct Pb Lb St NE' R Src]; try congruence.
  - assert (Hp : Forall plain (tl (screen s))).
    { destruct (screen s); [constructor|]. inversion P; assumption. }
    destruct (length (screen s) =? length (stack s) + below s); eapply Idle; cbn; eauto.
    rewrite St; reflexivity.
  - pose proof Pr as Pr0.
    destruct Pr as [Sc [Ne [To [Pb [Lb [F [K [Nb [Cd [Gn [Go [Wl R]]]]]]]]]]]].
    pose proof (Forall2_length _ _ _ F) as Len.
    destruct tops as [|x tops].
    + assert (En : length (screen s) = length (stack s) + below s).
      { rewrite Sc. cbn [app]. rewrite app_length, map_length. lia. }
      rewrite (proj2 (Nat.eqb_eq _ _) En).
      destruct profs as [|v ps]; [congruence|].
      inversion F as [|e v' st ps' Sh F' E1 E2]; subst.
      destruct ps as [|v2 ps].
      * apply (Idle W _ (Some l)); try assumption.
        -- cbn. rewrite Sc. cbn. exact Pb.
        -- inversion F'; subst st. reflexivity.
      * eapply (Prof W _ l tr d [] (v2 :: ps) bots); try assumption.
        repeat split; cbn; auto.
        -- rewrite Sc. reflexivity.
        -- discriminate.
        -- rewrite <- E1 in K. cbn in K. intros e' He'. apply K.
           destruct st; [destruct He'|]. right. exact He'.
        -- exact (numbered_tail v _ Nb).
    + assert (En : length (screen s) <> length (stack s) + below s).
      { rewrite Sc. cbn [app length]. rewrite !app_length, map_length. lia. }
      rewrite (proj2 (Nat.eqb_neq _ _) En).
      apply (mode_dismiss W s x (tops ++ map LProfile profs ++ bots)).
      * rewrite Sc. reflexivity.
      * intros v ->. inversion To; subst. cbn in *. assumption.
      * intros v ->. inversion To; subst. cbn in *. assumption.
      * intros v ->. inversion To; subst. cbn in *. assumption.
      * eapply (Prof W s l tr d (x :: tops) profs bots); eassumption.
Qed.

(** ** Backtrace *)

Lemma mode_jump W s idx n b r :
  screen s = LDialog (Backtrace n b) :: r -> idx < n -> mode W s ->
  mode W (jump s idx b)
  /\ (exists tops profs bots, screen (jump s idx b) = map LProfile profs ++ bots
        /\ length profs = S idx /\ screen s = tops ++ map LProfile profs ++ bots)
  /\ stack (jump s idx b) = skipn (length (stack s) - S idx) (stack s)
  /\ no_profile (skipn (S idx) (screen (jump s idx b))).
Proof.
  intros Sc0 Hi M.
  destruct M as [d P St NE' R Ex Wt|l tr d tops profs bots Pr NE' Ex Wt
                |l tops bots Sc Ct Pb Lb St NE' Nc Lt Wt Src
                |m tops bots d Sc Ct Pb Lb St NE' R Src].
  - exfalso. rewrite Sc0 in P. inversion P; subst. assumption.
  - destruct Pr as [Sc [Ne [To [Pb [Lb [F [K [Nb [Cd [Gn [Go [Wl R]]]]]]]]]]]].
    pose proof (Forall2_length _ _ _ F) as Len.
    destruct tops as [|x tops].
    { exfalso. destruct profs; [congruence|]. rewrite Sc0 in Sc. discriminate. }
    assert (Ex0 : x = LDialog (Backtrace n b)) by (rewrite Sc0 in Sc; inversion Sc; reflexivity).
    assert (Hx : n = length profs /\ b = length bots).
    { inversion To; subst. cbn in *. assumption. }
    destruct Hx as [Hn Hb].
    set (k := length profs - (idx + 1)).
    assert (Es : skipn (length (screen s) - (idx + 1 + b)) (screen s)
                 = map LProfile (skipn k profs) ++ bots).
    { rewrite Sc. rewrite app_length, app_length, map_length.
      replace (length (x :: tops) + (length profs + length bots) - (idx + 1 + b))
        with (length (x :: tops) + k) by (unfold k; lia).
      rewrite skipn_app. rewrite (skipn_all2 (x :: tops)) by lia.
      replace (length (x :: tops) + k - length (x :: tops)) with k by lia.
      cbn [app]. rewrite skipn_app, map_length.
      replace (k - length profs) with 0 by (unfold k; lia).
      rewrite skipn_O. f_equal. apply skipn_map. }
    assert (Ls : length (skipn k profs) = S idx) by (rewrite skipn_length; unfold k; lia).
    assert (Ek : length (stack s) - (idx + 1) = k) by (unfold k; lia).
    split; [|split; [|split]].
    + eapply (Prof W _ l tr d [] (skipn k profs) bots); try assumption.
      unfold jump, pop_to. repeat split; cbn [set_stack set_screen screen stack below cfg_key
        cfg_dd global_norm]; auto.
      * intros E. rewrite E in Ls. discriminate.
      * rewrite Ek. apply Forall2_skipn. exact F.
      * intros e He. apply K. exact (In_tl_skipn _ _ _ He).
      * apply numbered_skipn. exact Nb.
    + exists ((x :: tops) ++ map LProfile (firstn k profs)), (skipn k profs), bots.
      split; [exact Es|split; [exact Ls|]].
      rewrite Sc, <- app_assoc. f_equal. rewrite app_assoc, <- map_app, firstn_skipn.
      reflexivity.
    + cbn. f_equal. lia.
    + change (screen (jump s idx b)) with (skipn (length (screen s) - (idx + 1 + b)) (screen s)).
      rewrite Es. rewrite skipn_app, map_length, Ls, Nat.sub_diag.
      rewrite skipn_all2 by (rewrite map_length; lia). cbn [app skipn].
      apply plain_no_profile. exact Pb.
  - exfalso. destruct tops as [|x tops]; rewrite Sc0 in Sc; inversion Sc; subst.
    inversion Ct; subst. assumption.
  - exfalso. destruct tops as [|x tops]; rewrite Sc0 in Sc; inversion Sc; subst.
    inversion Ct; subst. assumption.
Qed.

(** ** Displaying a profile *)

Lemma show_ok W s l tr d0 profs bots name norm rows o k :
  NoDup (map n_id (all_nodes tr)) ->
  screen s = map LProfile profs ++ bots -> Forall plain bots -> length bots = below s ->
  no_escape s = false -> expected s = [] -> waiting s = [] -> base s ->
  Forall2 (shows l tr d0 (cfg_key s)) (stack s) profs ->
  (forall e, In e (stack s) -> e_kind e = Hierarchical) ->
  numbered profs ->
  (cfg_dd s = Some d0 \/ (cfg_dd s = None /\ d0 = Percentage (total tr) Global)) ->
  global_norm s = Some (total tr) -> global_ok tr d0 ->
  W l = Some tr -> ready s (Some l) ->
  lists tr name k rows -> lasts tr name norm -> rows <> [] ->
  other_ok l tr {| e_name := name; e_table := 0; e_norm := norm; e_kind := k |}
    {| p_table := 0; p_kind := k; p_rows := rows; p_src := l; p_other := o; p_dd := d0;
       p_key := TotalDuration |} ->
  exists s', show_profile W s name norm rows l o k = Running s'
    /\ base s'
    /\ profiling W s' l tr (with_norm d0 norm) []
         ({| p_table := length profs; p_kind := k; p_rows := rows; p_src := l; p_other := o;
             p_dd := with_norm d0 norm; p_key := kind_column k (cfg_key s) |} :: profs) bots
    /\ no_escape s' = false /\ expected s' = [] /\ waiting s' = []
    /\ stack s' = {| e_name := name; e_table := length profs; e_norm := norm; e_kind := k |}
                    :: stack s
    /\ cfg_key s' = cfg_key s.
Proof.
  intros ND Sc Pb Lb NE Ex Wt B F K Nb Cd Gn Go Wl R Li La Ro Oo.
  unfold show_profile.
  assert (Ed : (match cfg_dd s with
                | Some d => Some d
                | None => option_map (fun g => Percentage g Global) (global_norm s)
                end) = Some d0).
  { destruct Cd as [->|[-> ->]]; [reflexivity|]. rewrite Gn. reflexivity. }
  rewrite Ed. cbn [bind].
  set (s0 := set_config (Some (with_norm d0 norm)) (cfg_key s) (global_norm s) s).
  rewrite (ask_ready W s0 l tr) by (try exact R; exact Wl). cbn [bind].
  rewrite (describable_in tr rows ND (lists_in tr name k rows Li)). cbn [negb].
  destruct rows as [|a rows]; [congruence|].
  pose proof (Forall2_length _ _ _ F) as Len.
  eexists. split; [reflexivity|]. cbn [stack set_config s0].
  split; [exact B|]. split; [|repeat split; auto; cbn; rewrite Len; reflexivity].
  unfold profiling. cbn [push set_screen set_stack screen stack below cfg_key cfg_dd global_norm s0 set_config].
  rewrite Len. repeat split; auto.
  - cbn. rewrite Sc. reflexivity.
  - discriminate.
  - constructor; [|apply shows_norm; exact F].
    unfold shows, describes, other_ok in *. cbn in *.
    rewrite with_norm_twice. repeat split; auto.
  - apply numbered_cons; [reflexivity|exact Nb].
  - destruct d0 as [|x [|]]; exact Go.
Qed.

(** ** Changes of the display settings *)

Lemma shows_restyled l tr d d' key st vs :
  Forall2 (shows l tr d key) st vs ->
  Forall2 (shows l tr d' key) st (restyled st d' key vs).
Proof.
  intros F. induction F as [|e v st vs H F IH]; cbn [restyled]; constructor; [|exact IH].
  destruct H as [A [B [C [D [E G]]]]]. unfold shows, describes, other_ok, restyle in *. cbn in *.
  repeat split; auto; apply A.
Qed.

Lemma has_column_own v c : (p_kind v = Hierarchical \/ c <> TotalDuration) -> has_column v c (p_dd v) = true.
Proof.
  intros H. assert (E : eqb_dd (p_dd v) (p_dd v) = true).
  { destruct (p_dd v) as [|n [|]]; cbn; rewrite ?N.eqb_refl; reflexivity. }
  destruct c; cbn; rewrite ?E; auto. destruct H as [->|H]; [reflexivity|congruence].
Qed.

Lemma sort_by_own v c : has_column v c (p_dd v) = true ->
  sort_by c (p_dd v) v =
  {| p_table := p_table v; p_kind := p_kind v; p_rows := p_rows v; p_src := p_src v;
     p_other := p_other v; p_dd := p_dd v; p_key := c |}.
Proof. intros H. unfold sort_by. rewrite H. reflexivity. Qed.

Lemma shows_sorted l tr d key c st vs :
  (forall e, In e st -> e_kind e = Hierarchical) ->
  Forall2 (shows l tr d key) st vs ->
  Forall2 (shows l tr d c) st (sorted st d c vs).
Proof.
  intros K F. induction F as [|e v st vs H F IH]; cbn [sorted]; constructor.
  - destruct H as [A [B [C [D [E G]]]]].
    assert (Kv : e_kind e = Hierarchical) by (apply K; left; reflexivity).
    rewrite <- E.
    rewrite sort_by_own by (apply has_column_own; left; rewrite <- Kv; symmetry; apply A).
    unfold shows, describes, other_ok in *. cbn in *.
    repeat split; auto; try apply A. rewrite Kv. reflexivity.
  - apply IH. intros x Hx. apply K. right. exact Hx.
Qed.

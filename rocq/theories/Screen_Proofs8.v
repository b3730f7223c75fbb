(** * Outcomes of measurements *)

From Coq Require Import List PeanoNat NArith Bool Lia.
From Verif Require Import Screen_Model Screen_Spec.
Import ListNotations.
Local Open Scope nat_scope.
Local Open Scope bool_scope.
Local Open Scope list_scope.

(** What most transitions leave alone; [k] loads may be requested. *)
Definition frame (s : state) (w : world) (k : nat) : Prop :=
  match w with
  | Running s' => jobs s' = jobs s /\ (exists q, callbacks s' = callbacks s ++ map CLoaded q)
                  /\ next_load s' <= next_load s + k
  | _ => True
  end.

Lemma frame_refl s s' : jobs s' = jobs s -> callbacks s' = callbacks s -> next_load s' = next_load s ->
  frame s (Running s') 0.
Proof. intros A B C. cbn. rewrite A, B, C. repeat split; [exists []; now rewrite app_nil_r|lia]. Qed.

Lemma frame_trans s s1 w a b : frame s (Running s1) a -> frame s1 w b -> frame s w (a + b).
Proof.
  intros [A [[q B] C]]. destruct w as [s2| |]; [|exact (fun _ => I)..].
  intros [A' [[q' B'] C']]. cbn. rewrite A', A, B', B. repeat split; [|lia].
  exists (q ++ q'). now rewrite map_app, app_assoc.
Qed.

Lemma ask_frame W s l tr s' : ask W s = Some (l, tr, s') -> frame s (Running s') 0.
Proof.
  unfold ask. destruct (nth_error (threads s) (cur s)) as [t|]; [|discriminate].
  destruct (load_all W (t_queue t) (t_data t)) as [k|]; [|discriminate].
  destruct (W k) as [x|]; [|discriminate]. intros H. injection H as _ _ <-.
  cbn. repeat split; [eauto|lia].
Qed.

Lemma show_frame W s name norm rows src o k : frame s (show_profile W s name norm rows src o k) 0.
Proof.
  unfold show_profile. destruct (match cfg_dd s with Some d => _ | None => _ end); [|exact I].
  cbn [bind]. destruct (ask W _) as [[[l tr] s1]|] eqn:Ea; [|exact I]. cbn [bind].
  destruct (negb (describable tr rows)); [exact I|]. destruct rows; [exact I|].
  apply ask_frame in Ea. exact Ea.
Qed.

Lemma loader_frame s : frame s (show_loader s) 1.
Proof.
  unfold show_loader. destruct (nth_error _ _); [|exact I]. cbn.
  repeat split; [exists []; now rewrite app_nil_r|lia].
Qed.

Lemma loaded_frame W s l : frame s (loaded W s l) 0.
Proof.
  unfold loaded. destruct (mem l (canceled s)); [apply frame_refl; reflexivity|].
  destruct (W l); [|apply frame_refl; reflexivity].
  destruct (ask W _) as [[[src tr] s2]|] eqn:Ea; [|exact I]. cbn [bind].
  destruct (percent_norm _); [|exact I]. cbn [bind].
  apply ask_frame in Ea. eapply (frame_trans s _ _ 0 0); [|apply show_frame]. exact Ea.
Qed.

(** Requests of the user that open a trace. *)
Definition user_asks (e : event) : nat :=
  match e with Submit WFresh | Reply false _ => 1 | _ => 0 end.

Lemma step_frame W s e w : step W s e = Some w ->
  match e with
  | ClangEnds _ _ | JobSends _ | RunCallback => True
  | Reply true None => exists s', w = Running s' /\ jobs s' = (next_job s, None) :: jobs s
                         /\ callbacks s' = callbacks s /\ next_load s' = next_load s
  | ThreadLoads _ => frame s w 0
  | _ => frame s w (user_asks e)
  end.
Proof.
  intros Hs.
  assert (R : frame s (Running s) 0) by (apply frame_refl; reflexivity).
  destruct e as [ | | | | | |wz|create f|row|c| | |idx| |t|m r|m| ]; cbn [step user_asks] in *;
    try exact I.
  - injection Hs as <-. unfold exit_current_layer.
    destruct (1 <? length (screen s)); [|exact R].
    destruct (no_escape s); [exact R|]. destruct (_ =? _); exact R.
  - injection Hs as <-. unfold switch_duration_unit. destruct (stack s); [exact R|].
    destruct (cfg_dd s) as [d|]; [|exact R].
    destruct (match d with Time => _ | Percentage _ _ => _ end); [|exact I]. cbn [bind].
    destruct (restyle_all _ _ _ _); [|exact I]. exact R.
  - injection Hs as <-. unfold global_dialog. destruct (existsb _ _); exact R.
  - injection Hs as <-. unfold global_dialog. destruct (existsb _ _); [exact R|].
    destruct (backtrace_dialog s); exact R.
  - injection Hs as <-. unfold global_dialog. destruct (existsb _ _); [exact R|].
    destruct (help_dialog s); exact R.
  - destruct (screen s) as [|[| | | | | |v] r]; try discriminate. injection Hs as <-.
    unfold toggle. destruct (stack s) as [|e0 st]; [exact I|].
    destruct (p_other v) as [q|rows src].
    + destruct (ask W _) as [[[l tr] s2]|] eqn:Ea; [|exact I].
      destruct (match q with Some _ => _ | None => _ end); [|exact I]. cbn [bind].
      apply ask_frame in Ea. apply (frame_trans s (pop s2) _ 0 0); [exact Ea|apply show_frame].
    + cbn [bind]. eapply (frame_trans s (pop (set_stack st s)) _ 0 0); [exact R|apply show_frame].
  - destruct (screen s) as [|[| | | | | |v] r]; try discriminate. injection Hs as <-.
    destruct wz; try exact R. apply loader_frame.
  - destruct (screen s) as [|[|ex| | | | |v] r]; try discriminate. injection Hs as <-.
    destruct create; [destruct f; [exact R|]|].
    + eexists. split; [reflexivity|]. repeat split.
    + cbv zeta. destruct ex; [exact (loader_frame (pop s))|].
      apply (frame_trans s s _ 0 1 R). cbn. repeat split; [exists []; now rewrite app_nil_r|lia].
  - destruct (screen s) as [|[| | | | | |v] r] eqn:Sc; try discriminate.
    destruct (p_kind v); [|discriminate]. destruct (row <? length (p_rows v)); [|discriminate].
    injection Hs as <-. unfold zoom.
    destruct (find_table _ _) as [v'|]; [|exact I]. cbn [bind].
    destruct (nth_error (p_rows v') row) as [a|]; [|exact I]. cbn [bind].
    destruct (a_kids a); cbn [negb]; [|exact R].
    destruct (ask W s) as [[[l tr] s1]|] eqn:Ea; [|exact I]. cbn [bind].
    destruct (direct_children tr (a_id a)) as [[|k0 kr]|]; try exact I. cbn [bind].
    destruct (percent_norm (a_dur a)); [|exact I]. cbn [bind].
    apply ask_frame in Ea. apply (frame_trans s s1 _ 0 0 Ea). apply show_frame.
  - destruct (screen s) as [|[| | | | | |v] r]; try discriminate.
    destruct (has_column v c (p_dd v)); [|discriminate]. injection Hs as <-.
    unfold sort_profiles. destruct (stack s); [exact I|].
    destruct (cfg_dd s); [|exact I]. cbn [bind].
    destruct (sort_all _ _ _ _); [|exact I]. exact R.
  - destruct (screen s) as [|[| | |g| | |v] r]; try discriminate; injection Hs as <-; exact R.
  - destruct (screen s) as [|[| | |[| |n b]| | |v] r]; try discriminate. injection Hs as <-. exact I.
  - destruct (screen s) as [|[| | |[| |n b]| | |v] r]; try discriminate.
    destruct (idx <? n); [|discriminate]. injection Hs as <-. exact R.
  - destruct (screen s) as [|[| | | |l|m|v] r]; try discriminate; injection Hs as <-; [|exact R].
    unfold abort_load. destruct (screen _); [exact I|]. exact R.
  - destruct (nth_error (threads s) t) as [th|]; [|discriminate].
    unfold load_next in Hs. destruct (t_queue th) as [|l q]; [discriminate|].
    injection Hs as <-. cbn. repeat split; [exists [l]; reflexivity|lia].
Qed.

(** ** Traces opened because of a measurement *)

Section Shows.

Variable S : nat -> Prop.     (* measurements that have succeeded *)

Definition allowed (c : callback) : Prop := match c with CShowLoader m => S m | _ => True end.

Definition shows_ok (s : state) : Prop :=
  Forall allowed (callbacks s) /\ forall m l, In (m, Some l) (jobs s) -> Forall allowed l.

Lemma allowed_loaded q : Forall allowed (map CLoaded q).
Proof. induction q; constructor; [exact I|assumption]. Qed.

Lemma frame_shows s s' k : shows_ok s -> frame s (Running s') k -> shows_ok s'.
Proof.
  intros [A B] [C [[q D] _]]. split; [|rewrite C; exact B].
  rewrite D. apply Forall_app. split; [exact A|apply allowed_loaded].
Qed.

Lemma in_set_job m x k y l : In (k, y) (set_job m x l) -> (k = m /\ y = x) \/ In (k, y) l.
Proof.
  induction l as [|[i z] r IH]; cbn [set_job]; [intros []|].
  destruct (Nat.eqb_spec i m) as [->|N].
  - intros [E|H]; [injection E as <- <-; auto|right; right; exact H].
  - intros [E|H]; [right; left; exact E|]. destruct (IH H) as [F|F]; [auto|right; right; exact F].
Qed.

Lemma get_job_in m x l : get_job m l = Some x -> In (m, x) l.
Proof.
  induction l as [|[i z] r IH]; cbn [get_job]; [discriminate|].
  destruct (Nat.eqb_spec i m) as [->|N]; [|right; auto]. intros E. injection E as ->. now left.
Qed.

Lemma step_shows W s e s' :
  shows_ok s -> step W s e = Some (Running s') ->
  (forall m b, e = ClangEnds m (Success b) -> S m) -> shows_ok s'.
Proof.
  intros H Hs HS. pose proof (step_frame W s e _ Hs) as F. pose proof H as H0. destruct H0 as [A B].
  destruct e as [ | | | | | |wz|create f|row|c| | |idx| |t|m r|m| ];
    try (exact (frame_shows s s' _ H F)).
  - destruct create; [destruct f|]; try (exact (frame_shows s s' _ H F)).
    destruct F as [s2 [E [J [C _]]]]. injection E as <-. split; [rewrite C; exact A|].
    rewrite J. intros m l [E|Hin]; [discriminate|exact (B m l Hin)].
  - cbn [step] in Hs. destruct (get_job m (jobs s)) as [[c|]|]; try discriminate.
    injection Hs as <-. split; cbn.
    + apply Forall_app. split; [exact A|]. constructor; [exact I|constructor].
    + intros k l Hin. apply in_set_job in Hin. destruct Hin as [[-> E]|Hin]; [|exact (B k l Hin)].
      injection E as ->. unfold job_callbacks.
      destruct r as [b|[]|[]]; repeat constructor. 
      * exact (HS m b eq_refl).
      * destruct b; repeat constructor.
  - cbn [step] in Hs. destruct (get_job m (jobs s)) as [[[|c r]|]|] eqn:G; try discriminate.
    injection Hs as <-. apply get_job_in in G. apply B in G. inversion G as [|x y Gx Gy]; subst.
    split; cbn.
    + apply Forall_app. split; [exact A|]. constructor; [exact Gx|constructor].
    + intros k l Hin. apply in_set_job in Hin. destruct Hin as [[-> E]|Hin]; [|exact (B k l Hin)].
      injection E as ->. exact Gy.
  - cbn [step] in Hs. destruct (callbacks s) as [|c r] eqn:C; [discriminate|].
    injection Hs as Hs. assert (Hr : shows_ok (set_callbacks r s)).
    { split; cbn; [inversion A; assumption|exact B]. }
    destruct c as [l|m|m|]; cbn [run_callback] in Hs.
    + pose proof (loaded_frame W (set_callbacks r s) l) as F'. rewrite Hs in F'.
      exact (frame_shows _ _ _ Hr F').
    + injection Hs as <-. exact Hr.
    + pose proof (loader_frame (set_callbacks r s)) as F'. rewrite Hs in F'.
      exact (frame_shows _ _ _ Hr F').
    + injection Hs as <-. exact Hr.
Qed.

Lemma exec_shows W : forall evs s s',
  shows_ok s -> exec W s evs = Some (Running s') ->
  (forall m b, In (ClangEnds m (Success b)) evs -> S m) -> shows_ok s'.
Proof.
  induction evs as [|e r IH]; intros s s' H E HS; cbn [exec] in E; [injection E as <-; exact H|].
  destruct (step W s e) as [[s1| |]|] eqn:Es; try discriminate; try (destruct r; discriminate).
  apply (IH s1 s'); [|exact E|intros m b Hin; apply (HS m b); right; exact Hin].
  apply (step_shows W s e s1 H Es). intros m b ->. apply (HS m b). left. reflexivity.
Qed.

End Shows.

Lemma initial_callbacks s : initial s -> callbacks s = [] /\ jobs s = [].
Proof. intros [->| ->]; split; reflexivity. Qed.

Lemma opened_after_success W s0 evs s m :
  initial s0 -> exec W s0 evs = Some (Running s) ->
  In (CShowLoader m) (callbacks s) -> exists b, In (ClangEnds m (Success b)) evs.
Proof.
  intros Hi E Hin.
  destruct (exec_shows (fun m => exists b, In (ClangEnds m (Success b)) evs) W evs s0 s) as [A _].
  - destruct (initial_callbacks s0 Hi) as [C J]. split; [rewrite C; constructor|].
    rewrite J. intros k l [].
  - exact E.
  - intros k b H. exists b. exact H.
  - rewrite Forall_forall in A. exact (A _ Hin).
Qed.

(** ** Number of traces opened *)

Definition is_show (c : callback) : nat := match c with CShowLoader _ => 1 | _ => 0 end.
Definition shows_in (l : list callback) : nat := list_sum (map is_show l).
Definition job_shows (j : nat * option (list callback)) : nat :=
  match snd j with Some l => shows_in l | None => 0 end.
Definition potential (s : state) : nat :=
  next_load s + shows_in (callbacks s) + list_sum (map job_shows (jobs s)).

Lemma shows_app a b : shows_in (a ++ b) = shows_in a + shows_in b.
Proof. unfold shows_in. rewrite map_app. apply list_sum_app. Qed.

Lemma shows_loaded q : shows_in (map CLoaded q) = 0.
Proof. induction q; [reflexivity|exact IHq]. Qed.

Lemma frame_potential s s' k : frame s (Running s') k -> potential s' <= potential s + k.
Proof.
  intros [C [[q D] L]]. unfold potential. rewrite C, D, shows_app, shows_loaded. lia.
Qed.

Lemma set_job_shows m x y l : get_job m l = Some y ->
  list_sum (map job_shows (set_job m x l)) + job_shows (m, y) =
  list_sum (map job_shows l) + job_shows (m, x).
Proof.
  induction l as [|[i z] r IH]; cbn [get_job set_job]; [discriminate|].
  destruct (Nat.eqb_spec i m) as [->|N].
  - intros E. injection E as ->. cbn [map list_sum fold_right]. 
    change (list_sum (job_shows (m, x) :: map job_shows r)) with (job_shows (m, x) + list_sum (map job_shows r)).
    change (list_sum (job_shows (m, y) :: map job_shows r)) with (job_shows (m, y) + list_sum (map job_shows r)).
    lia.
  - intros E. specialize (IH E). cbn [map].
    change (list_sum (job_shows (i, z) :: map job_shows (set_job m x r)))
      with (job_shows (i, z) + list_sum (map job_shows (set_job m x r))).
    change (list_sum (job_shows (i, z) :: map job_shows r)) with (job_shows (i, z) + list_sum (map job_shows r)).
    lia.
Qed.

Lemma step_potential W s e s' : step W s e = Some (Running s') -> potential s' <= potential s + reasons e.
Proof.
  intros Hs. pose proof (step_frame W s e _ Hs) as F.
  destruct e as [ | | | | | |wz|create f|row|c| | |idx| |t|m r|m| ];
    try (exact (frame_potential s s' _ F)).
  - destruct create; [destruct f|]; try (exact (frame_potential s s' _ F)).
    destruct F as [s2 [E [J [C L]]]]. injection E as <-. unfold potential. rewrite J, C, L. cbn [map].
    change (list_sum (job_shows (next_job s, None) :: map job_shows (jobs s)))
      with (list_sum (map job_shows (jobs s))). lia.
  - cbn [step] in Hs. destruct (get_job m (jobs s)) as [[c|]|] eqn:G; try discriminate.
    injection Hs as <-. unfold potential. cbn [next_load callbacks jobs set_callbacks set_jobs].
    pose proof (set_job_shows m (Some (job_callbacks m r)) None (jobs s) G) as Q.
    rewrite shows_app. change (shows_in [CEndMeasure m]) with 0.
    change (job_shows (m, None)) with 0 in Q.
    assert (job_shows (m, Some (job_callbacks m r)) <= reasons (ClangEnds m r)).
    { destruct r as [[]|[]|[]]; cbn; lia. }
    lia.
  - cbn [step] in Hs. destruct (get_job m (jobs s)) as [[[|c r]|]|] eqn:G; try discriminate.
    injection Hs as <-. unfold potential. cbn [next_load callbacks jobs set_callbacks set_jobs].
    pose proof (set_job_shows m (Some r) (Some (c :: r)) (jobs s) G) as Q.
    rewrite shows_app. change (job_shows (m, Some r)) with (shows_in r) in Q.
    change (job_shows (m, Some (c :: r))) with (shows_in ([c] ++ r)) in Q.
    rewrite shows_app in Q. lia.
  - cbn [step] in Hs. destruct (callbacks s) as [|c r] eqn:C; [discriminate|].
    injection Hs as Hs.
    assert (Q : potential s = is_show c + potential (set_callbacks r s)).
    { unfold potential. rewrite C. cbn [next_load callbacks jobs set_callbacks].
      change (c :: r) with ([c] ++ r). rewrite shows_app.
      change (shows_in [c]) with (is_show c + 0). lia. }
    destruct c as [l|m|m|]; cbn [run_callback is_show] in *.
    + pose proof (loaded_frame W (set_callbacks r s) l) as F'. rewrite Hs in F'.
      apply frame_potential in F'. lia.
    + injection Hs as <-. change (potential (end_wait (set_callbacks r s))) with (potential (set_callbacks r s)). lia.
    + pose proof (loader_frame (set_callbacks r s)) as F'. rewrite Hs in F'.
      apply frame_potential in F'. lia.
    + injection Hs as <-. change (potential (push LInfo (set_callbacks r s))) with (potential (set_callbacks r s)). lia.
Qed.

Lemma exec_potential W : forall evs s s',
  exec W s evs = Some (Running s') -> potential s' <= potential s + list_sum (map reasons evs).
Proof.
  induction evs as [|e r IH]; intros s s' E; cbn [exec] in E; [injection E as <-; cbn; lia|].
  destruct (step W s e) as [[s1| |]|] eqn:Es; try discriminate; try (destruct r; discriminate).
  apply step_potential in Es. apply IH in E. cbn [map].
  change (list_sum (reasons e :: map reasons r)) with (reasons e + list_sum (map reasons r)). lia.
Qed.

Lemma loads_have_reasons W s0 evs s :
  initial s0 -> exec W s0 evs = Some (Running s) ->
  next_load s <= next_load s0 + list_sum (map reasons evs).
Proof.
  intros Hi E. destruct (initial_callbacks s0 Hi) as [C J].
  apply exec_potential in E. unfold potential in E. rewrite C, J in E.
  change (shows_in []) with 0 in E. change (list_sum (map job_shows [])) with 0 in E. lia.
Qed.

(** ** What a measurement thread sends *)

Lemma outcome W s m r s' : step W s (ClangEnds m r) = Some (Running s') ->
  callbacks s' = callbacks s ++ [CEndMeasure m] /\
  match r with
  | Success _ => exists s'', step W s' (JobSends m) = Some (Running s'')
                   /\ callbacks s'' = callbacks s' ++ [CShowLoader m]
  | Failed _ => exists s'', step W s' (JobSends m) = Some (Running s'')
                   /\ callbacks s'' = callbacks s' ++ [CInfo]
  | Canceled false => step W s' (JobSends m) = None
  | Canceled true => exists s'', step W s' (JobSends m) = Some (Running s'')
                   /\ callbacks s'' = callbacks s' ++ [CInfo]
                   /\ step W s'' (JobSends m) = None
  end.
Proof.
  assert (G : forall x l, get_job m l <> None -> get_job m (set_job m x l) = Some x).
  { intros x. induction l as [|[i z] q IH]; cbn [get_job set_job]; [congruence|].
    destruct (Nat.eqb_spec i m) as [->|N]; cbn [get_job].
    - rewrite Nat.eqb_refl. reflexivity.
    - destruct (Nat.eqb_spec i m); [contradiction|]. exact IH. }
  cbn [step]. destruct (get_job m (jobs s)) as [[c|]|] eqn:Gj; try discriminate.
  intros H. injection H as <-. cbn [callbacks set_callbacks set_jobs jobs]. split; [reflexivity|].
  assert (Gm : forall x, get_job m (set_job m x (jobs s)) = Some x) by (intros x; apply G; congruence).
  assert (Gm2 : forall x y, get_job m (set_job m y (set_job m x (jobs s))) = Some y)
    by (intros x y; apply G; rewrite Gm; discriminate).
  rewrite !Gm. destruct r as [b|[]|b]; cbn [job_callbacks].
  - eexists. split; reflexivity.
  - eexists. split; [reflexivity|]. split; [reflexivity|].
    cbn [jobs set_callbacks set_jobs]. rewrite Gm2. reflexivity.
  - reflexivity.
  - eexists. split; reflexivity.
Qed.

(** Everything that it sends *)
Lemma sends_all W m : forall cs s, get_job m (jobs s) = Some (Some cs) ->
  exists s'', exec W s (repeat (JobSends m) (length cs)) = Some (Running s'')
    /\ callbacks s'' = callbacks s ++ cs /\ step W s'' (JobSends m) = None.
Proof.
  assert (G : forall x l, get_job m l <> None -> get_job m (set_job m x l) = Some x).
  { intros x. induction l as [|[i z] q IH]; cbn [get_job set_job]; [congruence|].
    destruct (Nat.eqb_spec i m) as [->|N]; cbn [get_job].
    - rewrite Nat.eqb_refl. reflexivity.
    - destruct (Nat.eqb_spec i m); [contradiction|]. exact IH. }
  induction cs as [|c cs IH]; intros s H.
  - exists s. split; [reflexivity|]. split; [rewrite app_nil_r; reflexivity|]. cbn [step]. rewrite H. reflexivity.
  - cbn [length repeat exec step]. rewrite H.
    destruct (IH (set_callbacks (callbacks s ++ [c]) (set_jobs (set_job m (Some cs) (jobs s)) (next_job s) s))) as (s'' & E & C & N).
    { cbn [jobs set_callbacks set_jobs]. apply G. rewrite H. discriminate. }
    exists s''. split; [exact E|]. split; [|exact N]. rewrite C. cbn [callbacks set_callbacks]. rewrite <- app_assoc. reflexivity.
Qed.
Lemma outcome_complete W s m r s' : step W s (ClangEnds m r) = Some (Running s') ->
  exists n s'' sent, exec W s' (repeat (JobSends m) n) = Some (Running s'')
    /\ step W s'' (JobSends m) = None /\ callbacks s'' = callbacks s' ++ sent
    /\ (forall k, In (CShowLoader k) sent <-> k = m /\ exists e, r = Success e)
    /\ dialogs sent = match r with
                      | Failed true => 2
                      | Failed false | Success true | Canceled true => 1
                      | Success false | Canceled false => 0
                      end
    /\ length sent = dialogs sent + match r with Success _ => 1 | _ => 0 end.
Proof.
  assert (G : forall x l, get_job m l <> None -> get_job m (set_job m x l) = Some x).
  { intros x. induction l as [|[i z] q IH]; cbn [get_job set_job]; [congruence|].
    destruct (Nat.eqb_spec i m) as [->|N]; cbn [get_job].
    - rewrite Nat.eqb_refl. reflexivity.
    - destruct (Nat.eqb_spec i m); [contradiction|]. exact IH. }
  cbn [step]. destruct (get_job m (jobs s)) as [[c|]|] eqn:Gj; try discriminate.
  intros H. injection H as <-.
  match goal with |- exists n s'' sent, exec W ?x _ = _ /\ _ => pose proof (sends_all W m (job_callbacks m r) x) as K end.
  destruct K as (s'' & E & C & N).
  { cbn [jobs set_callbacks set_jobs]. apply G. rewrite Gj. discriminate. }
  exists (length (job_callbacks m r)), s'', (job_callbacks m r).
  split; [exact E|]. split; [exact N|]. split; [exact C|]. split.
  - intros k. destruct r as [[]|[]|[]]; cbn [job_callbacks In]; split;
      try (intros [A|[A|[]]]; discriminate A || (injection A as ->; split; [reflexivity|eexists; reflexivity]));
      try (intros [A|[]]; discriminate A || (injection A as ->; split; [reflexivity|eexists; reflexivity]));
      try (intros []; fail); try (intros (-> & e & A); discriminate A || (left; reflexivity)).
  - destruct r as [[]|[]|[]]; split; reflexivity.
Qed.

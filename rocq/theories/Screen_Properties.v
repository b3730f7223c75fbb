(** * Properties of the screen of the text user interface: C54, C55, C66, C67 *)

From Coq Require Import List PeanoNat NArith Lia.
From Verif Require Import Screen_Model Screen_Spec Screen_Proofs7 Screen_Proofs8
  Screen_Proofs9.
Import ListNotations.
Local Open Scope nat_scope.

(** ** C54: a cancelled load never appears *)

(** Whatever happens after (or before) the load number [l] was aborted, no profile on screen
    lists its activities. *)
Theorem C54_cancelled_never_shown : forall W s0 evs1 s1 l r evs2 s2,
  initial s0 -> exec W s0 evs1 = Some (Running s1) -> screen s1 = LLoading l :: r ->
  exec W s1 (Abort :: evs2) = Some (Running s2) ->
  forall v, In v (profiles s2) -> p_src v <> l.
Proof. exact cancelled_never_shown. Qed.
Print Assumptions C54_cancelled_never_shown.

(** The source of a profile is indeed where its activities come from. *)
Theorem C54_source_of_activities : forall W s0 evs s,
  initial s0 -> exec W s0 evs = Some (Running s) ->
  forall v, In v (profiles s) ->
    exists tr, W (p_src v) = Some tr /\ incl (p_rows v) (map row_of (activities tr)).
Proof. exact rows_from_source. Qed.
Print Assumptions C54_source_of_activities.

(** The end of a load concerns its own dialog only: if it is no longer displayed, nothing
    changes; if it is, then it is replaced by the root activities of that trace, or by an error
    message if it could not be loaded. *)
Theorem C54_shows_what_was_asked : forall W s0 evs s l r,
  well_labelled W -> initial s0 -> calm W s0 evs -> exec W s0 evs = Some (Running s) ->
  callbacks s = CLoaded l :: r ->
  (~ on_screen s (LLoading l)
   /\ exists s', step W s RunCallback = Some (Running s')
        /\ screen s' = screen s /\ stack s' = stack s)
  \/ exists tops bots,
      screen s = tops ++ LLoading l :: bots
      /\ (forall x, In x tops -> x = LInfo \/ exists d, x = LDialog d)
      /\ (forall x, In x bots -> match x with LProfile _ | LLoading _ | LMeasuring _ => False
                                            | _ => True end)
      /\ match W l with
         | None => exists s', step W s RunCallback = Some (Running s')
                     /\ screen s' = LInfo :: bots /\ stack s' = []
         | Some tr =>
             (step W s RunCallback = Some Crash /\ ~ takes_time tr)
             \/ exists s' v, step W s RunCallback = Some (Running s')
                  /\ screen s' = LProfile v :: bots
                  /\ p_src v = l /\ p_kind v = Hierarchical /\ p_rows v = map row_of tr
         end.
Proof. exact load_result. Qed.
Print Assumptions C54_shows_what_was_asked.

(** A load whose dialog is displayed is being done, or its end is about to be announced. *)
Theorem C54_dialog_not_forgotten : forall W s0 evs s l,
  well_labelled W -> initial s0 -> calm W s0 evs -> exec W s0 evs = Some (Running s) ->
  on_screen s (LLoading l) ->
  (exists s', step W s (ThreadLoads (cur s)) = Some (Running s')
     /\ In (CLoaded l) (callbacks s'))
  \/ In (CLoaded l) (callbacks s).
Proof. exact load_pending. Qed.
Print Assumptions C54_dialog_not_forgotten.

(** ** C55: the profile stack mirrors the screen *)

Theorem C55_stack_mirrors_screen : forall W s0 evs s,
  well_labelled W -> initial s0 -> calm W s0 evs -> exec W s0 evs = Some (Running s) ->
  mirrors W s /\ call_path (stack s) (profiles s).
Proof. exact mirror. Qed.
Print Assumptions C55_stack_mirrors_screen.

(** No sequence of events makes the program crash, if the traces have durations. *)
Theorem C55_no_crash : forall W s0 evs,
  well_labelled W -> (forall l tr, W l = Some tr -> takes_time tr) ->
  initial s0 -> calm W s0 evs -> exec W s0 evs <> Some Crash.
Proof. exact no_crash. Qed.
Print Assumptions C55_no_crash.

(** Escape removes the topmost layer, except the last one and those below progress dialogs. *)
Theorem C55_escape : forall W s0 evs s,
  well_labelled W -> initial s0 -> calm W s0 evs -> exec W s0 evs = Some (Running s) ->
  exists s', step W s Esc = Some (Running s')
    /\ ((length (screen s) <= 1 \/ exists x, on_screen s x
             /\ ((exists l, x = LLoading l) \/ exists m, x = LMeasuring m))
        -> s' = s)
    /\ (1 < length (screen s) ->
        (forall x, on_screen s x -> match x with LLoading _ | LMeasuring _ => False | _ => True end) ->
        screen s' = tl (screen s)
        /\ stack s' = match screen s with LProfile _ :: _ => tl (stack s) | _ => stack s end).
Proof. exact escape. Qed.
Print Assumptions C55_escape.

(** The backtrace has an item per profile, and leads to it. *)
Theorem C55_backtrace : forall W s0 evs s n b r,
  well_labelled W -> initial s0 -> calm W s0 evs -> exec W s0 evs = Some (Running s) ->
  screen s = LDialog (Backtrace n b) :: r ->
  n = length (profiles s)
  /\ forall idx,
      (idx < n -> exists s' v, step W s (Jump idx) = Some (Running s')
         /\ profiles s' = skipn (n - S idx) (profiles s)
         /\ stack s' = skipn (n - S idx) (stack s)
         /\ nth_error (rev (profiles s)) idx = Some v
         /\ (exists l, screen s' = LProfile v :: l)
         /\ exists tops, screen s = tops ++ screen s')
      /\ (n <= idx -> step W s (Jump idx) = None).
Proof. exact backtrace. Qed.
Print Assumptions C55_backtrace.

(** Q, B and H do nothing while the dialog of one of them is displayed. Otherwise, they display
    one over what was there: Q always, B if there are profiles, H also over the table of the
    build, which is there if and only if the session began with it. *)
Theorem C55_global_dialogs : forall W s0 evs s,
  well_labelled W -> initial s0 -> calm W s0 evs -> exec W s0 evs = Some (Running s) ->
  ((exists d, on_screen s (LDialog d)) ->
     forall e, e = KeyQ \/ e = KeyB \/ e = KeyH -> step W s e = Some (Running s))
  /\ ((forall d, ~ on_screen s (LDialog d)) ->
      (exists s', step W s KeyQ = Some (Running s') /\ stack s' = stack s
         /\ screen s' = LDialog QuitDialog :: screen s)
      /\ (profiles s = [] -> step W s KeyB = Some (Running s))
      /\ (profiles s <> [] -> exists s' b, step W s KeyB = Some (Running s') /\ stack s' = stack s
            /\ screen s' = LDialog (Backtrace (length (profiles s)) b) :: screen s)
      /\ (profiles s = [] -> s0 = start_with_trace -> step W s KeyH = Some (Running s))
      /\ (profiles s <> [] \/ s0 = start_with_build ->
            exists s', step W s KeyH = Some (Running s') /\ stack s' = stack s
              /\ screen s' = LDialog HelpDialog :: screen s)).
Proof. exact global_dialogs. Qed.
Print Assumptions C55_global_dialogs.

(** Zooming displays the callees of the selected activity over what was displayed. *)
Theorem C55_zoom : forall W s0 evs s v r row a,
  well_labelled W -> initial s0 -> calm W s0 evs -> exec W s0 evs = Some (Running s) ->
  screen s = LProfile v :: r -> p_kind v = Hierarchical -> nth_error (p_rows v) row = Some a ->
  (a_kids a = false /\ step W s (Zoom row) = Some (Running s))
  \/ (a_kids a = true
      /\ ((step W s (Zoom row) = Some Crash /\ exists l tr, W l = Some tr /\ ~ takes_time tr)
          \/ exists s' w tr n,
              step W s (Zoom row) = Some (Running s') /\ screen s' = LProfile w :: screen s
              /\ W (p_src w) = Some tr /\ In n (activities tr) /\ n_id n = a_id a
              /\ p_rows w = map row_of (n_kids n))).
Proof. exact zoom_result. Qed.
Print Assumptions C55_zoom.

(** F replaces the topmost profile by the other one about the same activity. *)
Theorem C55_flip : forall W s0 evs s v r,
  well_labelled W -> initial s0 -> calm W s0 evs -> exec W s0 evs = Some (Running s) ->
  screen s = LProfile v :: r ->
  exists s' w e e' st tr,
    step W s KeyF = Some (Running s') /\ screen s' = LProfile w :: r
    /\ p_kind w = match p_kind v with Hierarchical => Flat | Flat => Hierarchical end
    /\ stack s = e :: st /\ stack s' = e' :: st /\ e_name e' = e_name e
    /\ W (p_src w) = Some tr /\ lists tr (e_name e) (p_kind w) (p_rows w).
Proof. exact flip_result. Qed.
Print Assumptions C55_flip.

(** The hypothesis about calm executions is needed: if the user opens a trace between the end
    of a measurement and the moment its result is opened, then the record no longer mirrors
    the screen, and the unit shortcut may crash the program. *)
Definition example_trace : trace :=
  [Node 0 10 [Node 1 6 [Node 2 3 []]; Node 3 2 []]; Node 4 5 []].

Definition busy : list event :=
  [Submit (WPrompt false); Reply true None; ClangEnds 0 (Success false); RunCallback;
   Submit WFresh; ThreadLoads 0; RunCallback; JobSends 0; RunCallback; ThreadLoads 0;
   RunCallback].

Theorem C55_busy_refuted : exists W s0 s,
  well_labelled W /\ (forall l tr, W l = Some tr -> takes_time tr) /\ initial s0
  /\ exec W s0 busy = Some (Running s) /\ ~ (mirrors W s /\ call_path (stack s) (profiles s))
  /\ exec W s0 (busy ++ [Esc; KeyU]) = Some Crash.
Proof.
  exists (fun _ => Some example_trace), start_with_build.
  eexists. split; [|split; [|split; [|split; [|split]]]].
  - intros l tr E. injection E as <-. cbn.
    repeat (constructor; [cbn; lia|]). constructor.
  - intros l tr E. injection E as <-. split; [discriminate|].
    intros n Hn. cbn in Hn. repeat destruct Hn as [<-|Hn]; try destruct Hn; discriminate.
  - right. reflexivity.
  - vm_compute. reflexivity.
  - intros [_ P]. vm_compute in P. destruct P as [[a [_ [_ E]]] _]. discriminate.
  - vm_compute. reflexivity.
Qed.
Print Assumptions C55_busy_refuted.

(** ** C66: all profiles are displayed alike *)

Theorem C66_uniform_settings : forall W s0 evs s,
  well_labelled W -> initial s0 -> calm W s0 evs -> exec W s0 evs = Some (Running s) ->
  profiles s <> [] ->
  exists u c, uniform W s u c
    /\ forall e s', calm W s [e] -> step W s e = Some (Running s') ->
         uniform W s' (match e with KeyU => next_unit u | _ => u end)
                      (match e with Sort c' => c' | _ => c end).
Proof. exact settings. Qed.
Print Assumptions C66_uniform_settings.

(** ** C67: traces that take no time *)

(** A trace without activities, or one in which an activity that called another took less than
    the resolution of the clock, makes the program crash. *)
Theorem C67_all_traces_refuted :
  (exists W, W 0 = Some [] /\ exec W start_with_trace [ThreadLoads 0; RunCallback] = Some Crash)
  /\ exists W, W 0 = Some [Node 0 10 [Node 1 0 [Node 2 0 []]]]
       /\ exec W start_with_trace [ThreadLoads 0; RunCallback; Zoom 0; Zoom 0] = Some Crash.
Proof.
  split; [exists (fun _ => Some [])|exists (fun _ => Some [Node 0 10 [Node 1 0 [Node 2 0 []]]])];
    (split; [reflexivity|vm_compute; reflexivity]).
Qed.
Print Assumptions C67_all_traces_refuted.

(** ** Examples *)

Definition tour : list event :=
  [Submit (WPrompt true); Reply false None; KeyQ; ThreadLoads 0; Dismiss; RunCallback;
   Zoom 0; KeyU; Zoom 0; KeyF; Sort Description; KeyU; KeyB].

Lemma calm_check W : forall evs s,
  (fix check (s : state) (evs : list event) : bool :=
     match evs with
     | [] => true
     | e :: r =>
         (match e, callbacks s with
          | RunCallback, CShowLoader _ :: _ =>
              forallb (fun l => match l with LProfile _ | LLoading _ | LMeasuring _ => false
                                           | _ => true end) (screen s)
          | _, _ => true
          end
          && match step W s e with Some (Running s') => check s' r | _ => true end)%bool
     end) s evs = true -> calm W s evs.
Proof.
  induction evs as [|e r IH]; intros s H; [exact I|].
  apply andb_prop in H. destruct H as [H1 H2]. split.
  - intros -> m c E. rewrite E in H1. intros l Hl. rewrite forallb_forall in H1.
    specialize (H1 l Hl). destruct l; try exact I; discriminate.
  - intros s' E. rewrite E in H2. exact (IH s' H2).
Qed.

Example C55_dialogs_witness :
  let W := fun _ => Some example_trace in
  exists s, exec W start_with_build [KeyB; KeyH; KeyQ; KeyB] = Some (Running s)
    /\ screen s = [LDialog HelpDialog; LTable] /\ profiles s = [].
Proof. eexists. split; [vm_compute; reflexivity|]. split; reflexivity. Qed.

Example C55_witness :
  let W := fun _ => Some example_trace in
  calm W start_with_build tour
  /\ exists s, exec W start_with_build tour = Some (Running s)
      /\ screen s <> [] /\ map p_kind (profiles s) = [Flat; Hierarchical; Hierarchical]
      /\ (exists r, screen s = LDialog (Backtrace 3 1) :: r)
      /\ exists s', step W s (Jump 0) = Some (Running s')
          /\ map p_rows (profiles s') = [map row_of example_trace].
Proof.
  split; [apply calm_check; vm_compute; reflexivity|].
  eexists. split; [vm_compute; reflexivity|]. split; [discriminate|]. split; [reflexivity|].
  split; [eexists; reflexivity|]. eexists. split; [vm_compute; reflexivity|reflexivity].
Qed.

Example C54_witness :
  let W := fun l => if l =? 0 then Some example_trace else Some [Node 7 1 []] in
  exists s1 r s2,
    exec W start_with_build [Submit WFresh] = Some (Running s1)
    /\ screen s1 = LLoading 0 :: r
    /\ exec W s1 [Abort; Submit WFresh; ThreadLoads 0; ThreadLoads 1; RunCallback; RunCallback]
       = Some (Running s2)
    /\ map p_rows (profiles s2) = [[{| a_id := 7; a_dur := 1; a_kids := false |}]].
Proof.
  eexists _, _, _. split; [vm_compute; reflexivity|]. split; [reflexivity|].
  split; vm_compute; reflexivity.
Qed.

(** ** C68: outcomes of measurements *)

(** A trace is only opened on behalf of a measurement if that measurement has succeeded: not
    after it was cancelled, nor after it failed. *)
Theorem C68_opened_after_success : forall W s0 evs s m,
  initial s0 -> exec W s0 evs = Some (Running s) ->
  In (CShowLoader m) (callbacks s) -> exists b, In (ClangEnds m (Success b)) evs.
Proof. exact opened_after_success. Qed.
Print Assumptions C68_opened_after_success.

(** No trace is opened twice for the same reason. *)
Theorem C68_opened_once : forall W s0 evs s,
  initial s0 -> exec W s0 evs = Some (Running s) ->
  next_load s <= next_load s0 + list_sum (map reasons evs).
Proof. exact loads_have_reasons. Qed.
Print Assumptions C68_opened_once.

(** What the end of a measurement makes the user interface do: always end the wait; then open
    the trace if it succeeded, tell the user if it failed, and nothing if it was cancelled
    (unless the previous profile could not be restored). *)
Theorem C68_outcome : forall W s m r s',
  step W s (ClangEnds m r) = Some (Running s') ->
  callbacks s' = callbacks s ++ [CEndMeasure m] /\
  match r with
  | Success _ => exists s'', step W s' (JobSends m) = Some (Running s'')
                   /\ callbacks s'' = callbacks s' ++ [CShowLoader m]
  | Failed _ => exists s'', step W s' (JobSends m) = Some (Running s'')
                   /\ callbacks s'' = callbacks s' ++ [CInfo]
  | Canceled false => step W s' (JobSends m) = None
  | Canceled true => exists s'', step W s' (JobSends m) = Some (Running s'')
                   /\ callbacks s'' = callbacks s' ++ [CInfo]
                   /\ step W s'' (JobSends m) = None
  end.
Proof. exact outcome. Qed.
Print Assumptions C68_outcome.

(** All that it sends in the end: one loader if and only if it succeeded, and one dialog for each of the
    errors (of clang, and of dealing with the backup). *)
Theorem C68_outcome_complete : forall W s m r s',
  step W s (ClangEnds m r) = Some (Running s') ->
  exists n s'' sent, exec W s' (repeat (JobSends m) n) = Some (Running s'')
    /\ step W s'' (JobSends m) = None /\ callbacks s'' = callbacks s' ++ sent
    /\ (forall k, In (CShowLoader k) sent <-> k = m /\ exists e, r = Success e)
    /\ dialogs sent = match r with
                      | Failed true => 2
                      | Failed false | Success true | Canceled true => 1
                      | Success false | Canceled false => 0
                      end
    /\ length sent = dialogs sent + match r with Success _ => 1 | _ => 0 end.
Proof. exact outcome_complete. Qed.
Print Assumptions C68_outcome_complete.

Example C68_witness :
  let evs := [Submit (WPrompt false); Reply true None; Abort; ClangEnds 0 (Canceled false);
              RunCallback; Submit (WPrompt true); Reply true None; ClangEnds 1 (Success true);
              JobSends 1; JobSends 1; RunCallback] in
  exists s, exec (fun _ => Some example_trace) start_with_build evs = Some (Running s)
    /\ callbacks s = [CShowLoader 1; CInfo] /\ next_load s = 0
    /\ list_sum (map reasons evs) = 1.
Proof. eexists. split; [vm_compute; reflexivity|]. split; [|split]; vm_compute; reflexivity. Qed.

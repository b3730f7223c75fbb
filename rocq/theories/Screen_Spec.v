(** * What the properties about the screen of the text user interface mean

    Nothing here depends on how the program keeps track of what it displays. *)

From Coq Require Import List PeanoNat NArith.
From Verif Require Import Screen_Model.
Import ListNotations.

(** Executions start with an input file, or with the full-build table. *)
Definition initial (s : state) : Prop := s = start_with_trace \/ s = start_with_build.

(** The profiles that are on screen, starting with the topmost. *)
Definition profiles (s : state) : list view :=
  flat_map (fun l => match l with LProfile v => [v] | _ => [] end) (screen s).

Definition on_screen (s : state) (l : layer) : Prop := In l (screen s).

(** No profile is displayed, nothing is being loaded or measured. *)
Definition quiet (s : state) : Prop :=
  forall l, on_screen s l ->
    match l with LProfile _ | LLoading _ | LMeasuring _ => False | _ => True end.

(** An execution is calm if the trace of a measurement that has succeeded is only opened when
    nothing else was opened in the meantime. *)
Fixpoint calm (W : nat -> option trace) (s : state) (l : list event) : Prop :=
  match l with
  | [] => True
  | e :: r =>
      (e = RunCallback -> forall m c, callbacks s = CShowLoader m :: c -> quiet s)
      /\ (forall s', step W s e = Some (Running s') -> calm W s' r)
  end.

(** An activity and those that it called, directly or not; those of a trace. *)
Fixpoint calls (n : node) : list node :=
  match n with Node _ _ k => n :: flat_map calls k end.

Definition activities (tr : trace) : list node := flat_map calls tr.

(** What a row displays. *)
Definition row_of (n : node) : act :=
  {| a_id := n_id n; a_dur := n_dur n;
     a_kids := match n_kids n with [] => false | _ => true end |}.

(** The duration of a trace is that of its root activities, together. *)
Definition duration (tr : trace) : N := fold_right N.add 0%N (map n_dur tr).

(** The identifiers of a trace are distinct. *)
Definition well_labelled (W : nat -> option trace) : Prop :=
  forall l tr, W l = Some tr -> NoDup (map n_id (activities tr)).

(** Something took time in the trace, and so did all activities that called others. *)
Definition takes_time (tr : trace) : Prop :=
  duration tr <> 0%N
  /\ forall n, In n (activities tr) -> n_kids n <> [] -> n_dur n <> 0%N.

(** The activities that a profile of [name] (an activity, or the whole trace) should list. *)
Definition lists (tr : trace) (name : option nat) (k : pkind) (rows : list act) : Prop :=
  match name with
  | None => rows = map row_of (match k with Hierarchical => tr | Flat => activities tr end)
  | Some i =>
      exists n, In n (activities tr) /\ n_id n = i
        /\ rows = map row_of (match k with
                            | Hierarchical => n_kids n
                            | Flat => flat_map calls (n_kids n)
                            end)
  end.

(** The time that percentages of the parent are relative to. *)
Definition lasts (tr : trace) (name : option nat) (d : N) : Prop :=
  match name with
  | None => d = duration tr
  | Some i => exists n, In n (activities tr) /\ n_id n = i /\ d = n_dur n
  end.

(** An entry of the backtrace describes a profile on screen. *)
Definition describes (tr : trace) (e : entry) (v : view) : Prop :=
  e_table e = p_table v /\ e_kind e = p_kind v
  /\ lists tr (e_name e) (e_kind e) (p_rows v) /\ lasts tr (e_name e) (e_norm e).

(** The recorded profiles are those on screen, in order; they are all about the same trace;
    only the topmost may be flat; tables have distinct names. *)
Definition mirrors (W : nat -> option trace) (s : state) : Prop :=
  (profiles s = [] /\ stack s = [])
  \/ exists l tr,
      W l = Some tr
      /\ (forall v, In v (profiles s) -> p_src v = l)
      /\ Forall2 (describes tr) (stack s) (profiles s)
      /\ (forall v, In v (tl (profiles s)) -> p_kind v = Hierarchical)
      /\ NoDup (map p_table (profiles s)).

(** The record is a call path: its first entry (the last of the list) is about the whole trace,
    and each of the others is about an activity that the profile below it lists. *)
Fixpoint call_path (es : list entry) (vs : list view) : Prop :=
  match es, vs with
  | [], [] => True
  | [e], [_] => e_name e = None
  | e :: es', _ :: ((v :: _) as vs') =>
      (exists a, In a (p_rows v) /\ a_kids a = true /\ e_name e = Some (a_id a))
      /\ call_path es' vs'
  | _, _ => False
  end.

(** Units of durations. *)
Inductive unit_kind := UTime | UGlobal | UParent.

Definition next_unit (u : unit_kind) : unit_kind :=
  match u with UGlobal => UParent | UParent => UTime | UTime => UGlobal end.

(** Every profile on screen displays durations in unit [u] and is sorted by [c] (by the
    duration of the activity itself, if by the total one in a flat profile). *)
Definition uniform (W : nat -> option trace) (s : state) (u : unit_kind) (c : column) : Prop :=
  forall e v tr, In (e, v) (combine (stack s) (profiles s)) -> W (p_src v) = Some tr ->
    p_key v = (match p_kind v, c with Flat, TotalDuration => SelfDuration | _, _ => c end)
    /\ match u with
       | UTime => p_dd v = Time
       | UGlobal => p_dd v = Percentage (duration tr) Global
       | UParent => exists d, lasts tr (e_name e) d /\ p_dd v = Percentage d Parent
       end.

(** Reasons to open a trace: the user asks for a profile that is up to date, declines to
    update one, or a measurement succeeds. *)
Definition reasons (e : event) : nat :=
  match e with Submit WFresh | Reply false _ | ClangEnds _ (Success _) => 1 | _ => 0 end.

(** The number of error dialogs among callbacks *)
Definition dialogs (l : list callback) : nat :=
  length (filter (fun c => match c with CInfo => true | _ => false end) l).

(** Model of the non-interactive report: src/ui/stdio.rs, with force_parse_arg of
    src/ui/mod.rs and the statistics of src/trace.rs on relative durations.

    Simplifications:
    - Durations are whole microseconds; the f64 arithmetic on relative durations is exact
      arithmetic extended with infinities and NaN (a division by a total duration of zero is
      what the code may meet), i.e. its rounding is ignored.
    - An activity is what the report asks of it: its name, the text of its argument and what
      parsing that argument gives (a parsed and resolved argument, an error, or a panic).
      Parsing is a function of the activity: interning does not change what is parsed.
    - Output: the lines printed by `println!`, `eprintln!`; an unfinished line is lost if the
      program panics.  Writing to stdout does not fail.  Logging is left out.
    - Unsigned underflow panics (debug build). *)
From Coq Require Import String QArith.
From Verif Require Import Base Tree_Model UI_Model.
Local Open Scope nat_scope.
Local Open Scope bool_scope.
Local Open Scope list_scope.

(** ** f64 values *)
Inductive number := NaN | MInf | Fin (q : Q) | PInf.

(** `a >= b` *)
Definition num_ge (a b : number) : bool :=
  match a, b with
  | NaN, _ | _, NaN => false
  | PInf, _ | _, MInf => true
  | Fin x, Fin y => Qle_bool y x
  | _, _ => false
  end.
(** `a < b` *)
Definition num_lt (a b : number) : bool :=
  match a, b with
  | NaN, _ | _, NaN => false
  | _, _ => negb (num_ge a b)
  end.
(** `a * 100.0` and `a / 100.0` *)
Definition times100 (a : number) : number :=
  match a with Fin q => Fin (q * 100)%Q | _ => a end.
Definition over100 (a : number) : number :=
  match a with Fin q => Fin (q / 100)%Q | _ => a end.

(** src/trace.rs:8-11 and its uses `duration * duration_norm`: d * (1 / total) *)
Definition relative (total d : Z) : number :=
  if (total =? 0)%Z
  then if (d =? 0)%Z then NaN else if (0 <? d)%Z then PInf else MInf
  else Fin (inject_Z d / inject_Z total)%Q.

(** An activity, as seen by the report. *)
Record activity := mk_activity {
  a_name : str;                               (* Activity::name *)
  a_detail : option str;                      (* RawActivityArgument::detail *)
  a_parse : outcome (option argument) }.      (* RawActivityArgument::parse; None is an error *)

(** src/ui/mod.rs:13-28 *)
Definition force_parse_arg (a : activity) : outcome argument :=
  obind (a_parse a) (fun parsed =>
    Ret (match parsed with
         | Some arg => arg
         | None => match a_detail a with Some detail => AString detail | None => ANothing end
         end)).

(** What ClangTrace gives (clang-time-trace/src/lib.rs:54-176) *)
Record trace := mk_trace {
  tr_tree : tree activity; tr_process : str; tr_pid : option Z; tr_thread : option str;
  tr_bot : option Z }.

(** src/main.rs:26-77: the options used by the report; [input] is what loading the input file
    gives (an error message or a trace) if there is one. *)
Record cli := mk_cli {
  c_input : option (outcome (str + trace)); c_self : number; c_hier : number; c_cols : nat }.

Inductive line := Stdout (text : str) | Stderr (text : str).

(** A computation that prints, and may panic. *)
Definition prog (A : Type) := (list line * outcome A)%type.
Definition ret {A} (a : A) : prog A := ([], Ret a).
Definition bind {A B} (p : prog A) (f : A -> prog B) : prog B :=
  match snd p with
  | Ret a => let q := f a in (fst p ++ fst q, snd q)
  | Panic => (fst p, Panic)
  end.
Definition lift {A} (o : outcome A) : prog A := ([], o).
Definition println (s : str) : prog unit := ([Stdout s], Ret tt).
Definition eprintln (s : str) : prog unit := ([Stderr s], Ret tt).

Local Notation "' s" := (of_string s) (at level 0, s at level 0).

Section Stdio.
  Variable w : str -> nat.
  Variable graphemes : str -> list str.
  Variable rfc3339 : Z -> str.
  Variable debug_str : str -> str.
  Variable round2 : Z -> Z -> Z.
  Variable two_decimals : number -> str.       (* `{:.2}` *)
  Variable sort_desc : forall A : Type, (A -> Z) -> list A -> list A.

  (** src/ui/stdio.rs:307-316 *)
  Definition profile_info (d total : Z) : outcome str :=
    obind (display_duration round2 d) (fun text =>
      Ret (' " [" ++ text ++ ' ", " ++ two_decimals (times100 (relative total d)) ++ ' "%]")).

  (** src/ui/stdio.rs:253-304 with the profiling information of the activity *)
  Definition show_activity (a : activity) (arg : argument) (max_cols : nat) (d total : Z)
    : outcome str :=
    if Nat.leb 1 max_cols
    then obind (profile_info d total) (fun trailer =>
           display_activity w graphemes (a_name a) arg max_cols trailer)
    else Panic.

  (** The order of `duration * duration_norm`: comparing relative durations is comparing
      durations if the total is positive (exact arithmetic), and no NaN is compared since
      those were filtered out. *)
  Definition order_key (total d : Z) : Z :=
    if (0 <? total)%Z then d else if (total <? 0)%Z then (- d)%Z else Z.sgn d.

  (** src/trace.rs:34-48 with `duration` = relative duration *)
  Definition hottest {B} (items : list B) (duration : B -> Z) (total : Z) (threshold : number)
    : list B :=
    sort_desc B (fun a => order_key total (duration a))
      (filter (fun a => num_ge (relative total (duration a)) threshold) items).

  (** src/ui/stdio.rs:75-89: the loop; [n] types are left *)
  Fixpoint type_lines (total : Z) (threshold : number) (types : list (str * Z)) : prog unit :=
    match types with
    | [] => ret tt
    | (name, d) :: rest =>
        if num_lt (relative total d) threshold
        then println (' "- ... and " ++ digits (Z.of_nat (length types))
                        ++ ' " other activity types below "
                        ++ two_decimals (times100 threshold) ++ ' "% ...")
        else bind (lift (profile_info d total)) (fun info =>
             bind (println (' "- " ++ name ++ info)) (fun _ =>
             type_lines total threshold rest))
    end.

  (** src/ui/stdio.rs:72-90 *)
  Definition print_activity_type_profile (t : tree activity) (total : Z) (threshold : number)
    : prog unit :=
    bind (println (newline :: ' "Self-duration breakdown by activity type:")) (fun _ =>
      type_lines total threshold
        (activity_type_breakdown sort_desc
           (map (fun n => (a_name (s_act (n_stat n)), n_self n)) (t_acts t)))).

  (** src/ui/stdio.rs:107-126: the loop over the hottest activities *)
  Fixpoint flat_lines (t : tree activity) (ids : list nat) (total : Z) (max_cols : nat)
    : prog unit :=
    match ids with
    | [] => ret tt
    | id :: rest =>
        bind (lift (activity_trace t id)) (fun n =>
        let a := s_act (n_stat n) in
        bind (lift (force_parse_arg a)) (fun arg =>
        bind (lift (usub max_cols 2)) (fun cols =>
        bind (lift (show_activity a arg cols (n_self n) total)) (fun text =>
        bind (println (' "- " ++ text)) (fun _ =>
        flat_lines t rest total max_cols)))))
    end.

  (** src/ui/stdio.rs:93-136 *)
  Definition print_flat_profile (t : tree activity) (total : Z) (threshold : number)
      (max_cols : nat) : prog unit :=
    bind (println (newline :: ' "Hottest activities by self-duration:")) (fun _ =>
    let activities := combine (seq 0 (length (t_acts t))) (map n_self (t_acts t)) in
    let hot := hottest activities snd total threshold in
    bind (flat_lines t (map fst hot) total max_cols) (fun _ =>
    if Nat.ltb (length hot) (length activities)
    then println (' "- ... and " ++ digits (Z.of_nat (length activities - length hot))
                    ++ ' " other activities below "
                    ++ two_decimals (times100 threshold) ++ ' "% ...")
    else ret tt)).

  (** src/ui/stdio.rs:225-232: "…N callee(s) below P%…" *)
  Definition callees_text (hidden : nat) (threshold : number) : str :=
    [ellipsis] ++ digits (Z.of_nat hidden) ++ ' " callee(s) below "
      ++ two_decimals (times100 threshold) ++ ' "%" ++ [ellipsis].

  (** src/ui/stdio.rs:167-250.  The glyphs are one column wide each (lines 146-153);
      [fuel] bounds the depth: the column budget does. *)
  Fixpoint activity_tree (fuel : nat) (t : tree activity) (total : Z) (threshold : number)
      (id max_cols : nat) : outcome text_tree :=
    match fuel with
    | 0 => Panic
    | S fuel' =>
        obind (activity_trace t id) (fun n =>
        let a := s_act (n_stat n) in
        obind (force_parse_arg a) (fun arg =>
        obind (show_activity a arg max_cols (s_dur (n_stat n)) total) (fun label =>
        let child_cols := max_cols - 1 - 1 in
        if Nat.eqb child_cols 0 then Ret (TT label [])
        else
          obind (direct_children t id) (fun children =>
          obind (omap (fun c => obind (duration t c) (fun d => Ret (c, d))) children) (fun timed =>
          let hot := hottest timed snd total threshold in
          obind (omap (fun c => activity_tree fuel' t total threshold (fst c) child_cols) hot)
            (fun leaves =>
          if Nat.eqb (length hot) (length children) then Ret (TT label leaves)
          else
            obind (usub (length children) (length hot)) (fun hidden =>
            let text := callees_text hidden threshold in
            let text := if Nat.ltb child_cols (w text) then [ellipsis] else text in
            Ret (TT label (leaves ++ [TT text []])))))))))
    end.

  (** `Display` of a termtree: each line ends with a line feed *)
  Definition tree_text (t : text_tree) : str :=
    concat (map (fun l => l ++ [newline]) (render_tree t)).

  (** src/ui/stdio.rs:139-164 *)
  Definition print_hierarchical_profile (t : tree activity) (total : Z) (threshold : number)
      (max_cols : nat) : prog unit :=
    bind (println (newline :: ' "Hierarchical profile:")) (fun _ =>
    bind (lift (root_activities t)) (fun roots =>
    match roots with
    | [root] =>
        bind (lift (activity_tree (S max_cols) t total threshold root max_cols)) (fun tree =>
        println (tree_text tree))
    | _ => lift Panic
    end)).

  (** `roots.map(duration).sum()` (src/trace.rs:9) *)
  Fixpoint sum_durations (t : tree activity) (ids : list nat) : outcome Z :=
    match ids with
    | [] => Ret 0%Z
    | i :: r => obind (duration t i) (fun x => obind (sum_durations t r) (fun y => Ret (x + y)%Z))
    end.

  (** src/ui/stdio.rs:22-33 *)
  Definition no_input_text : str :=
    ' "Full-build profiling requires user interaction, so it is not supported by the non-interactive stdio user interface." ++ [newline] ++
    ' "Please switch to the interactive textual user interface or re-run me on an input file emitted by clang++ -ftime-trace.".

  (** src/ui/stdio.rs:18-69; [terminal_width] is None if there is no terminal *)
  Definition run (terminal_width : option nat) (args : cli) : prog unit :=
    match c_input args with
    | None => eprintln no_input_text
    | Some input =>
        let max_cols := match terminal_width with
                        | Some width => Nat.min width (c_cols args)
                        | None => c_cols args
                        end in
        bind (eprintln ' "Processing input data...") (fun _ =>
        bind (lift input) (fun loaded =>
        match loaded with
        | inl message => eprintln (' "Failed to process input: " ++ message)
        | inr trace =>
            let t := tr_tree trace in
            bind (lift (metadata w rfc3339 debug_str (tr_process trace) (tr_pid trace)
                          (tr_thread trace) (tr_bot trace) max_cols)) (fun meta =>
            bind (println (newline :: meta)) (fun _ =>
            bind (lift (obind (root_activities t) (sum_durations t))) (fun total =>
            let self_threshold := over100 (c_self args) in
            bind (print_activity_type_profile t total self_threshold) (fun _ =>
            bind (print_flat_profile t total self_threshold max_cols) (fun _ =>
            print_hierarchical_profile t total (over100 (c_hier args)) max_cols)))))
        end))
    end.
End Stdio.

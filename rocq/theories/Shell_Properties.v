(** Property C78 (compilation commands). *)
From Coq Require Import String.
From Verif Require Import Base Asylum_Model.
From Verif Require Import Cpp_Lex_Model Cpp_Lex_Spec Cpp_Lex_Proofs4 Cmd_Model Cmd_Spec Cmd_Properties Shell_Model Shell_Spec Shell_Proofs.
Local Open Scope nat_scope.
Local Open Scope bool_scope.
Local Open Scope list_scope.
Local Notation "' s" := (of_string s) (at level 0, s at level 0).

(** A command is run as it is written: its first word is the program, the others are the
    arguments, in the directory of the entry; a command without words is an error. *)
Theorem C78_commands_run_as_written :
  forall directory command file output words, command_text words command ->
  start_job (mkJob directory command file output) =
    match words with
    | [] => None
    | program :: args => Some (mkProcess program args directory)
    end.
Proof.
  intros d c f o ws H. unfold start_job, job_program, job_args, full_args. cbn [j_command j_directory].
  rewrite (command_lex _ _ H). destruct ws; reflexivity.
Qed.
Print Assumptions C78_commands_run_as_written.

(** A trace is made by the same command with clang++ as the program and -ftime-trace (and the
    granularity) in front. *)
Theorem C78_trace_commands :
  forall directory command file output program args clangpp, command_text (program :: args) command ->
  trace_command clangpp None (mkJob directory command file output) =
    mkProcess clangpp ('"-ftime-trace" :: args) directory /\
  forall g, exists ds, are_digits ds /\ digits_value ds = Z.of_N g /\
    trace_command clangpp (Some g) (mkJob directory command file output) =
      mkProcess clangpp ('"-ftime-trace" :: ('"-ftime-trace-granularity=" ++ digits_text ds) :: args) directory.
Proof.
  intros d c f o p a cl H. unfold trace_command, job_args, full_args. cbn [j_command j_directory].
  rewrite (command_lex _ _ H). split; [reflexivity|]. intros g.
  destruct (shown_digits g) as (ds & E & Hd & Hv). exists ds. split; [exact Hd|]. split; [exact Hv|].
  rewrite E. reflexivity.
Qed.
Print Assumptions C78_trace_commands.

(** Any program and arguments can be written as a command, and every text is a command or has
    an unclosed last word. *)
Definition quoted (v : str) : str := [39%N; 39%N] ++ concat (map (fun c => if N.eqb c 39 then [92%N; 39%N] else [39%N; c; 39%N]) v).
Lemma quoted_word v : word_text v (quoted v).
Proof.
  split; [|split; discriminate]. unfold quoted. change v with ([] ++ v) at 1. constructor; [apply (pc_single []); intros []|].
  induction v as [|c v IH]; [constructor|]. cbn [map concat]. change (c :: v) with ([c] ++ v). constructor; [|exact IH].
  destruct (N.eqb_spec c 39) as [->|Hne]; [constructor; discriminate|].
  apply (pc_single [c]). intros [X|[]]. contradiction.
Qed.
Theorem C78_every_command_can_be_written :
  forall words, exists command, command_text words command.
Proof.
  assert (G : forall ws, exists s, command_text ws (32%N :: s)).
  { induction ws as [|w ws [s IH]].
    - exists []. apply cmd_end. constructor; [now left|constructor].
    - exists (quoted w ++ 32%N :: s). apply (cmd_word [32%N] w); [constructor; [now left|constructor]|apply quoted_word|now left|exact IH]. }
  intros ws. destruct (G ws) as [s H]. now exists (32%N :: s).
Qed.
Print Assumptions C78_every_command_can_be_written.
Theorem C78_every_text_is_covered :
  forall command, exists words, command_text words command \/ broken_text words command.
Proof. intros s. exact (text_total _ s (le_n _)). Qed.
Print Assumptions C78_every_text_is_covered.

(** An unclosed last word is left out silently. *)
Theorem C78_broken_commands :
  forall directory command file output words, broken_text words command ->
  start_job (mkJob directory command file output) =
    match words with
    | [] => None
    | program :: args => Some (mkProcess program args directory)
    end.
Proof.
  intros d c f o ws H. unfold start_job, job_program, job_args, full_args. cbn [j_command j_directory].
  rewrite (broken_lex _ _ H). destruct ws; reflexivity.
Qed.
Print Assumptions C78_broken_commands.
Theorem C78_broken_commands_are_refused_refuted :
  ~ forall directory command file output words, broken_text words command ->
      start_job (mkJob directory command file output) = None.
Proof.
  intros H. assert (B : broken_text ['"c++"; '"-c"] ('"c++ -c " ++ 34%N :: '"a.cpp")).
  { apply (br_word [] '"c++" '"c++" 32%N); [constructor| |now left|].
    - split; [|split; discriminate]. change '"c++" with ('"c" ++ ('"+" ++ ('"+" ++ []))).
      repeat (apply pcs_cons; [constructor; unfold ordinary, blank; repeat split; intuition discriminate|]). constructor.
    - apply (br_word '" " '"-c" '"-c" 32%N); [constructor; [now left|constructor]| |now left|].
      + split; [|split; discriminate]. change '"-c" with ('"-" ++ ('"c" ++ [])).
        repeat (apply pcs_cons; [constructor; unfold ordinary, blank; repeat split; intuition discriminate|]). constructor.
      + apply (br_last '" " [] [] (34%N :: '"a.cpp")); [constructor; [now left|constructor]|constructor|discriminate|].
        apply (un_double '"a.cpp"). cbn. repeat (apply dq_char; [discriminate..|]). constructor. }
  discriminate (H '"/" _ '"a.cpp" None _ B).
Qed.
Print Assumptions C78_broken_commands_are_refused_refuted.

(** Unlike in a shell, a line continuation between two words is an (empty) argument. *)
Theorem C78_line_continuations_refuted :
  ~ forall directory file a b,
      start_job (mkJob directory ('"c++ " ++ a ++ [32%N; 92%N; 10%N; 32%N] ++ b) file None) =
      start_job (mkJob directory ('"c++ " ++ a ++ [32%N; 10%N; 32%N] ++ b) file None).
Proof. intros H. specialize (H '"/" '"a.cpp" '"-c" '"a.cpp"). vm_compute in H. discriminate. Qed.
Print Assumptions C78_line_continuations_refuted.

(** The output file is found in the command as it is written (see C60). *)
Theorem C78_output_of_a_command :
  forall canon directory command file program before o after, directory <> [] ->
  command_text (program :: before ++ '"-o" :: o :: after) command -> ~ In '"-o" before ->
  forall p, entry_output canon (job_entry (mkJob directory command file None)) = Some p <->
    (exists name par, (exists par', path_components o = par' ++ [Normal name]) /\
       path_components (seen_from directory o) = par ++ [Normal name] /\
       p = match canon par with Some d => d ++ [Normal name] | None => par ++ [Normal name] end).
Proof.
  intros canon dir c f prog b o a Hd Hc Hb p.
  destruct (C60_output_is_the_argument_of_dash_o canon (job_entry (mkJob dir c f None)) Hd) as [_ H].
  rewrite (H eq_refl p). clear H. unfold output_argument, job_entry, full_args. cbn [e_words e_directory j_command j_directory].
  rewrite (command_lex _ _ Hc). split.
  - intros (o' & name & par & (pr & b' & a' & E & Hb') & H). exists name, par. injection E as _ E.
    assert (o' = o) as ->; [|exact H]. clear - E Hb Hb'. revert b' E Hb'. induction b as [|x b IH]; intros [|y b'] E Hb'.
    + cbn [app] in E. injection E as <- _. reflexivity.
    + cbn [app] in E. injection E as <- _. exfalso. apply Hb'. now left.
    + cbn [app] in E. injection E as -> _. exfalso. apply Hb. now left.
    + cbn [app] in E. injection E as <- E. apply (IH (fun X => Hb (or_intror X)) b' E). intros X. apply Hb'. now right.
  - intros (name & par & H). exists o, name, par. split; [|exact H]. now exists prog, b, a.
Qed.
Print Assumptions C78_output_of_a_command.

Example C78_witness :
  let command := '"# compile" ++ 10%N :: '"/usr/bin/c++ -DX=" ++ [92%N; 34%N] ++ '"a b" ++ [92%N; 34%N] ++ '" -I" ++ [39%N] ++ '"d e" ++ [39%N; 34%N; 92%N; 36%N; 34%N] ++ '" x.cpp" in
  command_text ['"c++"; '"-c"] ('"c++ -c") /\
  start_job (mkJob '"/b" command '"x.cpp" None) =
    Some (mkProcess '"/usr/bin/c++" ['"-DX=" ++ 34%N :: '"a"; '"b" ++ [34%N]; '"-Id e$"; '"x.cpp"] '"/b") /\
  trace_command '"clang++" (Some 100%N) (mkJob '"/b" '"c++ -c x.cpp" '"x.cpp" None) =
    mkProcess '"clang++" ['"-ftime-trace"; '"-ftime-trace-granularity=100"; '"-c"; '"x.cpp"] '"/b" /\
  start_job (mkJob '"/b" '"  # nothing" '"x.cpp" None) = None.
Proof.
  split; [|repeat split; vm_compute; reflexivity].
  assert (W : forall v, forallb (fun c => negb (is_blank c) && negb (N.eqb c 34) && negb (N.eqb c 39) && negb (N.eqb c 92)) v = true ->
    v <> [] -> hd 0%N v <> 35%N -> word_text v v).
  { intros v H Hne Hh. split; [|now split]. clear Hne Hh. induction v as [|c v IH]; [constructor|].
    cbn [forallb] in H. apply andb_true_iff in H as [H Hv]. change (c :: v) with ([c] ++ v). constructor; [|now apply IH].
    rewrite !andb_true_iff, !negb_true_iff, !N.eqb_neq in H. destruct H as [[[H1 H2] H3] H4].
    constructor. split; [|now split]. intros X. apply is_blank_spec in X. congruence. }
  apply (cmd_word [] '"c++" '"c++" 32%N); [constructor|apply W; [reflexivity|discriminate..]|now left|].
  apply (cmd_last '" " '"-c" '"-c"); [constructor; [now left|constructor]|apply W; [reflexivity|discriminate..]].
Qed.

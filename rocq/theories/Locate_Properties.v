(** Properties C79 (from a measured unit to its entry) and C80 (from an entry to its trace). *)
From Coq Require Import String.
From Verif Require Import Base Asylum_Model Asylum_Spec.
From Verif Require Import Cpp_Lex_Model Cpp_Lex_Spec Cpp_Lex_Proofs4 Cmd_Model Cmd_Spec Cmd_Proofs Cmd_Properties.
From Verif Require Import Csv_Model Csv_Spec Csv_Properties.
From Verif Require Import Shell_Model Locate_Model Locate_Spec Locate_Proofs Locate_Proofs2 Locate_Proofs3.
Local Open Scope nat_scope.
Local Open Scope bool_scope.
Local Open Scope list_scope.
Local Notation "' s" := (of_string s) (at level 0, s at level 0).

(** The path that is stored for a unit with an absolute input names the same file as the input,
    whatever symbolic links and `..` the input has. *)
Theorem C79_stored_path_names_the_input :
  forall links fs cwd input p, real_directory fs cwd -> path_has_root input = true ->
  names_place links fs cwd input p -> p <> cwd ->
  names_place links fs cwd (unit_path (Some cwd) input) p.
Proof. exact unit_path_same. Qed.
Print Assumptions C79_stored_path_names_the_input.

(** It is relative: up to the last directory in common with the current one, and down. *)
Theorem C79_stored_path_is_relative :
  forall input common here there,
  path_components input = RootDir :: map Normal (common ++ there) -> path_has_root input = true ->
  Forall real_name (common ++ here) -> (forall x a b, there = x :: a -> here = x :: b -> False) -> there ++ here <> [] ->
  path_components (unit_path (Some (common ++ here)) input) = repeat ParentDir (List.length here) ++ map Normal there.
Proof. intros input common here there. exact (unit_path_stored input common there here). Qed.
Print Assumptions C79_stored_path_is_relative.

(** If the input is the real path of a file, the unit leads to its entry again (the last one, if
    there are several). *)
Theorem C79_measured_unit_is_found :
  forall links fs cwd query now l clangpp granularity p e,
  real_directory fs cwd -> real_file fs p ->
  same_path (e_file e) (render p) -> last_for l (render p) e ->
  show_wizard links fs (Some cwd) query now (from_entries l) clangpp granularity
    (unit_path (Some cwd) (e_file e)) =
  entry_wizard links fs (Some cwd) query now clangpp granularity e.
Proof. exact measured_unit_found. Qed.
Print Assumptions C79_measured_unit_is_found.

(** The same after the profile was saved and loaded. *)
Theorem C79_loaded_unit_is_found :
  forall show read links fs cwd query now l clangpp granularity (ms : list (entry * N * option duration)) text,
  prints_and_reads show read -> real_directory fs cwd ->
  (forall e rss time, In (e, rss, time) ms ->
     (rss < 2 ^ 64)%N /\ (forall d, time = Some d -> (d <= max_duration)%N) /\
     exists p, real_file fs p /\ same_path (e_file e) (render p) /\ last_for l (render p) e) ->
  save show (map (fun '(e, rss, time) => measured (unit_path (Some cwd) (e_file e), rss, time)) ms) = Some text ->
  exists vs, load read (Some text) = inl vs /\
    Forall2 (fun '(e, _, _) v => exists path, r_path v = PText path /\
      show_wizard links fs (Some cwd) query now (from_entries l) clangpp granularity path =
      entry_wizard links fs (Some cwd) query now clangpp granularity e) ms vs.
Proof.
  intros show read links fs cwd query now l cl g ms text Hpr Hc Hms Hs.
  pose (ms' := map (fun '(e, rss, time) => (unit_path (Some cwd) (e_file e), rss, time)) ms : list (str * N * option duration)).
  assert (E : map (fun '(e, rss, time) => measured (unit_path (Some cwd) (e_file e), rss, time)) ms = map measured ms').
  { unfold ms'. rewrite map_map. apply map_ext. intros [[e n] t]. reflexivity. }
  rewrite E in Hs. destruct (C77_measured_units_are_loaded show read ms' text Hpr) as (vs & L & F); [|exact Hs|].
  - intros path rss time I. unfold ms' in I. apply in_map_iff in I as ([[e n] t] & X & I). injection X as <- <- <-.
    destruct (Hms e n t I) as (A & B & _). now split.
  - exists vs. split; [exact L|]. clear Hs L E. unfold ms' in F. clear ms'. revert vs F.
    induction ms as [|[[e n] t] ms IH]; intros vs F; cbn [map] in F; inversion F as [|? v ? vs' H1 H2]; subst; [constructor|].
    constructor.
    + destruct H1 as [H1 _]. exists (unit_path (Some cwd) (e_file e)). split; [exact H1|].
      destruct (Hms e n t (or_introl eq_refl)) as (_ & _ & p & P1 & P2 & P3). now apply (measured_unit_found links fs cwd query now l cl g p e).
    + apply IH; [|exact H2]. intros e' n' t' I. exact (Hms e' n' t' (or_intror I)).
Qed.
Print Assumptions C79_loaded_unit_is_found.

(** In general, what is found is the last entry whose input is the real path of the file that
    the unit names; it is an error if there is no such file, or no such entry. *)
Theorem C79_what_is_found :
  forall links fs cwd query now l clangpp granularity rel,
  let w := show_wizard links fs (Some cwd) query now (from_entries l) clangpp granularity rel in
  (forall p e, names_place links fs cwd rel p -> last_for l (render p) e ->
     w = entry_wizard links fs (Some cwd) query now clangpp granularity e) /\
  (forall p, names_place links fs cwd rel p -> (forall e, In e l -> ~ same_path (e_file e) (render p)) ->
     w = UnknownUnit) /\
  ((forall p, ~ names_place links fs cwd rel p) -> w = UnknownPath).
Proof.
  intros links fs cwd query now l cl g rel w. split; [|split].
  - intros p e H. exact (proj1 (wizard_place links fs cwd query now l cl g rel p H) e).
  - intros p H. exact (proj2 (wizard_place links fs cwd query now l cl g rel p H)).
  - intros H. exact (wizard_no_place links fs cwd query now l cl g rel H).
Qed.
Print Assumptions C79_what_is_found.

(** Example: /src/a.cpp, /build, and /link -> src *)
Definition fs1 (p : list str) : option node :=
  if match p with [] => true | _ => false end then Some Directory
  else if list_eq_dec (list_eq_dec N.eq_dec) p ['"src"] then Some Directory
  else if list_eq_dec (list_eq_dec N.eq_dec) p ['"build"] then Some Directory
  else if list_eq_dec (list_eq_dec N.eq_dec) p ['"src"; '"a.cpp"] then Some RegularFile
  else if list_eq_dec (list_eq_dec N.eq_dec) p ['"link"] then Some (SymLink '"src")
  else None.
Definition unit1 (file : string) : entry :=
  {| e_directory := '"/build"; e_words := ['"c++"; '"-o"; '"a.o"]; e_file := of_string file; e_output := None |}.
Lemma build1 : real_directory fs1 ['"build"].
Proof.
  split; [repeat constructor; try discriminate; cbn; intuition discriminate|].
  intros [|[|k]]; reflexivity.
Qed.
Example C79_witness :
  real_directory fs1 ['"build"] /\ real_file fs1 ['"src"; '"a.cpp"] /\
  unit_path (Some ['"build"]) '"/src//a.cpp" = '"../src/a.cpp" /\
  same_path (e_file (unit1 "/src//a.cpp")) (render ['"src"; '"a.cpp"]) /\
  last_for [unit1 "/src//a.cpp"] (render ['"src"; '"a.cpp"]) (unit1 "/src//a.cpp") /\
  names_place 1 fs1 ['"build"] '"/link/a.cpp" ['"src"; '"a.cpp"].
Proof.
  split; [exact build1|]. split.
  { exists ['"src"], '"a.cpp". split; [reflexivity|]. split.
    - split; [repeat constructor; try discriminate; cbn; intuition discriminate|]. intros [|[|k]]; reflexivity.
    - split; [|reflexivity]. repeat split; try discriminate. cbn. intuition discriminate. }
  split; [vm_compute; reflexivity|]. split; [vm_compute; reflexivity|]. split.
  - exists [], []. split; [reflexivity|]. split; [vm_compute; reflexivity|intros ? []].
  - apply canonicalize_iff. vm_compute. reflexivity.
Qed.

(** An input that goes through a symbolic link is not found, nor is a relative one. *)
Theorem C79_linked_inputs_refuted :
  ~ forall links fs cwd query now l clangpp granularity p e,
      real_directory fs cwd -> real_file fs p -> path_has_root (e_file e) = true ->
      names_place links fs cwd (e_file e) p -> last_for l (e_file e) e ->
      show_wizard links fs (Some cwd) query now (from_entries l) clangpp granularity
        (unit_path (Some cwd) (e_file e)) <> UnknownUnit.
Proof.
  intros H. destruct C79_witness as (Hd & Hf & _ & _ & _ & Hn).
  apply (H 1 fs1 _ (fun _ => MNotFound) 0%Z [unit1 "/link/a.cpp"] [] None _ (unit1 "/link/a.cpp") Hd Hf eq_refl Hn).
  - exists [], []. split; [reflexivity|]. split; [reflexivity|intros ? []].
  - vm_compute. reflexivity.
Qed.
Print Assumptions C79_linked_inputs_refuted.
Theorem C79_relative_inputs_refuted :
  ~ forall links fs cwd query now l clangpp granularity p e,
      real_directory fs cwd -> real_file fs p -> path_has_root (e_file e) = false ->
      names_place links fs cwd (e_file e) p -> last_for l (e_file e) e ->
      show_wizard links fs (Some cwd) query now (from_entries l) clangpp granularity
        (unit_path (Some cwd) (e_file e)) <> UnknownUnit.
Proof.
  intros H. destruct C79_witness as (Hd & Hf & _ & _ & _ & _).
  apply (H 1 fs1 _ (fun _ => MNotFound) 0%Z [unit1 "../src/a.cpp"] [] None _ (unit1 "../src/a.cpp") Hd Hf eq_refl).
  - apply canonicalize_iff. vm_compute. reflexivity.
  - exists [], []. split; [reflexivity|]. split; [reflexivity|intros ? []].
  - vm_compute. reflexivity.
Qed.
Print Assumptions C79_relative_inputs_refuted.

(** ** C80 *)

(** The trace of an entry is next to its output, with the extension json.  A fresh one (older
    than no input, and less than a minute old) is shown at once.  Otherwise the user decides;
    measuring it is done by the command of the entry, and is the default if there is no trace. *)
Theorem C80_trace_of_an_entry :
  forall links fs cwd query now clangpp granularity e,
  let w := entry_wizard links fs cwd query now clangpp granularity e in
  match entry_output (canonical_components links fs cwd) e with
  | None => w = UnknownOutput
  | Some out =>
      exists trace command,
        (forall par name, out = par ++ [Normal name] ->
           exists t, trace_name name t /\ path_components trace = par ++ [Normal t]) /\
        p_program command = clangpp /\ p_cwd command = e_directory e /\
        (exists options, p_args command = '"-ftime-trace" :: options ++ skipn 1 (e_words e) /\
           match granularity with
           | None => options = []
           | Some g => exists ds, are_digits ds /\ digits_value ds = Z.of_N g /\
                         options = ['"-ftime-trace-granularity=" ++ digits_text ds]
           end) /\
        match product_freshness query now [e_file e] trace with
        | IoErr => w = UnknownFreshness
        | IoOk Nonexistent =>
            w = Ask '"It looks like this build has not been profiled yet. Ready to do so?"
                  '"Yes" '"No" (Measure command trace) Nothing
        | IoOk Outdated =>
            w = Ask '"There is an existing build profile, but it is not up to date with respect to current source code. Use it anyway?"
                  '"Reuse" '"Measure" (Load trace) (Measure command trace)
        | IoOk (MaybeOutdated None) =>
            exists question, w = Ask question '"Reuse" '"Measure" (Load trace) (Measure command trace)
        | IoOk (MaybeOutdated (Some age)) =>
            (0 <= age)%Z /\
            ((age < 60 * seconds_ns)%Z -> w = Go (Load trace)) /\
            ((60 * seconds_ns <= age)%Z ->
               exists t, age_text age t /\
               w = Ask ('"There is an existing build profile from " ++ t ++ '" ago. Do you consider it up to date?")
                     '"Reuse" '"Measure" (Load trace) (Measure command trace))
        end
  end.
Proof.
  intros links fs cwd query now cl g e w.
  assert (E : w = entry_wizard links fs cwd query now cl g e) by reflexivity. clearbody w. unfold entry_wizard in E.
  destruct (entry_output (canonical_components links fs cwd) e) as [out|] eqn:Eo; [|exact E]. cbv zeta in E.
  exists (components_text (set_json out)), (entry_trace_command cl g e). split.
  { intros par name ->. exact (trace_path _ _ _ _ _ _ Eo). }
  split; [reflexivity|]. split; [reflexivity|]. split.
  { unfold entry_trace_command. cbn [p_args]. eexists. split; [reflexivity|]. destruct g as [g|]; [|reflexivity].
    destruct (shown_digits g) as (ds & E1 & E2 & E3). exists ds. rewrite E1. auto. }
  unfold derived_freshness in E. destruct (product_freshness query now [e_file e] _) as [[| |[age|]]|] eqn:F.
  - exact E.
  - exact E.
  - assert (Ha : (0 <= age)%Z).
    { clear - F. unfold product_freshness, check_inputs in F.
      destruct (query (components_text (set_json out))) as [p| |]; try discriminate.
      destruct (query db_location) as [t| |]; try discriminate. destruct (p <? t)%Z; [discriminate|].
      destruct (query (e_file e)) as [t'| |]; try discriminate. destruct (p <? t')%Z; [discriminate|].
      destruct (Z.leb_spec p now) as [L|L]; [|discriminate]. injection F as <-. lia. }
    split; [exact Ha|]. destruct (C50_prompt (MaybeOutdated (Some age)) false) as [P _].
    destruct (from_freshness (MaybeOutdated (Some age)) false) as [q|] eqn:Q.
    + split.
      * intros L. exfalso. assert (X : Some q = None); [|discriminate]. apply P.
        eexists. split; [reflexivity|]. right. exists age. split; [reflexivity|]. unfold ns_per_s, seconds_ns in *. lia.
      * intros L. assert (exists mins, q = MaybeStaleProfile mins) as [mins ->].
        { unfold from_freshness in Q. destruct (_ && _); [|discriminate]. injection Q as <-. eauto. }
        destruct (age_shown age mins Ha Q) as (t & Ht & X). exists t. split; [exact Ht|]. rewrite E, X. reflexivity.
    + split; [intros _; exact E|]. intros L. exfalso. destruct (proj1 P eq_refl) as (a & X & [Y|(d & Y & Z)]); [discriminate|].
      injection X as <-. injection Y as <-. unfold ns_per_s, seconds_ns in *. lia.
  - assert (exists mins, from_freshness (MaybeOutdated None) false = Some (MaybeStaleProfile mins)) as [mins Q] by (eexists; reflexivity).
    rewrite Q in E. eexists. exact E.
  - exact E.
Qed.
Print Assumptions C80_trace_of_an_entry.

(** If the entry is that of a command, this is the command of C78. *)
Theorem C80_command_of_an_entry :
  forall links fs cwd query now clangpp granularity job question default other a b command trace,
  entry_wizard links fs cwd query now clangpp granularity (job_entry job) = Ask question default other a b ->
  a = Measure command trace \/ b = Measure command trace ->
  command = trace_command clangpp granularity job.
Proof.
  intros links fs cwd query now cl g job q d o a b c t. unfold entry_wizard.
  destruct (entry_output _ _) as [out|]; [|discriminate]. cbv zeta.
  destruct (derived_freshness _ _ _ _) as [fr|]; [|discriminate].
  destruct (from_freshness fr false) as [p|]; [|discriminate]. intros E. injection E as _ _ _ <- <-.
  assert (G : forall x, on_reply fr (entry_trace_command cl g (job_entry job)) (components_text (set_json out)) x = Measure c t ->
    c = trace_command cl g job).
  { intros x. unfold on_reply. destruct x; [intros E; injection E as <- _; reflexivity|]. destruct (product_exists fr); discriminate. }
  intros [H|H]; exact (G _ H).
Qed.
Print Assumptions C80_command_of_an_entry.

(** Nothing is measured without asking, or to a trace that was found fresh. *)
Theorem C80_never_measured_unasked :
  forall links fs cwd query now l clangpp granularity rel command trace,
  show_wizard links fs cwd query now l clangpp granularity rel <> Go (Measure command trace).
Proof.
  intros links fs cwd query now l cl g rel c t. unfold show_wizard, entry_wizard.
  destruct (canonicalize _ _ _ _); [|discriminate]. destruct (db_entry _ _); [|discriminate].
  destruct (entry_output _ _); [|discriminate]. cbv zeta. destruct (derived_freshness _ _ _ _); [|discriminate].
  destruct (from_freshness _ _); discriminate.
Qed.
Print Assumptions C80_never_measured_unasked.

Example C80_witness :
  let e := unit1 "/src/a.cpp" in
  let query p := if str_eqb p '"/build/a.json" then MTime (5 * 60 * seconds_ns) else MTime 0 in
  let command := mkProcess '"clang++" ['"-ftime-trace"; '"-ftime-trace-granularity=100"; '"-o"; '"a.o"] '"/build" in
  entry_output (canonical_components 9 fs1 (Some ['"build"])) e = Some [RootDir; Normal '"build"; Normal '"a.o"] /\
  show_wizard 9 fs1 (Some ['"build"]) query (7 * 60 * seconds_ns + 5) (from_entries [e]) '"clang++" (Some 100%N) '"../src/a.cpp" =
    Ask '"There is an existing build profile from 2min ago. Do you consider it up to date?"
      '"Reuse" '"Measure" (Load '"/build/a.json") (Measure command '"/build/a.json") /\
  show_wizard 9 fs1 (Some ['"build"]) query (5 * 60 * seconds_ns + 5) (from_entries [e]) '"clang++" (Some 100%N) '"../src/a.cpp" =
    Go (Load '"/build/a.json") /\
  trace_name '"a.cpp.o" '"a.cpp.json".
Proof.
  split; [vm_compute; reflexivity|]. split; [vm_compute; reflexivity|]. split; [vm_compute; reflexivity|].
  exists '"a.cpp". split; [reflexivity|]. left. split; [discriminate|]. exists '"o". split; [reflexivity|].
  cbn. intuition discriminate.
Qed.

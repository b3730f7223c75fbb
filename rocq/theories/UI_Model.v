(** Model of the display layer shared by the stdio and textual interfaces:
    src/ui/display/{mod,path,activity,metadata,duration}.rs, and of src/ui/stdio.rs.

    Simplifications (all of them apply to the whole file):
    - Terminal widths come from the unicode-width crate and grapheme boundaries from the
      unicode-segmentation crate.  Both are parameters: [w] gives the columns of a string,
      [graphemes] splits a string.  What the theorems need of them is spelt out in UI_Spec.v.
    - `io::Write` sinks never fail; what is written is returned as a string.
    - `debug_assert!` and unsigned underflow panic (debug build), so that "does not panic"
      covers both build profiles. *)
From Coq Require Import String DecimalString.
From Verif Require Import Base Tree_Model.

Definition newline : chr := 10%N.
Definition comma : chr := 44%N.
Definition space : chr := 32%N.

(** `DoubleEndedIterator::next` and `next_back` on the remaining items. *)
Definition pop_front {A} (l : list A) : option (A * list A) :=
  match l with [] => None | x :: r => Some (x, r) end.
Fixpoint pop_back {A} (l : list A) : option (A * list A) :=
  match l with
  | [] => None
  | x :: r => match pop_back r with None => Some (x, []) | Some (y, r') => Some (y, x :: r') end
  end.

(** Unsigned subtraction; panics on underflow (debug build). *)
Definition usub (a b : nat) : outcome nat := if Nat.leb b a then Ret (a - b) else Panic.

Definition b2n (b : bool) : nat := if b then 1 else 0.

(** src/ui/display/mod.rs:14-40 (the header and trailer column counts of MultiLine are not
    used by any display of the code, they are left out) *)
Inductive display_config := SingleLine (max_cols : nat) | MultiLine.

Section Display.
  Variable w : str -> nat.                     (* UnicodeWidthStr::width *)
  Variable graphemes : str -> list str.        (* UnicodeSegmentation::graphemes(true) *)

  (** src/ui/display/path.rs:203-208; PATH_SEPARATOR is '/' (Unix) *)
  Definition root_component : str := [slash].

  (** src/ui/display/path.rs:78 *)
  Definition min_filename_width : nat := 15.

  (** src/ui/display/path.rs:97-147.  Each iteration takes a component from [rem], hence
      [fuel] = 1 + number of components suffices (running out of fuel is a panic). *)
  Fixpoint select_loop (fuel num : nat) (rem : list str) (cols af ab : nat)
      (front other_side_full : bool) : outcome (nat * nat) :=
    match fuel with
    | 0 => Panic
    | S fuel' =>
        match (if front then pop_front rem else pop_back rem) with
        | None => Ret (af, ab)
        | Some (candidate, rem') =>
            let is_last := Nat.eqb (af + ab) (num - 1) in
            let need_separator := negb (is_last || str_eqb candidate root_component) in
            let width_with_separator := w candidate + b2n need_separator in
            obind (usub cols (b2n (negb is_last))) (fun available =>
              let fitting := Nat.leb width_with_separator available in
              let af' := if fitting && front then S af else af in
              let ab' := if fitting && negb front then S ab else ab in
              let cols' := if fitting then cols - width_with_separator else cols in
              let front' := xorb front (negb other_side_full) in
              if fitting then select_loop fuel' num rem' cols' af' ab' front' other_side_full
              else if other_side_full then Ret (af', ab')
              else select_loop fuel' num rem' cols' af' ab' front' true)
        end
    end.

  (** src/ui/display/path.rs:82-149 *)
  Definition select_components (comps : list str) (cols : nat) : outcome (nat * nat) :=
    select_loop (S (length comps)) (length comps) comps cols 0 0 false false.

  (** src/ui/display/path.rs:163-172: n front components and their separators *)
  Fixpoint display_front (n : nat) (comps : list str) (buffer : str) : outcome (str * list str) :=
    match n with
    | 0 => Ret (buffer, comps)
    | S n' =>
        obind (expect (pop_front comps)) (fun '(component, rem) =>
          display_front n' rem
            (buffer ++ component ++ (if str_eqb component root_component then [] else [slash])))
    end.

  (** src/ui/display/path.rs:187-196: n back components and their separators *)
  Fixpoint display_back (n : nat) (comps : list str) (buffer : str) : outcome str :=
    match n with
    | 0 => Ret buffer
    | S n' =>
        obind (expect (pop_front comps)) (fun '(component, rem) =>
          display_back n' rem (buffer ++ [slash] ++ component))
    end.

  (** src/ui/display/path.rs:152-200 *)
  Definition display_components (comps : list str) (accepted : nat * nat) : outcome str :=
    let '(af, ab) := accepted in
    obind (display_front af comps []) (fun '(buffer, rem) =>
      obind (usub (length comps) (af + ab)) (fun elided =>
        if Nat.ltb 0 elided
        then display_back ab (skipn elided rem) (buffer ++ [ellipsis])
        else display_back ab rem (removelast buffer))).   (* String::pop *)

  (** src/ui/display/path.rs:228-235: front graphemes of a file name; returns the text, the
      graphemes left (a grapheme that does not fit has been taken and is lost) and the
      columns left *)
  Fixpoint front_graphemes (gs : list str) (rem_cols : nat) : str * list str * nat :=
    match gs with
    | [] => ([], [], rem_cols)
    | g :: gs' =>
        if Nat.leb (w g) rem_cols
        then let '(s, rest, rem') := front_graphemes gs' (rem_cols - w g) in (g ++ s, rest, rem')
        else ([], gs', rem_cols)
    end.

  (** src/ui/display/path.rs:243-255 (also the suffix loop of display_string): back
      graphemes, given from the last one; returns them in text order and their width *)
  Fixpoint back_graphemes (rev_gs : list str) (cols : nat) : str * nat :=
    match rev_gs with
    | [] => ([], 0)
    | g :: gs' =>
        if Nat.leb (w g) cols
        then let '(s, used) := back_graphemes gs' (cols - w g) in (s ++ g, w g + used)
        else ([], 0)
    end.

  (** src/ui/display/path.rs:211-257 *)
  Definition display_filename (file_name : str) (cols : nat) : outcome str :=
    if Nat.leb 3 cols && Nat.ltb cols (w file_name + 2) then
      obind (usub cols (w [ellipsis; slash] + 1)) (fun cols =>
        let max_front := cols / 2 in
        let '(front, rest, rem_front) := front_graphemes (graphemes file_name) max_front in
        obind (usub cols (max_front - rem_front)) (fun cols =>
          Ret ([ellipsis; slash] ++ front ++ [ellipsis] ++ fst (back_graphemes (rev rest) cols))))
    else Panic.

  (** src/ui/display/path.rs:35-69 *)
  Definition truncate_path (comps : list str) (cols : nat) : outcome str :=
    if Nat.ltb 0 cols then
      obind (select_components comps cols) (fun '(af, ab) =>
        obind (if Nat.ltb 0 ab then display_components comps (af, ab)
               else if Nat.leb (min_filename_width + 2) cols
               then obind (expect (pop_back comps)) (fun '(name, _) => display_filename name cols)
               else Ret [ellipsis]) (fun result =>
          if Nat.leb (w result) cols then Ret result else Panic))   (* debug_assert, 63-66 *)
    else Panic.

  (** `Path::display` of the components pushed on a PathBuf: the root is the first
      component if any, the others are joined by separators. *)
  Fixpoint intersperse (comps : list str) : str :=
    match comps with
    | [] => []
    | [c] => c
    | c :: r => c ++ [slash] ++ intersperse r
    end.
  Definition full_path (comps : list str) : str :=
    match comps with
    | c :: r => if str_eqb c root_component then root_component ++ intersperse r
                else intersperse comps
    | [] => []
    end.

  (** src/ui/display/path.rs:24-31 *)
  Definition display_path (comps : list str) (config : display_config) : outcome str :=
    match config with
    | SingleLine max_cols => truncate_path comps max_cols
    | MultiLine => Ret (full_path comps)
    end.

  (** src/ui/display/mod.rs:66-76: longest prefix of graphemes within [max]; text and width *)
  Fixpoint header_graphemes (gs : list str) (max acc : nat) : str * nat :=
    match gs with
    | [] => ([], acc)
    | g :: gs' =>
        if Nat.leb (acc + w g) max
        then let '(s, cols) := header_graphemes gs' max (acc + w g) in (g ++ s, cols)
        else ([], acc)
    end.
  (** src/ui/display/mod.rs:82-93: longest suffix, graphemes given from the last one *)
  Fixpoint trailer_graphemes (rev_gs : list str) (max acc : nat) : str :=
    match rev_gs with
    | [] => []
    | g :: gs' =>
        if Nat.leb (acc + w g) max
        then trailer_graphemes gs' max (acc + w g) ++ g
        else []
    end.

  (** src/ui/display/mod.rs:44-97 *)
  Definition display_string (input : str) (config : display_config) : outcome str :=
    match config with
    | MultiLine => Ret input
    | SingleLine max_cols =>
        if Nat.leb (w input) max_cols then Ret input
        else if negb (existsb (fun c => N.eqb c 10 || N.eqb c 13) input) && Nat.leb 1 max_cols then
          let '(header, header_cols) := header_graphemes (graphemes input) ((max_cols - 1) / 2) 0 in
          obind (usub (max_cols - 1) header_cols) (fun max_trailer =>
            Ret (header ++ [ellipsis] ++ trailer_graphemes (rev (graphemes input)) max_trailer 0))
        else Panic
    end.

  (** clang-time-trace/src/stats/activity/argument.rs: ActivityArgument, with the C++
      entities (CppEntity and Symbol::Parsed) left abstract: an entity is the pair of its
      bounded and unbounded display (cpparser). *)
  Inductive argument :=
  | ANothing
  | AUnnamedLoop
  | AModule
  | AString (s : str)                      (* String, Demangled and MaybeMangled symbols *)
  | AFilePath (comps : list str)
  | ACpp (bounded : nat -> str) (full : str).

  Definition has_argument (a : argument) : bool :=
    match a with ANothing => false | _ => true end.

  (** Result of display_activity_desc: wrapping hint or NotEnoughCols, and the text
      written so far. *)
  Inductive desc_result := DOk (should_wrap : bool) (text : str) | DNotEnoughCols (cols : nat).

  (** src/ui/display/activity.rs:69-95 *)
  Definition display_arg (arg : argument) (config : display_config) : outcome str :=
    match arg with
    | ANothing => Panic
    | AUnnamedLoop => display_string (of_string "<unnamed loop>") config
    | AModule => display_string (of_string "[module]") config
    | AString s => display_string s config
    | AFilePath p => display_path p config
    | ACpp bounded full =>
        match config with SingleLine max_cols => Ret (bounded max_cols) | MultiLine => Ret full end
    end.

  (** src/ui/display/activity.rs:20-98; `'('.width()` is 1.  The cast to u16 of the name
      width does not truncate since the name was just checked to fit in a u16. *)
  Definition display_activity_desc (name : str) (arg : argument) (config : display_config)
    : outcome desc_result :=
    let finish config should_wrap :=
      if has_argument arg
      then obind (display_arg arg config) (fun s =>
             Ret (DOk should_wrap (name ++ of_string "(" ++ s ++ of_string ")")))
      else Ret (DOk should_wrap name) in
    match config with
    | SingleLine max_cols =>
        if Nat.ltb max_cols (w name + 3 * b2n (has_argument arg))
        then Ret (DNotEnoughCols max_cols)
        else finish (SingleLine (max_cols - (w name + 2))) false
    | MultiLine => finish MultiLine true
    end.

  (** src/ui/stdio.rs:253-304; [trailer] is what display_profile_info wrote *)
  Definition display_activity (name : str) (arg : argument) (max_cols : nat) (trailer : str)
    : outcome str :=
    if Nat.leb 1 max_cols then
      let other_cols := max_cols - w trailer in
      obind (display_activity_desc name arg (SingleLine other_cols)) (fun r =>
        match r with
        | DOk false text => Ret (text ++ trailer)
        | DOk true _ => Panic
        | DNotEnoughCols _ =>
            obind (display_activity_desc name arg (SingleLine max_cols)) (fun r =>
              match r with
              | DOk false text => Ret text
              | DOk true _ => Panic
              | DNotEnoughCols _ => Ret [ellipsis]
              end)
        end)
    else Panic.

  (** src/ui/display/metadata.rs:23-43: the successive calls of `display_more` *)
  Fixpoint display_more (eff : nat) (buf : str) (last_line_width : nat) (extras : list str) : str :=
    match extras with
    | [] => buf
    | extra :: r =>
        let extra := if Nat.ltb eff (w extra) then [ellipsis] else extra in
        let width := S last_line_width in
        if Nat.ltb eff (width + 1 + w extra)
        then display_more eff (buf ++ [comma; newline] ++ extra) (w extra) r
        else display_more eff (buf ++ [comma; space] ++ extra) (width + 1 + w extra) r
    end.

  (** The time crate accepts and formats (RFC 3339) the dates of years 0 to 9999, given here
      in microseconds from 1970; metadata.rs:53-56 unwraps both steps.  The text itself is
      left abstract. *)
  Definition date_in_range (us : Z) : bool :=
    ((-62167219200 <=? us / 1000000) && (us / 1000000 <=? 253402300799))%Z.
  Variable rfc3339 : Z -> str.
  Variable debug_str : str -> str.              (* `{:?}` of a string *)

  (** Decimal digits of a number: `{}` *)
  Definition digits (n : Z) : str :=
    (if (n <? 0)%Z then of_string "-" else []) ++
    of_string (DecimalString.NilEmpty.string_of_uint (N.to_uint (Z.abs_N n))).

  (** src/ui/display/metadata.rs:44-58: what is passed to `display_more` *)
  Definition metadata_extras (pid : option Z) (thread : option str) (bot : option Z)
    : outcome (list str) :=
    obind (match bot with
           | None => Ret []
           | Some us => if date_in_range us then Ret [of_string "recorded " ++ rfc3339 us] else Panic
           end) (fun recorded =>
      Ret (match pid with None => [] | Some p => [of_string "pid " ++ digits p] end ++
           match thread with None => [] | Some t => [of_string "thread " ++ debug_str t] end ++
           recorded)).

  (** src/ui/display/metadata.rs:9-61.  (The date is only formatted after the early return
      of line 21 was not taken.) *)
  Definition metadata (process_name : str) (pid : option Z) (thread : option str)
      (bot : option Z) (max_cols : nat) : outcome str :=
    if Nat.leb 1 max_cols then
      let eff := max_cols - 1 in
      let buf := of_string "Data from " ++ process_name in
      if Nat.ltb eff (w buf) then Ret [ellipsis]
      else obind (metadata_extras pid thread bot) (fun extras =>
             Ret (display_more eff buf (w buf) extras ++ [dot]))
    else Panic.
End Display.

(** ** Profile lines (src/ui/stdio.rs:167-250) *)

(** What the profile shows of an activity and of the activities it directly caused. *)
Inductive act_tree :=
| Act (name : str) (arg : argument) (trailer : str) (relative : Z) (children : list act_tree).

(** termtree::Tree *)
Inductive text_tree := TT (label : str) (leaves : list text_tree).

Section Hierarchical.
  Variable w : str -> nat.
  Variable graphemes : str -> list str.
  (** `hottest_activities(direct_children, relative duration, threshold)`, modelled below;
      kept as a parameter here. *)
  Variable hottest : list act_tree -> list act_tree.
  (** text of the terminator for a number of hidden children *)
  Variable terminator : nat -> str.

  Fixpoint omap {A B} (f : A -> outcome B) (l : list A) : outcome (list B) :=
    match l with
    | [] => Ret []
    | x :: r => obind (f x) (fun y => obind (omap f r) (fun ys => Ret (y :: ys)))
    end.

  (** src/ui/stdio.rs:167-250.  The glyphs are one column wide each (lines 146-153), so
      that children get two columns less; [fuel] bounds the depth: the column budget does. *)
  Fixpoint profile_tree (fuel : nat) (root : act_tree) (max_cols : nat) : outcome text_tree :=
    match fuel with
    | 0 => Panic
    | S fuel' =>
        let '(Act name arg trailer _ children) := root in
        obind (display_activity w graphemes name arg max_cols trailer) (fun label =>
          let child_cols := max_cols - 1 - 1 in
          if Nat.eqb child_cols 0 then Ret (TT label [])
          else
            let hot := hottest children in
            obind (omap (fun c => profile_tree fuel' c child_cols) hot) (fun leaves =>
              if Nat.eqb (length hot) (length children) then Ret (TT label leaves)
              else
                obind (usub (length children) (length hot)) (fun hidden =>
                  let t := terminator hidden in
                  let t := if Nat.ltb child_cols (w t) then [ellipsis] else t in
                  Ret (TT label (leaves ++ [TT t []])))))
    end.
  Definition hierarchical_profile_tree (root : act_tree) (max_cols : nat) : outcome text_tree :=
    profile_tree (S max_cols) root max_cols.
End Hierarchical.

(** termtree 0.4.1's `Display` with the palette of src/ui/stdio.rs:146-153: one line per
    node; [prefix] is what the ancestors put before the glyphs of this level. *)
Definition middle_item : chr := 9500%N.   (* ├ *)
Definition last_item : chr := 9492%N.     (* └ *)
Definition item_indent : chr := 9472%N.   (* ─ *)
Definition middle_skip : chr := 9474%N.   (* │ *)
Fixpoint tree_lines (prefix : str) (t : text_tree) : list str :=
  let '(TT _ leaves) := t in
  (fix go (ls : list text_tree) : list str :=
     match ls with
     | [] => []
     | (TT l sub) as t' :: r =>
         let is_last := match r with [] => true | _ => false end in
         ((prefix ++ [if is_last then last_item else middle_item; item_indent] ++ l)
            :: tree_lines (prefix ++ [if is_last then space else middle_skip; space]) t') ++ go r
     end) leaves.
Definition render_tree (t : text_tree) : list str :=
  let '(TT l _) := t in l :: tree_lines [] t.

(** ** Statistics (src/trace.rs) *)
Section Stats.
  (** A sort of the standard library: which order equal elements end up in is unspecified
      (`sort_unstable_by`), hence a parameter. *)
  Variable sort_desc : forall {A : Type}, (A -> Z) -> list A -> list A.

  (** src/trace.rs:18-21: `*entry(name).or_default() += d` *)
  Fixpoint add_entry (profile : list (str * Z)) (name : str) (d : Z) : list (str * Z) :=
    match profile with
    | [] => [(name, d)]
    | (n, t) :: r => if str_eqb n name then (n, (t + d)%Z) :: r else (n, t) :: add_entry r name d
    end.
  (** src/trace.rs:14-26, for the activities given as (name, self duration).  The hash map is
      an association list: its iteration order does not matter before a sort whose order
      of equal elements is unspecified anyway. *)
  Definition activity_type_breakdown (activities : list (str * Z)) : list (str * Z) :=
    sort_desc snd (fold_left (fun p a => add_entry p (fst a) (snd a)) activities []).

  (** src/trace.rs:14-26 on a trace whose activities are identified by their name *)
  Definition trace_breakdown (t : tree str) : list (str * Z) :=
    activity_type_breakdown (map (fun n => (s_act (n_stat n), n_self n)) (t_acts t)).

  (** src/trace.rs:34-48 *)
  Definition hottest_activities {A} (activities : list A) (duration : A -> Z) (threshold : Z)
    : list A :=
    sort_desc duration (filter (fun a => (threshold <=? duration a)%Z) activities).
End Stats.

(** ** Durations (src/ui/display/duration.rs)

    Durations are whole microseconds (what clang reports, and sums and differences of
    that), on which f64 arithmetic is exact below 2^53 µs. *)
Section Duration.
  (** Formatting with two decimals: `{:.2}` of num/den prints [round2 num den] hundredths. *)
  Variable round2 : Z -> Z -> Z.

  Local Open Scope Z_scope.
  (** clang-time-trace/src/ctf/mod.rs: MICROSECOND .. DAY *)
  Definition us_second : Z := 1000000.
  Definition us_minute : Z := 60 * us_second.
  Definition us_hour : Z := 60 * us_minute.
  Definition us_day : Z := 24 * us_hour.

  (** src/ui/display/duration.rs:67-71 *)
  Inductive force_hms := FHour | FMinute | FSecond.
  Definition is_force (f : option force_hms) (g : force_hms) : bool :=
    match f, g with
    | Some FHour, FHour | Some FMinute, FMinute | Some FSecond, FSecond => true
    | _, _ => false
    end.

  (** `{:02}` of a whole number *)
  Definition pad2 (n : Z) : str := if n <? 10 then 48%N :: digits n else digits n.
  (** `{:.2}` and `{:05.2}` of [h] hundredths *)
  Definition fixed2 (h : Z) : str := digits (h / 100) ++ [dot] ++ pad2 (h mod 100).
  Definition fixed05_2 (h : Z) : str := pad2 (h / 100) ++ [dot] ++ pad2 (h mod 100).

  (** src/ui/display/duration.rs:12-64.  The recursion goes from days to hours, minutes and
      seconds: [fuel] bounds its depth. *)
  Fixpoint display_duration_impl (fuel : nat) (d : Z) (force : option force_hms) : outcome str :=
    match fuel with
    | O => Panic
    | S fuel' =>
        let max_hms := 23 * us_hour + 59 * us_minute + 59995000 in
        let max_ms := 59 * us_minute + 59995000 in
        let max_s := 59995000 in
        if max_hms <=? d then
          let days := d / us_day in
          let remainder := d - days * us_day in
          let '(days, remainder) :=
            if max_hms <=? remainder then (days + 1, 0) else (days, remainder) in
          obind (display_duration_impl fuel' remainder (Some FHour)) (fun s =>
            Ret (digits days ++ of_string "d " ++ s))
        else if is_force force FHour || (max_ms <=? d) then
          let hours := d / us_hour in
          let remainder := d - hours * us_hour in
          let '(hours, remainder) :=
            if max_ms <=? remainder then (hours + 1, 0) else (hours, remainder) in
          obind (display_duration_impl fuel' remainder (Some FMinute)) (fun s =>
            Ret ((if is_force force FHour then pad2 hours else digits hours) ++ of_string ":" ++ s))
        else if is_force force FMinute || (max_s <=? d) then
          let minutes := d / us_minute in
          let remainder := d - minutes * us_minute in
          let '(minutes, remainder) :=
            if max_s <=? remainder then (minutes + 1, 0) else (minutes, remainder) in
          obind (display_duration_impl fuel' remainder (Some FSecond)) (fun s =>
            Ret ((if is_force force FMinute then pad2 minutes else digits minutes)
                   ++ of_string ":" ++ s))
        else if (999995 <=? d) || is_force force FSecond then
          Ret (if is_force force FSecond then fixed05_2 (round2 d us_second)
               else fixed2 (round2 d us_second) ++ of_string "s")
        else if 1000 <=? d then Ret (fixed2 (round2 d 1000) ++ of_string "ms")
        else Ret (digits d ++ [181%N] ++ of_string "s")      (* µs *)
    end.
  Definition display_duration (d : Z) : outcome str := display_duration_impl 5 d None.
End Duration.

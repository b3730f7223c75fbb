(** The unit tests of the display layer, replayed on the model; see Cpp_Tests.v for what this is
    for.

    Texts of the tests have one column and one grapheme per character.  Not replayed: the two
    durations that are not whole microseconds, the arguments in activity.rs whose display is
    cpparser's. *)
From Coq Require Import String.
From Verif Require Import Base UI_Model.
Local Open Scope nat_scope.
Local Open Scope bool_scope.
Local Open Scope list_scope.

(** "$" stands for the ellipsis character in the texts below *)
Definition txt (s : string) : str :=
  map (fun c => if N.eqb c 36 then ellipsis else c) (of_string s).
Definition w : str -> nat := @List.length chr.
Definition graphemes (s : str) : list str := map (fun c => [c]) s.
(** `for cols in a..b` *)
Definition upto (a b : nat) : list nat := seq a (b - a).
Definition gives (x : outcome str) (s : string) : bool :=
  match x with Ret t => str_eqb t (txt s) | Panic => false end.
Definition width (s : string) : nat := w (txt s).

(** ** src/ui/display/mod.rs:104-156 *)
Example display_string_test :
  let mock := "Coucou, tu veux voir mon string ?"%string in
  forallb (fun c =>
    gives (display_string w graphemes (txt mock) (SingleLine (fst c))) (snd c) &&
    gives (display_string w graphemes (txt mock) MultiLine) mock)
  [(33, mock); (32, "Coucou, tu veux$oir mon string ?"); (31, "Coucou, tu veux$ir mon string ?");
   (29, "Coucou, tu veu$r mon string ?"); (3, "C$?"); (1, "$")]%string = true.
Proof. vm_compute. reflexivity. Qed.

(** ** src/ui/display/path.rs:281-439 *)
Definition short_path : list str := map txt ["/"; "usr"; "include"; "stuff.h"]%string.
Definition long_path : list str := map txt ["/"; "usr"; "include"; "WowSuchALongHeaderName.hpp"]%string.
Definition truncated (p : list str) (a b : nat) (expected : string) : bool :=
  forallb (fun cols => gives (truncate_path w graphemes p cols) expected) (upto a b).
(** :281-302 *)
Example truncate_short_name_test :
  Nat.ltb (width "stuff.h") min_filename_width &&
  truncated short_path 1 (width "$/stuff.h") "$" &&
  truncated short_path (width "$/stuff.h") (width "/$/stuff.h") "$/stuff.h" &&
  truncated short_path (width "/$/stuff.h") (width "/usr/$/stuff.h") "/$/stuff.h" &&
  truncated short_path (width "/usr/$/stuff.h") (width "/$/include/stuff.h") "/usr/$/stuff.h" &&
  truncated short_path (width "/$/include/stuff.h") (width "/usr/include/stuff.h")
    "/$/include/stuff.h" &&
  truncated short_path (width "/usr/include/stuff.h") (width "/usr/include/stuff.h" + 2)
    "/usr/include/stuff.h" = true.
Proof. vm_compute. reflexivity. Qed.
(** :305-363 *)
Example truncate_long_name_test :
  let name := "WowSuchALongHeaderName.hpp"%string in
  Nat.leb min_filename_width (width name) &&
  truncated long_path 1 (min_filename_width + 2) "$" &&
  forallb (fun cols =>
    match truncate_path w graphemes long_path cols, display_filename w graphemes (txt name) cols with
    | Ret a, Ret b => str_eqb a b
    | _, _ => false
    end) (upto (min_filename_width + 2) (width "$/WowSuchALongHeaderName.hpp")) &&
  truncated long_path (width "$/WowSuchALongHeaderName.hpp") (width "/$/WowSuchALongHeaderName.hpp")
    "$/WowSuchALongHeaderName.hpp" &&
  truncated long_path (width "/$/WowSuchALongHeaderName.hpp")
    (width "/usr/$/WowSuchALongHeaderName.hpp") "/$/WowSuchALongHeaderName.hpp" &&
  truncated long_path (width "/usr/$/WowSuchALongHeaderName.hpp")
    (width "/$/include/WowSuchALongHeaderName.hpp") "/usr/$/WowSuchALongHeaderName.hpp" &&
  truncated long_path (width "/$/include/WowSuchALongHeaderName.hpp")
    (width "/usr/include/WowSuchALongHeaderName.hpp") "/$/include/WowSuchALongHeaderName.hpp" &&
  truncated long_path (width "/usr/include/WowSuchALongHeaderName.hpp")
    (width "/usr/include/WowSuchALongHeaderName.hpp" + 2) "/usr/include/WowSuchALongHeaderName.hpp"
  = true.
Proof. vm_compute. reflexivity. Qed.
(** :366-399 *)
Example select_components_test :
  forallb (fun c =>
    let '((a, b), (f, k)) := c in
    forallb (fun cols =>
      match select_components w short_path cols with
      | Ret (x, y) => Nat.eqb x f && Nat.eqb y k
      | Panic => false
      end) (upto a b))
  [((1, width "/$"), (0, 0));
   ((width "/$", width "/usr/$"), (1, 0));
   ((width "/usr/$", width "$/stuff.h"), (2, 0));
   ((width "$/stuff.h", width "/$/stuff.h"), (0, 1));
   ((width "/$/stuff.h", width "/usr/$/stuff.h"), (1, 1));
   ((width "/usr/$/stuff.h", width "/$/include/stuff.h"), (2, 1));
   ((width "/$/include/stuff.h", width "/usr/include/stuff.h"), (1, 2));
   ((width "/usr/include/stuff.h", width "/usr/include/stuff.h" + 2), (2, 2))] = true.
Proof. vm_compute. reflexivity. Qed.
(** :402-424 *)
Example display_components_test :
  forallb (fun c => gives (display_components short_path (fst c)) (snd c))
  [((0, 0), "$"); ((0, 1), "$/stuff.h"); ((0, 2), "$/include/stuff.h"); ((1, 0), "/$");
   ((1, 1), "/$/stuff.h"); ((1, 2), "/$/include/stuff.h"); ((1, 3), "/usr/include/stuff.h");
   ((2, 0), "/usr/$"); ((2, 1), "/usr/$/stuff.h"); ((2, 2), "/usr/include/stuff.h");
   ((3, 0), "/usr/include/$"); ((3, 1), "/usr/include/stuff.h")]%string = true.
Proof. vm_compute. reflexivity. Qed.
(** :427-442 *)
Example display_filename_test :
  forallb (fun c => gives (display_filename w graphemes (txt "stuff.h") (fst c)) (snd c))
  [(3, "$/$"); (4, "$/$h"); (5, "$/s$h"); (6, "$/s$.h"); (7, "$/st$.h"); (8, "$/st$f.h")]%string
  = true.
Proof. vm_compute. reflexivity. Qed.

(** ** src/ui/display/activity.rs:168-359 *)
Definition desc (name : string) (arg : argument) (c : nat * string) : bool :=
  match display_activity_desc w graphemes (txt name) arg (SingleLine (fst c)) with
  | Ret (DOk false text) => str_eqb text (txt (snd c)) && negb (str_eqb text [])
  | Ret (DNotEnoughCols cols) => Nat.eqb cols (fst c) && str_eqb [] (txt (snd c))
  | _ => false
  end.
Example activity_desc_test :
  forallb (desc "ExecuteCompiler" ANothing) [(14, ""); (15, "ExecuteCompiler")]%string &&
  forallb (desc "RunPass" (AString (txt "Loop Pass Manager")))
    [(9, ""); (10, "RunPass($)"); (25, "RunPass(Loop Pa$ Manager)");
     (26, "RunPass(Loop Pass Manager)")]%string &&
  forallb (desc "Source" (AFilePath (map txt ["/"; "usr"; "include"; "features.h"]%string)))
    [(8, ""); (9, "Source($)"); (19, "Source($)"); (20, "Source($/features.h)");
     (21, "Source(/$/features.h)"); (24, "Source(/$/features.h)");
     (25, "Source(/usr/$/features.h)"); (28, "Source(/usr/$/features.h)");
     (29, "Source(/$/include/features.h)"); (30, "Source(/$/include/features.h)");
     (31, "Source(/usr/include/features.h)")]%string &&
  forallb (desc "LoopUnrollPass" (AString (txt "std::vector<std::bitset<36>, std::allocator<std::bitset<36> > >::_M_realloc_insert<>(__gnu_cxx::__normal_iterator<std::bitset<36>*, std::vector<std::bitset<36>, std::allocator<std::bitset<36> > > >, &&)")))
    [(16, ""); (17, "LoopUnrollPass($)");
     (217, "LoopUnrollPass(std::vector<std::bitset<36>, std::allocator<std::bitset<36> > >::_M_realloc_insert<>(__gnu_cxx::__no$al_iterator<std::bitset<36>*, std::vector<std::bitset<36>, std::allocator<std::bitset<36> > > >, &&))");
     (218, "LoopUnrollPass(std::vector<std::bitset<36>, std::allocator<std::bitset<36> > >::_M_realloc_insert<>(__gnu_cxx::__normal_iterator<std::bitset<36>*, std::vector<std::bitset<36>, std::allocator<std::bitset<36> > > >, &&))")]%string &&
  forallb (desc "PromotePass" (AString (txt "__cxx_global_var_init")))
    [(13, ""); (14, "PromotePass($)"); (33, "PromotePass(__cxx_glo$l_var_init)");
     (34, "PromotePass(__cxx_global_var_init)")]%string = true.
Proof. vm_compute. reflexivity. Qed.

(** ** src/ui/display/metadata.rs:68-109; "~" is a line break and "'" a quote *)
Example metadata_test :
  let show (s : str) : str :=
    map (fun c => if N.eqb c 10 then 126%N else if N.eqb c 34 then 39%N else c) s in
  let date := txt "2022-06-29T13:18:22.311015Z" in
  forallb (fun c =>
    match metadata w (fun _ => date) (fun s => [34%N] ++ s ++ [34%N]) (txt "clang-14.0.5")
            (Some 5884%Z) (Some (txt "clang++")) (Some 1656508702311015%Z) (fst c) with
    | Ret t => str_eqb (show t) (txt (snd c))
    | Panic => false
    end)
  [(89, "Data from clang-14.0.5, pid 5884, thread 'clang++', recorded 2022-06-29T13:18:22.311015Z.");
   (88, "Data from clang-14.0.5, pid 5884, thread 'clang++',~recorded 2022-06-29T13:18:22.311015Z.");
   (51, "Data from clang-14.0.5, pid 5884, thread 'clang++',~recorded 2022-06-29T13:18:22.311015Z.");
   (50, "Data from clang-14.0.5, pid 5884,~thread 'clang++',~recorded 2022-06-29T13:18:22.311015Z.");
   (37, "Data from clang-14.0.5, pid 5884,~thread 'clang++',~recorded 2022-06-29T13:18:22.311015Z.");
   (36, "Data from clang-14.0.5, pid 5884,~thread 'clang++', $.");
   (33, "Data from clang-14.0.5, pid 5884,~thread 'clang++', $.");
   (32, "Data from clang-14.0.5,~pid 5884, thread 'clang++', $.");
   (30, "Data from clang-14.0.5,~pid 5884, thread 'clang++', $.");
   (29, "Data from clang-14.0.5,~pid 5884, thread 'clang++',~$.");
   (27, "Data from clang-14.0.5,~pid 5884, thread 'clang++',~$.");
   (26, "Data from clang-14.0.5,~pid 5884,~thread 'clang++', $.");
   (23, "Data from clang-14.0.5,~pid 5884,~thread 'clang++', $.");
   (22, "$")]%string = true.
Proof. vm_compute. reflexivity. Qed.

(** ** src/ui/display/duration.rs:79-121 *)
Example display_duration_test :
  let round2 num den := ((200 * num + den) / (2 * den))%Z in
  forallb (fun c => gives (display_duration round2 (fst c)) (snd c))
  [(1000, "1.00ms"); (1234, "1.23ms"); (999994, "999.99ms");
   (999995, "1.00s"); (1600000, "1.60s"); (4321000, "4.32s"); (59994000, "59.99s");
   (59995000, "1:00.00"); (3 * us_minute, "3:00.00"); (5 * us_minute + 6789000, "5:06.79");
   (59 * us_minute + 59994000, "59:59.99");
   (59 * us_minute + 59995000, "1:00:00.00");
   (2 * us_hour + 3 * us_minute + 7654000, "2:03:07.65");
   (23 * us_hour + 59 * us_minute + 59994000, "23:59:59.99");
   (23 * us_hour + 59 * us_minute + 59995000, "1d 00:00:00.00");
   (8 * us_day + 6 * us_hour + 2 * us_minute + 1357000, "8d 06:02:01.36")]%string%Z = true.
Proof. vm_compute. reflexivity. Qed.

(** The unit tests of cmakeperf's compilation database and build profiles, replayed on the model;
    see Cpp_Tests.v for what this is for.

    The floats of the CSV file are given as read (std).  The temporary directories are /in, /out
    and so on; the time stamps of the files are explicit. *)
From Coq Require Import String.
From Verif Require Import Base Asylum_Model Cmd_Model Shell_Model Csv_Model.
Local Open Scope nat_scope.
Local Open Scope bool_scope.
Local Open Scope list_scope.

Local Notation "' s" := (of_string s) (at level 0, s at level 0).

(** ** cmakeperf/src/output.rs:146-199; "$" is a line break *)
Definition text (s : string) : str := map (fun c => if N.eqb c 36 then 10%N else c) (of_string s).
Definition floats : list (str * f32) :=
  [('"0.0", FFin false 0 0); ('"NaN", FNan); ('"+inf", FInf false);
   ('"-0.1", FFin true 13421773 (-27));
   ('"18446800000000000000", FFin false 8388633 41);
   ('"18446700000000000000.9999999991", FFin false 16777176 40)].
Definition read (s : str) : option f32 :=
  match find (fun e => str_eqb (fst e) s) floats with Some (_, f) => Some f | None => None end.
Definition row (p : string) (rss : N) (t : option f32) : unit_row := mkRow (PText (of_string p)) rss t.
Definition from_secs (n : N) : duration := (n * giga)%N.
Example build_profile_from_csv_test :
  load read (Some (text "file,max_rss$/path/to/lol.cpp,1234$/stuff.cpp,567"))
    = inl [row "/path/to/lol.cpp" 1234 None; row "/stuff.cpp" 567 None] /\
  wall_time None = None /\
  match load read (Some (text "file,max_rss,time$/a.cpp,0,0.0$/b.c++,567,NaN$/c.cxx,89000,+inf$/dd.cc,666666666,-0.1$/efg.c,888,18446800000000000000$/hhh.hpp,9000000001,18446700000000000000.9999999991$")) with
  | inl l =>
      map (fun r => (r_path r, r_rss r)) l
        = [(PText '"/a.cpp", 0); (PText '"/b.c++", 567); (PText '"/c.cxx", 89000);
           (PText '"/dd.cc", 666666666); (PText '"/efg.c", 888); (PText '"/hhh.hpp", 9000000001)]%N /\
      map (fun r => wall_time (r_time r)) l
        = [Some (inl 0%N); Some (inr FNan); Some (inr (FInf false));
           Some (inr (FFin true 13421773 (-27))); Some (inr (FFin false 8388633 41));
           Some (inl (from_secs (16777176 * 2 ^ 40)))]
  | inr _ => False
  end.
Proof. vm_compute. repeat split. Qed.

(** ** cmakeperf/src/commands.rs:330-446 *)
Definition mk (dir command file : string) : entry :=
  {| e_directory := of_string dir;
     e_words := shlex Between [] (of_string command); e_file := of_string file; e_output := None |}.
(** the really/.. of the test; canonicalize removes it *)
Definition canonicalize (p : list component) : option (list component) :=
  if components_eqb p (path_components '"/base/really/../base/really")
  then Some (path_components '"/base/really") else None.
Example database_entry_test :
  let empty := mk "/" "xxx" "/etc/fstab" in
  nth_error (e_words empty) 0 = Some '"xxx" /\ entry_args empty = [] /\
  entry_output canonicalize empty = None /\
  (* / is older than the database *)
  derived_freshness (fun _ => MTime 1) 5 empty '"/" = IoOk (MaybeOutdated (Some 4%Z)) /\
  derived_freshness (fun p => MTime (if str_eqb p '"/" then 1 else 2)) 5 empty '"/" = IoOk Outdated /\
  let entry := mk "/base" "SuperGoodCompiler --useless pointless -options -o /base/really/../base/really/out.o -more fluff" "/in/input.cpp" in
  nth_error (e_words entry) 0 = Some '"SuperGoodCompiler" /\
  entry_args entry = ['"--useless"; '"pointless"; '"-options"; '"-o";
                      '"/base/really/../base/really/out.o"; '"-more"; '"fluff"] /\
  entry_output canonicalize entry = Some (path_components '"/base/really/out.o") /\
  let fresh db input product :=
    derived_freshness (fun p => if str_eqb p db_location then MTime db
                                else if str_eqb p '"/in/input.cpp" then MTime input else product)
      100 entry '"/base/stuff.json" in
  fresh 1%Z 2%Z MNotFound = IoOk Nonexistent /\
  fresh 1%Z 2%Z (MTime 3) = IoOk (MaybeOutdated (Some 97%Z)) /\
  fresh 1%Z 4%Z (MTime 3) = IoOk Outdated /\
  fresh 1%Z 4%Z (MTime 5) = IoOk (MaybeOutdated (Some 95%Z)) /\
  fresh 6%Z 4%Z (MTime 5) = IoOk Outdated.
Proof. vm_compute. repeat split. Qed.

(** ** cmakeperf/src/commands.rs:449-560 *)
Example compilation_database_test :
  let e1 := mk "/out1" "cc -o a.o /in1/a.cpp" "/in1/a.cpp" in
  let e2 := mk "/out2" "not_a_compiler /in2/b.hxx" "/in2/b.hxx" in
  let db := from_entries [e1; e2] in
  List.length (db_entries db) = 2 /\ db_entry db '"/in1/a.cpp" = Some e1 /\
  db_entry db '"/in2/b.hxx" = Some e2 /\
  let fresh dbt t1 t2 product :=
    profile_freshness (fun p => if str_eqb p db_location then MTime dbt
                                else if str_eqb p '"/in1/a.cpp" then MTime t1
                                else if str_eqb p '"/in2/b.hxx" then MTime t2 else product)
      100 db '"my_super_build_profile.csv" in
  fresh 3%Z 1%Z 2%Z MNotFound = IoOk Nonexistent /\
  fresh 3%Z 1%Z 2%Z (MTime 4) = IoOk (MaybeOutdated (Some 96%Z)) /\
  fresh 5%Z 1%Z 2%Z (MTime 4) = IoOk Outdated /\
  fresh 5%Z 1%Z 2%Z (MTime 6) = IoOk (MaybeOutdated (Some 94%Z)) /\
  fresh 5%Z 7%Z 2%Z (MTime 6) = IoOk Outdated /\
  fresh 5%Z 7%Z 2%Z (MTime 8) = IoOk (MaybeOutdated (Some 92%Z)) /\
  fresh 5%Z 7%Z 9%Z (MTime 8) = IoOk Outdated.
Proof. vm_compute. repeat split. Qed.

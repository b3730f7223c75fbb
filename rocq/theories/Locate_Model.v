(** From a measured unit to its time trace: cmakeperf/src/measure/worker.rs:89-93,
    src/ui/tui/trace/measure.rs:22-104, src/ui/tui/create.rs:10-166.  The crate `pathdiff` 0.2.3
    and the functions of std::path are transcribed by hand; the file system is a table of the
    existing directories, files and symbolic links (permissions are not modelled). *)
From Coq Require Import String.
From Verif Require Import Base Asylum_Model.
From Verif Require Import Cpp_Lex_Model Cmd_Model Shell_Model.
Local Open Scope nat_scope.
Local Open Scope bool_scope.
Local Open Scope list_scope.

(** ** The file system *)

(** What is found at a place, given by the names that lead to it from the root *)
Inductive node := Directory | RegularFile | SymLink (target : str).
Definition filesystem := list str -> option node.

(** realpath(3): the segments [todo] of a path are followed from the place [cur]; [follow] does
    the same when one of them is a symbolic link *)
Fixpoint walk (follow : list str -> list str -> option (list str)) (fs : filesystem)
    (cur todo : list str) : option (list str) :=
  match todo with
  | [] => Some cur
  | s :: todo' =>
      match fs cur with
      | Some Directory =>
          match segment_component s with
          | None => walk follow fs cur todo'
          | Some ParentDir => walk follow fs (removelast cur) todo'
          | Some _ =>
              match fs (cur ++ [s]) with
              | None => None
              | Some (SymLink t) => follow (if path_has_root t then [] else cur) (split_slash t ++ todo')
              | Some _ => walk follow fs (cur ++ [s]) todo'
              end
          end
      | _ => None
      end
  end.
(** At most [links] symbolic links are followed (ELOOP) *)
Fixpoint resolve (links : nat) (fs : filesystem) : list str -> list str -> option (list str) :=
  walk (match links with O => fun _ _ => None | S k => resolve k fs end) fs.

(** std::fs::canonicalize.  [cwd] is the current directory, as names from the root, or None if
    it cannot be determined (it was removed) *)
Definition canonicalize (links : nat) (fs : filesystem) (cwd : option (list str)) (p : str)
  : option (list str) :=
  match p with
  | [] => None
  | _ =>
      if path_has_root p then resolve links fs [] (split_slash p)
      else match cwd with
           | Some d => resolve links fs d (split_slash p)
           | None => None
           end
  end.
(** An absolute path as text *)
Fixpoint join_names (l : list str) : str :=
  match l with
  | [] => []
  | s :: l' => slash :: s ++ join_names l'
  end.
Definition path_text (names : list str) : str :=
  match names with [] => [slash] | _ => join_names names end.

(** ** The path of a unit (worker.rs:89-93) *)

(** pathdiff::diff_paths, its loop; [some] tells if `comps` has something *)
Fixpoint diff_loop (some : bool) (a b : list component) : option (list component) :=
  match a, b with
  | [], [] => Some []
  | _ :: _, [] => Some a
  | [], _ :: b' => option_map (cons ParentDir) (diff_loop true [] b')
  | x :: a', y :: b' =>
      if negb some && component_eqb x y then diff_loop some a' b'
      else match y with
           | CurDir => option_map (cons x) (diff_loop true a' b')
           | ParentDir => None
           | _ => Some (ParentDir :: map (fun _ => ParentDir) b' ++ a)
           end
  end.
(** pathdiff::diff_paths; the result is collected by PathBuf::push *)
Definition diff_paths (path base : str) : option str :=
  if Bool.eqb (path_has_root path) (path_has_root base) then
    option_map (fun comps => fold_left pathbuf_push (map component_str comps) [])
      (diff_loop false (path_components path) (path_components base))
  else if path_has_root path then Some path else None.

(** worker.rs:90-93 *)
Definition unit_path (cwd : option (list str)) (input : str) : str :=
  match match cwd with Some d => diff_paths input (path_text d) | None => None end with
  | Some p => p
  | None => input
  end.

(** ** The prompt (create.rs:104-166) *)

Definition stale_question (p : prompt) : str :=
  match p with
  | NewProfile => of_string "It looks like this build has not been profiled yet. Ready to do so?"
  | StaleProfile => of_string "There is an existing build profile, but it is not up to date with respect to current source code. Use it anyway?"
  | MaybeStaleProfile age_mins =>
      of_string "There is an existing build profile from " ++
      match show_age age_mins with
      | Days n => show_int n ++ of_string " day" ++ (if (1 <? n)%Z then of_string "s" else [])
      | Hours n => show_int n ++ of_string "h"
      | Minutes n => show_int n ++ of_string "min"
      end ++ of_string " ago" ++ of_string ". Do you consider it up to date?"
  end.
Definition default_reply (p : prompt) : str :=
  match p with NewProfile => of_string "Yes" | _ => of_string "Reuse" end.
Definition other_reply (p : prompt) : str :=
  match p with NewProfile => of_string "No" | _ => of_string "Measure" end.
Definition default_means_create (p : prompt) : bool :=
  match p with NewProfile => true | _ => false end.

(** ** The trace of a unit (src/ui/tui/trace/measure.rs:22-104) *)

(** std `rsplit_file_at_dot`, for `file_stem`: [acc] is what follows in the name *)
Fixpoint before_last_dot (name : str) : option str :=
  match name with
  | [] => None
  | c :: r =>
      match before_last_dot r with
      | Some b => Some (c :: b)
      | None => if N.eqb c dot then Some [] else None
      end
  end.
Definition file_stem (name : str) : str :=
  match before_last_dot name with
  | None | Some [] => name
  | Some b => b
  end.
(** std PathBuf::set_extension on components, with `json` *)
Definition set_json (p : list component) : list component :=
  match rev p with
  | Normal name :: r => rev (Normal (file_stem name ++ of_string ".json") :: r)
  | _ => p
  end.
(** A path as text again *)
Definition components_text (p : list component) : str := fold_left pathbuf_push (map component_str p) [].

(** measure.rs:82-89 on an entry, see also [trace_command] *)
Definition entry_trace_command (clangpp : str) (granularity : option N) (e : entry) : process :=
  mkProcess clangpp
    (of_string "-ftime-trace" ::
     match granularity with
     | Some g => [of_string "-ftime-trace-granularity=" ++ uint_str (N.to_uint g)]
     | None => []
     end ++ entry_args e)
    (e_directory e).

(** What is done next: start_measure, show_loader or nothing *)
Inductive next_step := Measure (command : process) (trace : str) | Load (trace : str) | Nothing.
(** What the wizard shows: one of its four messages, a question with two buttons, or the trace *)
Inductive wizard :=
| UnknownPath | UnknownUnit | UnknownOutput | UnknownFreshness
| Ask (question default other : str) (on_default on_other : next_step)
| Go (n : next_step).

(** measure.rs:93-101: the reply handler *)
Definition on_reply (fr : freshness) (command : process) (trace : str) (should_create : bool) : next_step :=
  if should_create then Measure command trace
  else if product_exists fr then Load trace
  else Nothing.

(** std Path::canonicalize on components *)
Definition canonical_components (links : nat) (fs : filesystem) (cwd : option (list str))
    (p : list component) : option (list component) :=
  option_map (fun q => path_components (path_text q)) (canonicalize links fs cwd (components_text p)).

(** measure.rs:52-104, create.rs:54-84: once the entry is found.  [query] and [now] are as in
    Cmd_Model.v *)
Definition entry_wizard (links : nat) (fs : filesystem) (cwd : option (list str))
    (query : str -> mtime) (now : Z) (clangpp : str) (granularity : option N) (e : entry) : wizard :=
  match entry_output (canonical_components links fs cwd) e with
  | None => UnknownOutput
  | Some out =>
      let trace := components_text (set_json out) in
      match derived_freshness query now e trace with
      | IoErr => UnknownFreshness
      | IoOk fr =>
          match from_freshness fr false with
          | None => Go (Load trace)
          | Some p =>
              let reply := on_reply fr (entry_trace_command clangpp granularity e) trace in
              Ask (stale_question p) (default_reply p) (other_reply p)
                (reply (default_means_create p)) (reply (negb (default_means_create p)))
          end
      end
  end.

(** measure.rs:22-51 *)
Definition show_wizard (links : nat) (fs : filesystem) (cwd : option (list str))
    (query : str -> mtime) (now : Z) (db : database) (clangpp : str) (granularity : option N)
    (rel_path : str) : wizard :=
  match canonicalize links fs cwd rel_path with
  | None => UnknownPath
  | Some abs_path =>
      match db_entry db (path_text abs_path) with
      | None => UnknownUnit
      | Some e => entry_wizard links fs cwd query now clangpp granularity e
      end
  end.

(** Model of the compilation database and of build profiles:
    cmakeperf/src/commands.rs, cmakeperf/src/output.rs, src/ui/tui/create.rs.

    Paths are strings; as in std they are compared by their components
    ([path_components], see Asylum_Model.v). *)
From Coq Require Import NArith ZArith String.
From Verif Require Import Base Asylum_Model.
Local Open Scope bool_scope.
Local Open Scope list_scope.
Local Open Scope nat_scope.

(** ** Compilation database (cmakeperf/src/commands.rs:19-85) *)

(** commands.rs:150-167.  The command is represented by the words that `shlex::Shlex` cuts
    it into. *)
Record entry := {
  e_directory : str;
  e_words : list str;
  e_file : str;
  e_output : option str }.

(** std: `Path` implements Eq and Hash by comparing components *)
Definition component_eqb (a b : component) : bool :=
  match a, b with
  | RootDir, RootDir | CurDir, CurDir | ParentDir, ParentDir => true
  | Normal s, Normal t => str_eqb s t
  | _, _ => false
  end.
Fixpoint components_eqb (a b : list component) : bool :=
  match a, b with
  | [], [] => true
  | x :: a', y :: b' => component_eqb x y && components_eqb a' b'
  | _, _ => false
  end.
Definition path_eqb (p q : str) : bool := components_eqb (path_components p) (path_components q).

(** HashMap<Box<Path>, DatabaseEntry>, as an association list *)
Definition database := list (str * entry).

(** std HashMap::insert: the key in place is kept, the value is replaced and returned *)
Fixpoint map_insert (db : database) (k : str) (e : entry) : database * option entry :=
  match db with
  | [] => ([(k, e)], None)
  | (k', e') :: r =>
      if path_eqb k' k then ((k', e) :: r, Some e')
      else let '(r', old) := map_insert r k e in ((k', e') :: r', old)
  end.

(** commands.rs:30-37 *)
Definition from_entries (l : list entry) : database :=
  fold_left (fun db e => fst (map_insert db (e_file e) e)) l [].

(** commands.rs:51-53 *)
Definition db_new : database := [].

(** commands.rs:56-62: the assertion comes after the insertion *)
Definition db_push (db : database) (e : entry) : outcome database :=
  match map_insert db (e_file e) e with
  | (db', None) => Ret db'
  | (_, Some _) => Panic
  end.

(** commands.rs:70-72 *)
Definition db_entries (db : database) : list entry := map snd db.

(** commands.rs:81-83 *)
Definition db_entry (db : database) (p : str) : option entry :=
  match find (fun '(k, _) => path_eqb k p) db with Some (_, e) => Some e | None => None end.

(** ** Output path (commands.rs:187-236) *)

(** std Path::file_name and Path::parent, on components *)
Definition file_name (p : list component) : option str :=
  match rev p with Normal s :: _ => Some s | _ => None end.
Definition parent_path (p : list component) : list component := removelast p.

(** std PathBuf::push, on components: an absolute path replaces, and `.` has no effect
    after something else *)
Definition is_cur_dir (c : component) : bool := match c with CurDir => true | _ => false end.
Definition path_push (p q : list component) : list component :=
  match q with
  | RootDir :: _ => q
  | _ => match p with [] => q | _ => p ++ filter (fun c => negb (is_cur_dir c)) q end
  end.

(** commands.rs:193-195 *)
Definition entry_args (e : entry) : list str := skipn 1 (e_words e).

Definition dash_o : str := of_string "-o".
Fixpoint skip_while (f : str -> bool) (l : list str) : list str :=
  match l with [] => [] | x :: r => if f x then skip_while f r else l end.

(** commands.rs:210-236, up to equality of paths; [canonicalize] queries the file system *)
Definition entry_output (canonicalize : list component -> option (list component)) (e : entry)
  : option (list component) :=
  match e_output e with
  | Some out => Some (path_components out)
  | None =>
      match nth_error (skip_while (fun a => negb (str_eqb a dash_o)) (entry_args e)) 1 with
      | None => None
      | Some rel_output =>
          let rel_output := path_components rel_output in
          match file_name rel_output with
          | None => None
          | Some name =>
              let result := path_push (path_components (e_directory e)) (parent_path rel_output) in
              let result := match canonicalize result with Some r => r | None => result end in
              Some (path_push result [Normal name])
          end
      end
  end.

(** ** Freshness (commands.rs:85-122, 239-241, 264-295) *)

(** Result of `path.metadata()?.modified()?`: a time in nanoseconds *)
Inductive mtime := MTime (t : Z) | MNotFound | MError.
Inductive freshness := Nonexistent | Outdated | MaybeOutdated (age : option Z).
Inductive io_result (A : Type) := IoOk (a : A) | IoErr.
Arguments IoOk {A}. Arguments IoErr {A}.

(** commands.rs:24-26 *)
Definition db_location : str := of_string "compile_commands.json".

(** commands.rs:109-115 and what follows *)
Fixpoint check_inputs (query : str -> mtime) (now product : Z) (inputs : list str) : io_result freshness :=
  match inputs with
  | [] => IoOk (MaybeOutdated (if (product <=? now)%Z then Some (now - product)%Z else None))
  | i :: r =>
      match query i with
      | MTime t => if (product <? t)%Z then IoOk Outdated else check_inputs query now product r
      | _ => IoErr
      end
  end.
(** commands.rs:91-122 *)
Definition product_freshness (query : str -> mtime) (now : Z) (inputs : list str) (output : str)
  : io_result freshness :=
  match query output with
  | MNotFound => IoOk Nonexistent
  | MError => IoErr
  | MTime product =>
      match query db_location with
      | MTime t => if (product <? t)%Z then IoOk Outdated else check_inputs query now product inputs
      | _ => IoErr
      end
  end.
(** commands.rs:86-88 *)
Definition profile_freshness (query : str -> mtime) (now : Z) (db : database) (path : str)
  : io_result freshness :=
  product_freshness query now (map e_file (db_entries db)) path.
(** commands.rs:239-241 *)
Definition derived_freshness (query : str -> mtime) (now : Z) (e : entry) (path : str)
  : io_result freshness :=
  product_freshness query now [e_file e] path.
(** commands.rs:288-294 *)
Definition product_exists (f : freshness) : bool :=
  match f with Nonexistent => false | Outdated | MaybeOutdated _ => true end.

(** src/ui/tui/create.rs:31-51; the prompts of create.rs:108-166 *)
Inductive prompt := NewProfile | StaleProfile | MaybeStaleProfile (age_mins : Z).
Definition u64_max : Z := 18446744073709551615.
Definition ns_per_s : Z := 1000000000.
Definition from_freshness (f : freshness) (manually_specified : bool) : option prompt :=
  match f with
  | Nonexistent => Some NewProfile
  | Outdated => Some StaleProfile
  | MaybeOutdated age =>
      let age_mins := match age with Some d => (d / ns_per_s / 60)%Z | None => u64_max end in
      if (0 <? age_mins)%Z && negb manually_specified then Some (MaybeStaleProfile age_mins) else None
  end.
(** create.rs:142-157: the age shown, as a number of days, hours or minutes *)
Inductive shown_age := Days (n : Z) | Hours (n : Z) | Minutes (n : Z).
Definition show_age (age_mins : Z) : shown_age :=
  let age_hours := (age_mins / 60)%Z in
  let age_days := (age_hours / 24)%Z in
  if (0 <? age_days)%Z then Days age_days
  else if (0 <? age_hours)%Z then Hours age_hours
  else Minutes age_mins.

(** ** Build profiles (cmakeperf/src/output.rs:52-111) *)

(** f32: a finite value is (-1)^neg * m * 2^e with m < 2^24 and -149 <= e <= 104 *)
Inductive f32 := FNan | FInf (neg : bool) | FFin (neg : bool) (m : N) (e : Z).

(** Rounding to nearest, ties to even, of n * 2^e to a 24-bit mantissa.  The results that
    occur here are neither subnormal nor too large. *)
Definition round24 (n : N) (e : Z) : N * Z :=
  let k := (N.size n - 24)%N in
  let q := N.shiftr n k in
  let r := (n - N.shiftl q k)%N in
  let up := match (2 * r ?= 2 ^ k)%N with Lt => false | Gt => true | Eq => N.odd q end in
  ((if up && (0 <? k)%N then q + 1 else q)%N, (e + Z.of_N k)%Z).

(** `x as u64` for a finite non-negative x: rounds towards zero, saturates *)
Definition floor_of (m : N) (e : Z) : N :=
  match e with Zneg p => N.shiftr m (Npos p) | _ => N.shiftl m (Z.to_N e) end.
Definition as_u64 (m : N) (e : Z) : N := N.min (floor_of m e) (2 ^ 64 - 1).
(** f32::fract of a finite non-negative value, which is exact *)
Definition fract (m : N) (e : Z) : N * Z :=
  match e with Zneg p => (m - N.shiftl (N.shiftr m (Npos p)) (Npos p), e)%N | _ => (0%N, e) end.

(** Durations, in nanoseconds; at most 2^64 - 1 seconds and 999999999 ns *)
Definition duration := N.
Definition giga : N := 1000000000.
Definition max_duration : duration := ((2 ^ 64 - 1) * giga + 999999999)%N.
Definition saturating_add (a b : duration) : duration := N.min (a + b) max_duration.

(** n * 2^e > 2^64 *)
Definition over_u64 (m : N) (e : Z) : bool :=
  match e with
  | Zneg p => (N.shiftl (2 ^ 64) (Npos p) <? m)%N
  | _ => (2 ^ 64 <? N.shiftl m (Z.to_N e))%N
  end.

(** output.rs:96-110.  `u64::MAX as f32 + 0.999_999_999` is 2^64: both operations round up. *)
Definition wall_time (wall_time_secs : option f32) : option (duration + f32) :=
  match wall_time_secs with
  | None => None
  | Some x =>
      match x with
      | FNan | FInf _ => Some (inr x)
      | FFin neg m e =>
          if neg && negb (N.eqb m 0) then Some (inr x)
          else if over_u64 m e then Some (inr x)
          else
            let '(fm, fe) := fract m e in
            let '(pm, pe) := round24 (fm * giga)%N fe in
            Some (inl (saturating_add (as_u64 m e * giga)%N (as_u64 pm pe)))
      end
  end.

(** std Duration::as_secs_f32: secs as f32 + nanos as f32 / 1e9 *)
(** num / den rounded to 24 bits: one more bit than needed is computed, plus a sticky bit *)
Definition div24 (num den : N) : N * Z :=
  if N.eqb num 0 then (0%N, 0%Z)
  else
    let k := (25 + N.size den - N.size num)%N in
    let n := N.shiftl num k in
    let q := (n / den)%N in
    let sticky := if N.eqb (n mod den) 0 then 0%N else 1%N in
    round24 (2 * q + sticky)%N (- Z.of_N k - 1)%Z.
(** a sum of two non-negative floats *)
Definition add24 (a b : N * Z) : N * Z :=
  let '(m1, e1) := a in let '(m2, e2) := b in
  let e := Z.min e1 e2 in
  round24 (N.shiftl m1 (Z.to_N (e1 - e)) + N.shiftl m2 (Z.to_N (e2 - e)))%N e.
Definition as_secs_f32 (d : duration) : f32 :=
  let '(nm, ne) := round24 (d mod giga)%N 0 in
  (* the numerator is an integer below 2^30, of exponent 0 to 6 *)
  let '(m, e) := add24 (round24 (d / giga)%N 0) (div24 (N.shiftl nm (Z.to_N ne)) giga) in
  FFin false m e.

(** output.rs:68-79 (the time of a new profile) *)
Definition new_time (wall_time : option duration) : option f32 := option_map as_secs_f32 wall_time.

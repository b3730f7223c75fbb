(** Specification vocabulary for the compilation database and build profiles. *)
From Coq Require Import NArith ZArith QArith String.
From Verif Require Import Base Asylum_Model Cmd_Model.
Local Open Scope list_scope.
Local Open Scope nat_scope.

(** ** Compilation database *)

(** Paths are the same if they have the same components: `a/b`, `a//b` and `a/./b` are. *)
Definition same_path (p q : str) : Prop := path_components p = path_components q.

(** [e] is the last entry of the list whose input file is [p]. *)
Definition last_for (l : list entry) (p : str) (e : entry) : Prop :=
  exists l1 l2, l = l1 ++ e :: l2 /\ same_path (e_file e) p /\
    forall e', In e' l2 -> ~ same_path (e_file e') p.

(** A database as obtained by its public functions. *)
Inductive db_reach : database -> Prop :=
| dbr_from l : db_reach (from_entries l)
| dbr_push db e db' : db_reach db -> db_push db e = Ret db' -> db_reach db'.

(** ** Output path *)

(** The argument after the first `-o` of the arguments, which follow the program. *)
Definition output_argument (e : entry) (o : str) : Prop :=
  exists program before after,
    e_words e = program :: before ++ of_string "-o" :: o :: after /\ ~ In (of_string "-o") before.
(** A path seen from a directory. *)
Definition seen_from (dir o : str) : str :=
  match o with
  | c :: _ => if N.eqb c slash then o else dir ++ slash :: o
  | [] => dir ++ [slash]
  end.

(** ** Freshness *)

(** All file queries succeed. *)
Definition times (query : str -> mtime) (inputs : list str) (time : str -> Z) : Prop :=
  forall p, p = db_location \/ In p inputs -> query p = MTime (time p).

(** ** Wall times *)

(** The exact value of a non-negative float, and the nanoseconds it stands for. *)
Definition seconds (m : N) (e : Z) : Q :=
  match e with
  | Zneg p => Z.of_N m # 2 ^ p
  | _ => inject_Z (Z.of_N m * 2 ^ e)
  end.
Definition exact_ns (m : N) (e : Z) : Q := seconds m e * inject_Z 1000000000.

(** What an f32 may be. *)
Definition f32_ok (x : f32) : Prop :=
  match x with FFin _ m e => (m <= 2 ^ 24)%N /\ (-149 <= e <= 104)%Z | _ => True end.
(** An f32 that is no duration: not finite, negative, or more than 2^64 seconds. *)
Definition bad_time (x : f32) : Prop :=
  match x with
  | FNan | FInf _ => True
  | FFin neg m e => neg = true /\ m <> 0%N \/ (inject_Z (2 ^ 64) < seconds m e)%Q
  end.

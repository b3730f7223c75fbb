(** Model of src/clang.rs: is a suitable clang++ available?

    Simplifications: running `clang++ --version` and decoding its output are inputs; Unicode
    decimal digits (the class \d of the regex crate) are a parameter; values of `usize` are
    those of a 64-bit target. *)
From Coq Require Import String.
From Verif Require Import Base.
Local Open Scope nat_scope.
Local Open Scope bool_scope.
Local Open Scope list_scope.

(** What running the program gives (src/clang.rs:23-30) *)
Inductive probe :=
| PNotFound                                         (* ErrorKind::NotFound *)
| PIoError                                          (* another I/O error *)
| PRan (success : bool) (stdout : option str).      (* None: not UTF-8 *)

(** src/clang.rs:53-83 *)
Inductive clang_error :=
| NotFound | IoError | BadStatus | NotUtf8 | EmptyVersion
| UnexpectedVersion (version_line : str)
| AncientVersion (major : N).
Inductive answer := Found | Error (e : clang_error).

(** src/clang.rs:12-15 *)
Definition min_version : N := 9%N.
Definition usize_max : N := 18446744073709551615%N.

Definition line_feed : chr := 10%N.
Definition carriage_return : chr := 13%N.

(** `str::lines().next()`: up to the first line feed; a carriage return right before it is
    dropped.  None if the text is empty. *)
Fixpoint until_feed (s : str) : str * bool :=
  match s with
  | [] => ([], false)
  | c :: r => if N.eqb c line_feed then ([], true)
              else let '(l, fed) := until_feed r in (c :: l, fed)
  end.
Definition drop_return (l : str) : str :=
  match rev l with
  | c :: r => if N.eqb c carriage_return then rev r else l
  | [] => l
  end.
Definition first_line (s : str) : option str :=
  match s with
  | [] => None
  | _ => let '(l, fed) := until_feed s in Some (if fed then drop_return l else l)
  end.

Fixpoint strip_prefix (p s : str) : option str :=
  match p, s with
  | [], _ => Some s
  | a :: p', b :: s' => if N.eqb a b then strip_prefix p' s' else None
  | _, [] => None
  end.

Section Regex.
  Variable is_digit : chr -> bool.                  (* \d *)

  (** \d+, greedy: the digits and what follows *)
  Fixpoint digit_run (s : str) : str * str :=
    match s with
    | c :: r => if is_digit c then let '(d, rest) := digit_run r in (c :: d, rest) else ([], s)
    | [] => ([], [])
    end.

  (** src/clang.rs:37: the regex `clang version (\d+)\.(\d+)` at this place; the capture
      "major_version".  (A shorter run of digits would not be followed by a dot.) *)
  Definition match_here (s : str) : option str :=
    match strip_prefix (of_string "clang version ") s with
    | None => None
    | Some s' =>
        match digit_run s' with
        | ([], _) => None
        | (major, c :: d :: _) => if N.eqb c dot && is_digit d then Some major else None
        | _ => None
        end
    end.
  (** Regex::captures: the leftmost match *)
  Fixpoint captures (s : str) : option str :=
    match match_here s with
    | Some major => Some major
    | None => match s with [] => None | _ :: r => captures r end
    end.

  (** `str::parse::<usize>` of a run of digits: ASCII digits only, no overflow *)
  Fixpoint parse_digits (s : str) (acc : N) : option N :=
    match s with
    | [] => Some acc
    | c :: r =>
        if (N.leb 48 c && N.leb c 57)%N
        then let n := (10 * acc + (c - 48))%N in
             if N.leb n usize_max then parse_digits r n else None
        else None
    end.
  Definition parse_usize (s : str) : option N :=
    match s with [] => None | _ => parse_digits s 0 end.

  (** src/clang.rs:22-51 *)
  Definition find_clangpp (p : probe) : answer :=
    match p with
    | PNotFound => Error NotFound
    | PIoError => Error IoError
    | PRan success stdout =>
        if negb success then Error BadStatus
        else match stdout with
             | None => Error NotUtf8
             | Some text =>
                 match first_line text with
                 | None => Error EmptyVersion
                 | Some version_line =>
                     match captures version_line with
                     | Some major =>
                         match parse_usize major with
                         | Some n => if N.leb min_version n then Found else Error (AncientVersion n)
                         | None => Error (UnexpectedVersion version_line)
                         end
                     | None => Error (UnexpectedVersion version_line)
                     end
                 end
             end
    end.
End Regex.

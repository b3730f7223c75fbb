(** Specification vocabulary for the displays. *)
From Coq Require Import String Permutation.
From Verif Require Import Base UI_Model.

(** What the fitting theorems need of unicode-width: putting strings side by side takes at
    most the sum of their widths, and the fixed characters written by the code (printable
    ASCII, ellipsis, box drawing glyphs) take one column; text starting with a visible
    ASCII character is not invisible. *)
Definition one_column (c : chr) : Prop :=
  (32 <= c < 127)%N \/ c = ellipsis \/ (9472 <= c <= 9599)%N.
Record widths (w : str -> nat) : Prop := {
  w_nil : w [] = 0;
  w_app : forall a b, w (a ++ b) <= w a + w b;
  w_one : forall c, one_column c -> w [c] = 1;
  w_pos : forall c s, (33 <= c < 127)%N -> 1 <= w (c :: s) }.
(** A path separator never combines with its neighbours. *)
Definition separator_width (w : str -> nat) : Prop :=
  forall a b, w (a ++ slash :: b) = w a + 1 + w b.
(** Graphemes are the pieces of the string. *)
Definition splits (graphemes : str -> list str) : Prop := forall s, concat (graphemes s) = s.

(** A path as its list of components: if there is a root, it comes first. *)
Definition is_root (c : str) : Prop := c = [slash].
Definition path_ok (comps : list str) : Prop :=
  comps <> [] /\ forall c, In c (tl comps) -> ~ is_root c.
Definition absolute (comps : list str) : Prop := exists r, comps = [slash] :: r.

(** Text of the first components of a path, ready to be followed by something: [a/b/], [/a/]. *)
Fixpoint leading (comps : list str) : str :=
  match comps with
  | [] => []
  | c :: r => (if str_eqb c [slash] then [slash] else c ++ [slash]) ++ leading r
  end.
(** Text of the last components, each preceded by a separator: [/y/z]. *)
Fixpoint trailing (comps : list str) : str :=
  match comps with [] => [] | c :: r => [slash] ++ c ++ trailing r end.

(** The acceptable displays of a path. *)
Inductive path_display (comps : list str) : str -> Prop :=
| pd_full : path_display comps (full_path comps)
| pd_elided front mid back :
    comps = front ++ mid ++ back -> mid <> [] -> back <> [] ->
    path_display comps (leading front ++ [ellipsis] ++ trailing back)
| pd_name init pre mid suf :
    comps = init ++ [pre ++ mid ++ suf] ->
    path_display comps ([ellipsis; slash] ++ pre ++ [ellipsis] ++ suf)
| pd_ellipsis : path_display comps [ellipsis].

(** Lines of a text. *)
Fixpoint lines (s : str) : list str :=
  match s with
  | [] => [[]]
  | c :: r => if N.eqb c newline then [] :: lines r
              else match lines r with l :: ls => (c :: l) :: ls | [] => [[c]] end
  end.

(** Arguments that display_path can show without a spurious separator. *)
Definition arg_ok (arg : argument) : Prop :=
  match arg with
  | AFilePath comps => path_ok comps /\ 2 <= length comps
  | AString s => ~ In newline s /\ ~ In 13%N s
  | _ => True
  end.
(** The bounded display of a C++ entity honours its budget (proved for cpparser's
    bounded_display in its own file). *)
Definition cpp_fits (w : str -> nat) (arg : argument) : Prop :=
  match arg with ACpp bounded _ => forall n, 1 <= n -> w (bounded n) <= n | _ => True end.

(** The complete text of an argument: two fixed labels, the string itself, the path with its
    separators, the whole C++ entity. *)
Inductive argument_text : argument -> str -> Prop :=
| at_loop : argument_text AUnnamedLoop (of_string "<unnamed loop>")
| at_module : argument_text AModule (of_string "[module]")
| at_string s : argument_text (AString s) s
| at_path init name : path_ok (init ++ [name]) ->
    argument_text (AFilePath (init ++ [name])) (leading init ++ name)
| at_cpp bounded full : argument_text (ACpp bounded full) full.
(** Its text in at most [cols] columns, from the displays of strings (C36), of paths (C34,
    C35) and of C++ entities. *)
Definition argument_within (w : str -> nat) (graphemes : str -> list str) (arg : argument)
    (cols : nat) (text : str) : Prop :=
  match arg with
  | ANothing => False
  | AUnnamedLoop => display_string w graphemes (of_string "<unnamed loop>") (SingleLine cols) = Ret text
  | AModule => display_string w graphemes (of_string "[module]") (SingleLine cols) = Ret text
  | AString s => display_string w graphemes s (SingleLine cols) = Ret text
  | AFilePath comps => display_path w graphemes comps (SingleLine cols) = Ret text
  | ACpp bounded _ => text = bounded cols
  end.

(** Decreasing order. *)
Fixpoint decreasing {A} (key : A -> Z) (l : list A) : Prop :=
  match l with
  | a :: ((b :: _) as r) => (key b <= key a)%Z /\ decreasing key r
  | _ => True
  end.
(** What any sort of the standard library guarantees. *)
Definition sorts (sort : forall A : Type, (A -> Z) -> list A -> list A) : Prop :=
  forall A (key : A -> Z) l, Permutation l (sort A key l) /\ decreasing key (sort A key l).

(** Total of the entries with a given name. *)
Definition total_of (name : str) (l : list (str * Z)) : Z :=
  fold_right (fun a t => if str_eqb (fst a) name then (snd a + t)%Z else t) 0%Z l.

(** Rounding to the nearest hundredth of num/den (ties either way). *)
Definition rounds (round2 : Z -> Z -> Z) : Prop :=
  forall num den, (0 <= num -> 0 < den ->
    0 <= round2 num den /\ 2 * Z.abs (100 * num - round2 num den * den) <= den)%Z.

(** The acceptable displays of a nonnegative duration of [d] µs: canonical fields whose sum
    is [d] up to half a unit of the last digit. *)
Definition within_half (a b unit : Z) : Prop := (2 * Z.abs (a - b) <= unit)%Z.
(** Decimal numerals without leading zeros, numbers below 100 on two digits, and numbers of
    hundredths with two decimals: 7.05, or 07.05 where two digits are wanted. *)
Definition numeral (n : Z) (s : str) : Prop :=
  exists ds : list Z, s = map (fun d => Z.to_N (48 + d)) ds /\ ds <> [] /\
    Forall (fun d => (0 <= d < 10)%Z) ds /\ (forall r, ds = 0%Z :: r -> r = []) /\
    fold_left (fun v d => (10 * v + d)%Z) ds 0%Z = n.
Definition two_digits (n : Z) : str := [Z.to_N (48 + n / 10); Z.to_N (48 + n mod 10)].
Definition hundredths (h : Z) (s : str) : Prop :=
  exists units, numeral (h / 100) units /\ s = units ++ of_string "." ++ two_digits (h mod 100).
Definition hundredths_padded (h : Z) : str :=
  two_digits (h / 100) ++ of_string "." ++ two_digits (h mod 100).
Inductive duration_display (d : Z) : str -> Prop :=
| dd_days D H M S days :
    (1 <= D /\ 0 <= H < 24 /\ 0 <= M < 60 /\ 0 <= S < 6000)%Z ->
    within_half d (D * 86400000000 + H * 3600000000 + M * 60000000 + S * 10000) 10000 ->
    numeral D days ->
    duration_display d (days ++ of_string "d " ++ two_digits H ++ of_string ":" ++ two_digits M
                          ++ of_string ":" ++ hundredths_padded S)
| dd_hours H M S hours :
    (1 <= H < 24 /\ 0 <= M < 60 /\ 0 <= S < 6000)%Z ->
    within_half d (H * 3600000000 + M * 60000000 + S * 10000) 10000 ->
    numeral H hours ->
    duration_display d (hours ++ of_string ":" ++ two_digits M ++ of_string ":" ++ hundredths_padded S)
| dd_minutes M S minutes :
    (1 <= M < 60 /\ 0 <= S < 6000)%Z ->
    within_half d (M * 60000000 + S * 10000) 10000 ->
    numeral M minutes ->
    duration_display d (minutes ++ of_string ":" ++ hundredths_padded S)
| dd_seconds S text :
    (100 <= S < 6000)%Z -> within_half d (S * 10000) 10000 -> hundredths S text ->
    duration_display d (text ++ of_string "s")
| dd_millis h text :
    (100 <= h < 100000)%Z -> within_half d (h * 10) 10 -> hundredths h text ->
    duration_display d (text ++ of_string "ms")
| dd_micros text :
    (0 <= d < 1000)%Z -> numeral d text -> duration_display d (text ++ [181%N] ++ of_string "s").

(** Every activity of the tree can be described (see [arg_ok], [cpp_fits]). *)
Inductive act_ok (w : str -> nat) : act_tree -> Prop :=
| act_ok_intro name arg trailer rel children :
    1 <= w name -> arg_ok arg -> cpp_fits w arg -> Forall (act_ok w) children ->
    act_ok w (Act name arg trailer rel children).

(** What the tree of an activity shows: its own line, then its children at or above the
    threshold by decreasing duration, then how many were left out (if any); nothing more
    when two columns or less are left. *)
Inductive shows (w : str -> nat) (graphemes : str -> list str) (relative : act_tree -> Z)
    (threshold : Z) (terminator : nat -> str) : nat -> act_tree -> text_tree -> Prop :=
| shows_leaf max name arg info rel children label :
    max <= 2 -> display_activity w graphemes name arg max info = Ret label ->
    shows w graphemes relative threshold terminator max (Act name arg info rel children) (TT label [])
| shows_node max name arg info rel children label hot shown rest :
    2 < max -> display_activity w graphemes name arg max info = Ret label ->
    Permutation (filter (fun c => (threshold <=? relative c)%Z) children) hot ->
    decreasing relative hot ->
    Forall2 (shows w graphemes relative threshold terminator (max - 2)) hot shown ->
    (length hot = length children /\ rest = [] \/
     length hot < length children /\ exists t, rest = [TT t []] /\
       (w t <= max - 2 /\ t = terminator (length children - length hot) \/
        max - 2 < w (terminator (length children - length hot)) /\ t = [ellipsis])) ->
    shows w graphemes relative threshold terminator max (Act name arg info rel children)
      (TT label (shown ++ rest)).

(** A text laid out on a single line. *)
Definition unfold_lines (s : str) : str := map (fun c => if N.eqb c newline then space else c) s.

(** What the metadata of a trace says after its process name: process number, thread name as
    `{:?}` writes it, and date, for those that are known. *)
Definition signed_numeral (n : Z) (s : str) : Prop :=
  numeral n s \/ exists r, s = of_string "-" ++ r /\ numeral (- n) r.
Inductive known {A} (says : A -> str -> Prop) : option A -> list str -> Prop :=
| known_none : known says None []
| known_some a s : says a s -> known says (Some a) [s].
(** From the beginning of year 0 to the end of year 9999, in microseconds from 1970. *)
Definition years_0_to_9999 (us : Z) : Prop :=
  (-62167219200 * 1000000 <= us < 253402300800 * 1000000)%Z.
Definition metadata_items (rfc3339 : Z -> str) (debug_str : str -> str)
    (pid : option Z) (thread : option str) (bot : option Z) (items : list str) : Prop :=
  exists a b c, items = a ++ b ++ c /\
    known (fun n s => exists d, s = of_string "pid " ++ d /\ signed_numeral n d) pid a /\
    known (fun t s => s = of_string "thread " ++ debug_str t) thread b /\
    known (fun us s => s = of_string "recorded " ++ rfc3339 us) bot c.
(** Items too wide for a line are abbreviated. *)
Definition abbreviated (w : str -> nat) (max : nat) (item : str) : str :=
  if Nat.leb max (w item) then [ellipsis] else item.
(** The widths of what comma and space separate add up. *)
Definition comma_width (w : str -> nat) : Prop :=
  forall a b, w (a ++ [comma; space] ++ b) = w a + 2 + w b.
(** A paragraph from its current line and the items to come: a line is broken only if the
    next item does not fit, with one column left for what follows it. *)
Inductive laid_out (w : str -> nat) (max : nat) : str -> list str -> list str -> Prop :=
| lo_end line : laid_out w max line [] [line ++ of_string "."]
| lo_same line item items ls : w (line ++ of_string ", " ++ item) < max ->
    laid_out w max (line ++ of_string ", " ++ item) items ls ->
    laid_out w max line (item :: items) ls
| lo_next line item items ls : max <= w (line ++ of_string ", " ++ item) ->
    laid_out w max item items ls ->
    laid_out w max line (item :: items) ((line ++ of_string ",") :: ls).

(** How a tree is drawn: every node, parents first, with its label and for itself and each of
    its ancestors, from the top and without the root, whether it is the last child. *)
Fixpoint nodes (lasts : list bool) (t : text_tree) : list (list bool * str) :=
  match t with
  | TT label children =>
      (lasts, label) ::
      (fix of_children (l : list text_tree) : list (list bool * str) :=
         match l with
         | [] => []
         | c :: rest => nodes (lasts ++ [match rest with [] => true | _ => false end]) c
                          ++ of_children rest
         end) children
  end.
(** The line of a node: two columns per ancestor (a bar if the ancestor has siblings below
    it), then a corner for a last child and a branch for the others, then its label. *)
Definition node_line (node : list bool * str) : str :=
  match rev (fst node) with
  | [] => snd node
  | last :: above =>
      concat (map (fun l : bool => if l then of_string "  " else [9474%N; 32%N]) (rev above))
        ++ [if last then 9492%N else 9500%N; 9472%N] ++ snd node
  end.

(** What a build profile file is: CSV tables, and what their rows say. *)
From Coq Require Import QArith String.
From Verif Require Import Base.
From Verif Require Import Cmd_Model Cmd_Spec Csv_Model.
Local Open Scope nat_scope.
Local Open Scope list_scope.
Local Notation length := List.length.

Local Notation comma := 44%N.
Local Notation quote := 34%N.

(** Ends of lines. *)
Definition line_end (c : chr) : Prop := c = 13%N \/ c = 10%N.

(** [t] is [f] with each double quote written twice. *)
Inductive doubled : str -> str -> Prop :=
| dbl_nil : doubled [] []
| dbl_quote f t : doubled f t -> doubled (quote :: f) (quote :: quote :: t)
| dbl_other c f t : c <> quote -> doubled f t -> doubled (c :: f) (c :: t).

(** How a field may be written: as it is, unless it has commas or ends of lines or starts
    with a quote; or between quotes. *)
Inductive field_text (f : str) : str -> Prop :=
| ft_bare : (forall c, In c f -> c <> comma /\ ~ line_end c) -> (forall g, f <> quote :: g) ->
    field_text f f
| ft_quoted t : doubled f t -> field_text f (quote :: t ++ [quote]).

Inductive fields_text : list str -> str -> Prop :=
| fst_one f t : field_text f t -> fields_text [f] t
| fst_more f t fs ts : field_text f t -> fields_text fs ts -> fields_text (f :: fs) (t ++ comma :: ts).

(** A file: rows that are not blank, each followed by an end of line (the last one may do
    without), with any number of blank lines. *)
Inductive table_text : list (list str) -> str -> Prop :=
| tt_none : table_text [] []
| tt_blank c rows s : line_end c -> table_text rows s -> table_text rows (c :: s)
| tt_last row t : fields_text row t -> t <> [] -> table_text [row] t
| tt_row row t c rows s : fields_text row t -> t <> [] -> line_end c -> table_text rows s ->
    table_text (row :: rows) (t ++ c :: s).

(** Positional numerals, most significant digit first. *)
Inductive hex_digit : chr -> N -> Prop :=
| hd_dec d : (d < 10)%N -> hex_digit (48 + d)%N d
| hd_low d : (10 <= d < 16)%N -> hex_digit (87 + d)%N d
| hd_up d : (10 <= d < 16)%N -> hex_digit (55 + d)%N d.
Fixpoint positional (radix : N) (ds : list N) : N :=
  match ds with [] => 0 | d :: ds' => d * radix ^ N.of_nat (length ds') + positional radix ds' end.
Definition numeral (radix : N) (t : str) (n : N) : Prop :=
  exists ds, ds <> [] /\ Forall2 hex_digit t ds /\ (forall d, In d ds -> (d < radix)%N) /\
    n = positional radix ds.
(** A number of bytes: decimal, or hexadecimal after 0x; a plus sign may come first. *)
Definition number_text (t : str) (n : N) : Prop :=
  (n < 2 ^ 64)%N /\
  exists plus ds, (plus = [] \/ plus = of_string "+") /\
    (t = plus ++ ds /\ numeral 10 ds n \/ t = of_string "0x" ++ plus ++ ds /\ numeral 16 ds n).

(** The cell of [row] under the column called [name]. *)
Definition cell (header row : list str) (name : str) (v : str) : Prop :=
  exists i, nth_error header i = Some name /\ nth_error row i = Some v.
Definition once (header : list str) (name : str) : Prop :=
  forall i j, nth_error header i = Some name -> nth_error header j = Some name -> i = j.

(** What a row says about a compilation unit. *)
Record row_says (read : str -> option f32) (header row : list str) (u : unit_row) : Prop := {
  rs_length : length row = length header;
  rs_once : once header (of_string "file") /\ once header (of_string "max_rss") /\ once header (of_string "time");
  rs_file : exists p, r_path u = PText p /\ cell header row (of_string "file") p;
  rs_rss : exists t, cell header row (of_string "max_rss") t /\ number_text t (r_rss u);
  rs_time : match r_time u with
            | None => ~ In (of_string "time") header \/ cell header row (of_string "time") []
            | Some x => exists t, t <> [] /\ cell header row (of_string "time") t /\ read t = Some x
            end }.

(** The f32s: mantissas of 24 bits, exponents of -149 to 104 (one value may be given in
    several ways). *)
Definition is_f32 (x : f32) : Prop :=
  match x with
  | FFin _ m e => (m <= 2 ^ 24)%N /\ (-149 <= e <= 104)%Z /\ ~ (m = 2 ^ 24 /\ e = 104%Z)%N
  | _ => True
  end.
Definition same_f32 (x y : f32) : Prop :=
  match x, y with
  | FNan, FNan => True
  | FInf a, FInf b => a = b
  | FFin a m e, FFin b m' e' => a = b /\ (seconds m e == seconds m' e')%Q
  | _, _ => False
  end.

(** What is assumed of the printing and reading of an f32: what is printed is not empty and is
    read back as the same value. *)
Definition prints_and_reads (show : f32 -> str) (read : str -> option f32) : Prop :=
  forall x, is_f32 x -> show x <> [] /\ exists y, read (show x) = Some y /\ is_f32 y /\ same_f32 x y.

(** A unit that can be saved: its path is text, its size a 64-bit number, its time an f32. *)
Definition storable (u : unit_row) : Prop :=
  (exists p, r_path u = PText p) /\ (r_rss u < 2 ^ 64)%N /\ (forall x, r_time u = Some x -> is_f32 x).

(** Two units that a user cannot tell apart. *)
Definition same_unit (u v : unit_row) : Prop :=
  r_path u = r_path v /\ r_rss u = r_rss v /\
  match r_time u, r_time v with
  | None, None => True
  | Some x, Some y => same_f32 x y
  | _, _ => False
  end.

(** Build profiles on disk: cmakeperf/src/output.rs:13-66 and the writer of
    cmakeperf/src/measure/main.rs:35,96,117.  The text format itself is that of the crate
    `csv` 1.3 with its default settings (and of serde's derived code for `UnitProfile`), which
    is transcribed here by hand.  Files are taken as decoded UTF-8 text: a file that is not
    UTF-8 is not modelled.  Reading and printing an f32 (std, ryu) are parameters. *)
From Coq Require Import String.
From Verif Require Import Base.
From Verif Require Import Cmd_Model Cpp_Lex_Model.
Local Open Scope nat_scope.
Local Open Scope bool_scope.
Local Open Scope list_scope.

(** A Box<Path>: text, or bytes that are not UTF-8 *)
Inductive os_path := PText (s : str) | PBytes (b : list N).

(** output.rs:52-66: struct UnitProfile *)
Record unit_row := mkRow { r_path : os_path; r_rss : N; r_time : option f32 }.

Definition c_comma : chr := 44%N.
Definition c_quote : chr := 34%N.
Definition c_cr : chr := 13%N.
Definition c_lf : chr := 10%N.
Definition c_bom : chr := 65279%N.

(** ** Writing (main.rs:35: csv::Writer::from_writer, default settings) *)

(** csv-core: QuoteStyle::Necessary *)
Definition needs_quotes (f : str) : bool :=
  existsb (fun c => N.eqb c c_comma || N.eqb c c_quote || N.eqb c c_cr || N.eqb c c_lf) f.
(** csv-core: double_quote *)
Fixpoint escape_quotes (f : str) : str :=
  match f with
  | [] => []
  | c :: f' => if N.eqb c c_quote then c_quote :: c_quote :: escape_quotes f' else c :: escape_quotes f'
  end.
Definition write_field (f : str) : str :=
  if needs_quotes f then c_quote :: escape_quotes f ++ [c_quote] else f.
(** A record of two fields or more (a single empty field would be quoted: this does not occur) *)
Fixpoint write_fields (fs : list str) : str :=
  match fs with
  | [] => []
  | [f] => write_field f
  | f :: fs' => write_field f ++ c_comma :: write_fields fs'
  end.
Definition write_record (fs : list str) : str := write_fields fs ++ [c_lf].

(** itoa *)
Definition show_u64 (n : N) : str := uint_str (N.to_uint n).

Definition file_key : str := of_string "file".
Definition max_rss_key : str := of_string "max_rss".
Definition time_key : str := of_string "time".

(** output.rs:52-66, Serialize: the fields of a record.  None: a path that is not UTF-8. *)
Definition ser_row (show : f32 -> str) (u : unit_row) : option (list str) :=
  match r_path u with
  | PBytes _ => None
  | PText p =>
      Some [p; show_u64 (r_rss u); match r_time u with None => [] | Some x => show x end]
  end.

Fixpoint ser_rows (show : f32 -> str) (us : list unit_row) : option str :=
  match us with
  | [] => Some []
  | u :: us' =>
      match ser_row show u, ser_rows show us' with
      | Some fs, Some t => Some (write_record fs ++ t)
      | _, _ => None
      end
  end.

(** main.rs:96,117: `writer.serialize` for each result, then `writer.flush`.  The header is
    written with the first record.  None: the measurement fails. *)
Definition save (show : f32 -> str) (us : list unit_row) : option str :=
  match us with
  | [] => Some []
  | _ => option_map (fun t => write_record [file_key; max_rss_key; time_key] ++ t) (ser_rows show us)
  end.

(** ** Reading *)

(** csv-core's automaton (src/reader.rs: transition_nfa, transition_final_nfa) *)
Inductive rstate := StartRecord | StartField | InField | InQuoted | InQuoteQuoted.

Definition is_term (c : chr) : bool := N.eqb c c_cr || N.eqb c c_lf.

(** [cur] is the current field, [fs] the fields of the current record before it *)
Fixpoint csv_read (st : rstate) (cur : str) (fs : list str) (s : str) : list (list str) :=
  match s with
  | [] =>
      match st with
      | StartRecord => []
      | _ => [fs ++ [cur]]
      end
  | c :: s' =>
      match st with
      | StartRecord =>
          if is_term c then csv_read StartRecord [] [] s'
          else if N.eqb c c_quote then csv_read InQuoted [] [] s'
          else if N.eqb c c_comma then csv_read StartField [] [[]] s'
          else csv_read InField [c] [] s'
      | StartField =>
          if N.eqb c c_quote then csv_read InQuoted cur fs s'
          else if N.eqb c c_comma then csv_read StartField [] (fs ++ [cur]) s'
          else if is_term c then (fs ++ [cur]) :: csv_read StartRecord [] [] s'
          else csv_read InField (cur ++ [c]) fs s'
      | InField =>
          if N.eqb c c_comma then csv_read StartField [] (fs ++ [cur]) s'
          else if is_term c then (fs ++ [cur]) :: csv_read StartRecord [] [] s'
          else csv_read InField (cur ++ [c]) fs s'
      | InQuoted =>
          if N.eqb c c_quote then csv_read InQuoteQuoted cur fs s'
          else csv_read InQuoted (cur ++ [c]) fs s'
      | InQuoteQuoted =>
          if N.eqb c c_quote then csv_read InQuoted (cur ++ [c]) fs s'
          else if N.eqb c c_comma then csv_read StartField [] (fs ++ [cur]) s'
          else if is_term c then (fs ++ [cur]) :: csv_read StartRecord [] [] s'
          else csv_read InField (cur ++ [c]) fs s'
      end
  end.

(** csv-core: a byte order mark at the start is skipped *)
Definition strip_bom (s : str) : str :=
  match s with c :: s' => if N.eqb c c_bom then s' else s | [] => [] end.

(** char::to_digit *)
Definition digit_of (radix : N) (c : chr) : option N :=
  let d := if (48 <=? c)%N && (c <=? 57)%N then Some (c - 48)%N
           else if (97 <=? c)%N && (c <=? 122)%N then Some (c - 87)%N
           else if (65 <=? c)%N && (c <=? 90)%N then Some (c - 55)%N else None in
  match d with Some v => if (v <? radix)%N then Some v else None | None => None end.

Definition u64_max : N := (2 ^ 64 - 1)%N.
(** u64::from_str_radix, after the sign *)
Fixpoint radix_digits (radix acc : N) (s : str) : option N :=
  match s with
  | [] => Some acc
  | c :: s' =>
      match digit_of radix c with
      | None => None
      | Some d => let acc' := (acc * radix + d)%N in
                  if (acc' <=? u64_max)%N then radix_digits radix acc' s' else None
      end
  end.
Definition from_str_radix (radix : N) (s : str) : option N :=
  match s with
  | [] => None
  | c :: s' =>
      if N.eqb c 43 then match s' with [] => None | _ => radix_digits radix 0 s' end
      else radix_digits radix 0 s
  end.
(** csv's deserialize_u64: "0x" announces a hexadecimal number *)
Definition de_u64 (s : str) : option N :=
  match s with
  | a :: b :: s' => if N.eqb a 48 && N.eqb b 120 then from_str_radix 16 s' else from_str_radix 10 s
  | _ => from_str_radix 10 s
  end.

(** csv's deserialize_option and deserialize_f32 *)
Definition de_time (read : str -> option f32) (s : str) : option (option f32) :=
  match s with
  | [] => Some None
  | _ => option_map Some (read s)
  end.

(** output.rs:52-66, Deserialize: the derived visit_map.  Columns go by name, in any order;
    a known name that comes twice is an error; other columns are ignored. *)
Fixpoint de_cells (read : str -> option f32) (cells : list (str * str))
    (p : option str) (n : option N) (t : option (option f32)) : option unit_row :=
  match cells with
  | [] =>
      match p, n with
      | Some p', Some n' =>
          Some (mkRow (PText p') n' (match t with Some t' => t' | None => None end))
      | _, _ => None
      end
  | (key, v) :: cells' =>
      if str_eqb key file_key then
        match p with
        | Some _ => None
        | None => de_cells read cells' (Some v) n t
        end
      else if str_eqb key max_rss_key then
        match n, de_u64 v with
        | None, Some n' => de_cells read cells' p (Some n') t
        | _, _ => None
        end
      else if str_eqb key time_key then
        match t, de_time read v with
        | None, Some t' => de_cells read cells' p n (Some t')
        | _, _ => None
        end
      else de_cells read cells' p n t
  end.

(** csv's ByteRecord check (not `flexible`), then the record *)
Definition de_row (read : str -> option f32) (header row : list str) : option unit_row :=
  if length row =? length header then de_cells read (combine header row) None None None else None.

(** output.rs:29-35: the first error ends the loop *)
Fixpoint de_rows (read : str -> option f32) (header : list str) (rows : list (list str)) : option (list unit_row) :=
  match rows with
  | [] => Some []
  | row :: rows' =>
      match de_row read header row with
      | None => None
      | Some u => option_map (cons u) (de_rows read header rows')
      end
  end.

(** output.rs:38-47 *)
Inductive load_error := FileNotFound | ParseError.

(** output.rs:14-35; [file] is the text of the file, None if there is none.  Other I/O errors
    are not modelled. *)
Definition load (read : str -> option f32) (file : option str) : list unit_row + load_error :=
  match file with
  | None => inr FileNotFound
  | Some s =>
      match csv_read StartRecord [] [] (strip_bom s) with
      | [] => inl []
      | header :: rows =>
          match de_rows read header rows with
          | Some us => inl us
          | None => inr ParseError
          end
      end
  end.

(** Model of crate `asylum` (asylum/src/lib.rs, sequence.rs, path.rs) and of
    cpparser/src/interning/recursion.rs. *)
From Verif Require Import Base.

(** ** lasso keys (external crate; behaviour recorded in the trusted base)
    `MicroSpur`/`MiniSpur`/`Spur`/`LargeSpur` store `n + 1` in a NonZero integer of
    [w] = 8/16/32/64 bits; `try_from_usize n` succeeds iff `n < uN::MAX`. *)
Definition key := N.
Definition key_try_from_usize (w : N) (n : N) : option key :=
  if (n <? 2 ^ w - 1)%N then Some (n + 1)%N else None.
Definition key_into_usize (k : key) : N := (k - 1)%N.

(** ** hashbrown `RawTable` (external crate).
    Entries in some order with the hash they were inserted under.  A lookup offers to the
    equality closure the entries whose stored hash is compatible with the wanted hash
    ([probe], at least the entries with the same hash) and returns the first match. *)
Section Table.
  Variable probe : N -> N -> bool.
  Definition table (K : Type) := list (N * K).
  Definition table_get {K} (t : table K) (h : N) (eq : K -> bool) : option K :=
    match find (fun e => probe h (fst e) && eq (snd e)) t with
    | Some e => Some (snd e)
    | None => None
    end.
  Definition table_insert {K} (t : table K) (h : N) (k : K) : table K := (h, k) :: t.
End Table.

(** ** Interner (asylum/src/lib.rs:80-170) *)
Section Interner.
  Variable Item : Type.
  Variable item_eqb : Item -> Item -> bool.       (* Item: Eq *)
  Variable hash : Item -> N.                      (* random_state.hash_one *)
  Variable probe : N -> N -> bool.
  Variable w : N.                                 (* bits of key type K *)

  (** asylum/src/lib.rs:85-94 *)
  Record interner := mk_interner { it_items : list Item; it_keys : table key }.

  (** asylum/src/lib.rs:98-104 *)
  Definition it_new : interner := mk_interner [] [].

  (** Slice indexing `self.items[i]`; None stands for the out of bounds panic. *)
  Definition index {A} (l : list A) (i : N) : option A := nth_error l (N.to_nat i).

  (** `self.items[key.into_usize()] == item` in lib.rs:120 (an out-of-bounds index,
      which would panic, cannot match: the stored keys are shown valid). *)
  Definition it_matches (st : interner) (x : Item) (k : key) : bool :=
    match index (it_items st) (key_into_usize k) with
    | Some y => item_eqb y x
    | None => false
    end.

  (** asylum/src/lib.rs:114-134.  A panic happens before any mutation. *)
  Definition it_intern (st : interner) (x : Item) : outcome (key * interner) :=
    match table_get probe (it_keys st) (hash x) (it_matches st x) with
    | Some k => Ret (k, st)
    | None =>
        match key_try_from_usize w (N.of_nat (length (it_items st))) with
        | None => Panic
        | Some k => Ret (k, mk_interner (it_items st ++ [x])
                                        (table_insert (it_keys st) (hash x) k))
        end
    end.

  (** asylum/src/lib.rs:137-139, 163-170 *)
  Definition it_get (st : interner) (k : key) : outcome Item :=
    expect (index (it_items st) (key_into_usize k)).

  (** asylum/src/lib.rs:142-149 *)
  Definition it_len (st : interner) : nat := length (it_items st).
  Definition it_is_empty (st : interner) : bool :=
    match it_items st with [] => true | _ => false end.

  (** asylum/src/lib.rs:152-154: `Interned` keeps the items only *)
  Definition it_finalize (st : interner) : list Item := it_items st.
  (** asylum/src/lib.rs:67-78 *)
  Definition interned_get (items : list Item) (k : key) : outcome Item :=
    expect (index items (key_into_usize k)).

  (** A client interning a list of items one after the other; a call that panics is
      caught and recorded as [None] (the interner is unchanged by it). *)
  Fixpoint it_run (st : interner) (xs : list Item) : list (option key) * interner :=
    match xs with
    | [] => ([], st)
    | x :: xs' =>
        match it_intern st x with
        | Ret (k, st') => let (ks, st'') := it_run st' xs' in (Some k :: ks, st'')
        | Panic => let (ks, st'') := it_run st xs' in (None :: ks, st'')
        end
    end.
End Interner.
Arguments mk_interner {Item}.
Arguments it_items {Item}.
Arguments it_keys {Item}.
Arguments it_new {Item}.
Arguments it_len {Item}.
Arguments it_is_empty {Item}.
Arguments it_get {Item}.
Arguments it_finalize {Item}.
Arguments interned_get {Item}.

(** ** Sequence keys (asylum/src/sequence.rs:21-61).
    [w]: bits of the inner lasso key, [lb]: LEN_BITS; usize is 64 bits wide. *)
Section SeqKey.
  Variables w lb : N.

  (** A `Range<usize>` start..end *)
  Definition range := (N * N)%type.

  (** asylum/src/sequence.rs:34-39 *)
  Definition seqkey_into_impl_key (k : key) : range :=
    let packed := key_into_usize k in
    let len := N.land packed (N.shiftl 1 lb - 1) in
    let offset := N.shiftr packed lb in
    (offset, offset + len)%N.

  (** `usize::leading_zeros` *)
  Definition leading_zeros64 (n : N) : N := (64 - N.size n)%N.

  (** asylum/src/sequence.rs:41-60.  The assertion of check_configuration (lines 25-28)
      is evaluated first; `impl_key.count()` of start..end is `end - start` or 0;
      `offset << LEN_BITS` is a 64-bit shift. *)
  Definition seqkey_try_from_impl_key (r : range) : outcome (option key) :=
    if (lb <? 64)%N then
      let offset := fst r in
      if (leading_zeros64 offset <? lb)%N then Ret None
      else
        let len := (snd r - fst r)%N in
        if (N.shiftl 1 lb <=? len)%N then Ret None
        else
          let packed := N.lor (N.modulo (N.shiftl offset lb) (2 ^ 64)) len in
          Ret (key_try_from_usize w packed)
    else Panic.
End SeqKey.

(** ** Sequence interner (asylum/src/sequence.rs:88-291) *)
Section SeqInterner.
  Variable Item : Type.
  Variable item_eqb : Item -> Item -> bool.
  Variable hash : list Item -> N.
  Variable probe : N -> N -> bool.
  Variables w lb : N.

  (** asylum/src/sequence.rs:90-102 *)
  Record seqint := mk_seqint { sq_concat : list Item; sq_table : table key }.

  (** asylum/src/sequence.rs:106-112 *)
  Definition sq_new : seqint := mk_seqint [] [].

  (** `&self.concatenated[a..b]`; None stands for the out of bounds panic *)
  Definition slice (l : list Item) (r : range) : option (list Item) :=
    let (a, b) := r in
    if ((a <=? b) && (b <=? N.of_nat (length l)))%N
    then Some (firstn (N.to_nat (b - a)) (skipn (N.to_nat a) l))
    else None.

  Fixpoint list_eqb (a b : list Item) : bool :=
    match a, b with
    | [], [] => true
    | x :: a', y :: b' => item_eqb x y && list_eqb a' b'
    | _, _ => false
    end.

  (** asylum/src/sequence.rs:115-121 *)
  Definition sq_get_key (st : seqint) (h : N) (s : list Item) : option key :=
    table_get probe (sq_table st) h
      (fun k => match slice (sq_concat st) (seqkey_into_impl_key lb k) with
                | Some t => list_eqb t s
                | None => false
                end).

  (** asylum/src/sequence.rs:145-159; a panic happens before any mutation *)
  Definition sq_intern (st : seqint) (s : list Item) : outcome (key * seqint) :=
    let h := hash s in
    match sq_get_key st h s with
    | Some k => Ret (k, st)
    | None =>
        let start := N.of_nat (length (sq_concat st)) in
        obind (seqkey_try_from_impl_key w lb (start, start + N.of_nat (length s))%N)
          (fun ok =>
             obind (expect ok) (fun k =>
               Ret (k, mk_seqint (sq_concat st ++ s) (table_insert (sq_table st) h k))))
    end.

  (** asylum/src/sequence.rs:162-164, 212-220 *)
  Definition sq_get (st : seqint) (k : key) : outcome (list Item) :=
    expect (slice (sq_concat st) (seqkey_into_impl_key lb k)).

  (** asylum/src/sequence.rs:167-179 *)
  Definition sq_len (st : seqint) : nat := length (sq_table st).
  Definition sq_is_empty (st : seqint) : bool := Nat.eqb (sq_len st) 0.
  Definition sq_num_items (st : seqint) : nat := length (sq_concat st).

  (** asylum/src/sequence.rs:182-193 *)
  Definition sq_max_sequence_len (st : seqint) : option nat :=
    match sq_table st with
    | [] => None
    | _ => Some (fold_right Nat.max 0
                   (map (fun e => let (a, b) := seqkey_into_impl_key lb (snd e) in
                                  N.to_nat (b - a)) (sq_table st)))
    end.

  (** asylum/src/sequence.rs:196-201 and 73-86 *)
  Definition sq_finalize (st : seqint) : list Item := sq_concat st.
  Definition seqs_get (c : list Item) (k : key) : outcome (list Item) :=
    expect (slice c (seqkey_into_impl_key lb k)).

  (** *** Entries (asylum/src/sequence.rs:222-291).  The entry borrows the interner
      mutably, so its state is the interner plus the initial length. *)
  Record entry := mk_entry { en_int : seqint; en_init : nat }.

  (** asylum/src/sequence.rs:136-142 *)
  Definition sq_entry (st : seqint) : entry := mk_entry st (length (sq_concat st)).

  (** asylum/src/sequence.rs:237-239 *)
  Definition en_push (e : entry) (x : Item) : entry :=
    mk_entry (mk_seqint (sq_concat (en_int e) ++ [x]) (sq_table (en_int e))) (en_init e).

  (** asylum/src/sequence.rs:242-248 *)
  Definition en_pop (e : entry) : option Item * entry :=
    let c := sq_concat (en_int e) in
    if Nat.ltb (en_init e) (length c)
    then (nth_error c (length c - 1),
          mk_entry (mk_seqint (removelast c) (sq_table (en_int e))) (en_init e))
    else (None, e).

  (** asylum/src/sequence.rs:251-258 *)
  Definition en_len (e : entry) : nat := length (sq_concat (en_int e)) - en_init e.
  Definition en_is_empty (e : entry) : bool := Nat.eqb (en_len e) 0.

  (** asylum/src/sequence.rs:282-291 *)
  Definition en_drop (e : entry) : seqint :=
    mk_seqint (firstn (en_init e) (sq_concat (en_int e))) (sq_table (en_int e)).

  (** asylum/src/sequence.rs:261-279.  Returns the key (or panic) and the interner left
      behind: `self` is dropped (rolled back) on the early return and when unwinding, and
      forgotten when the sequence is new. *)
  Definition en_intern (e : entry) : outcome key * seqint :=
    let st := en_int e in
    let s := skipn (en_init e) (sq_concat st) in
    let h := hash s in
    let start := N.of_nat (en_init e) in
    match obind (seqkey_try_from_impl_key w lb (start, start + N.of_nat (length s))%N) expect with
    | Panic => (Panic, en_drop e)
    | Ret new_key =>
        match sq_get_key st h s with
        | Some old => (Ret old, en_drop e)
        | None => (Ret new_key,
                   mk_seqint (sq_concat st) (table_insert (sq_table st) h new_key))
        end
    end.

  (** *** Client programs: arbitrary interleaving of whole-slice interning and entry
      transactions (at most one entry is alive at a time: it borrows the interner). *)
  Inductive entry_op := EPush (x : Item) | EPop | ELen.
  Inductive entry_obs := OUnit | OPop (x : option Item) | OLen (n : nat).
  Inductive seq_op :=
  | OpIntern (s : list Item)                          (* interner.intern(&s) *)
  | OpEntry (ops : list entry_op) (commit : bool).    (* entry(); ops; intern() or drop *)

  Definition en_step (e : entry) (o : entry_op) : entry_obs * entry :=
    match o with
    | EPush x => (OUnit, en_push e x)
    | EPop => let (r, e') := en_pop e in (OPop r, e')
    | ELen => (OLen (en_len e), e)
    end.

  Fixpoint en_run (e : entry) (ops : list entry_op) : list entry_obs * entry :=
    match ops with
    | [] => ([], e)
    | o :: ops' => let (b, e1) := en_step e o in
                   let (bs, e2) := en_run e1 ops' in (b :: bs, e2)
    end.

  (** Output of one client operation: the observations made on the entry and, if the
      sequence was interned, the key or panic. *)
  Definition seq_out := (list entry_obs * option (outcome key))%type.

  Definition sq_step (st : seqint) (o : seq_op) : seq_out * seqint :=
    match o with
    | OpIntern s =>
        match sq_intern st s with
        | Ret (k, st') => (([], Some (Ret k)), st')
        | Panic => (([], Some Panic), st)
        end
    | OpEntry ops commit =>
        let (obs, e) := en_run (sq_entry st) ops in
        if commit then let (r, st') := en_intern e in ((obs, Some r), st')
        else ((obs, None), en_drop e)
    end.

  Fixpoint sq_run (st : seqint) (os : list seq_op) : list seq_out * seqint :=
    match os with
    | [] => ([], st)
    | o :: os' => let (r, st1) := sq_step st o in
                  let (rs, st2) := sq_run st1 os' in (r :: rs, st2)
    end.
End SeqInterner.
Arguments mk_seqint {Item}.
Arguments sq_concat {Item}.
Arguments sq_table {Item}.
Arguments sq_new {Item}.
Arguments slice {Item}.
Arguments sq_get {Item}.
Arguments sq_len {Item}.
Arguments sq_is_empty {Item}.
Arguments sq_num_items {Item}.
Arguments sq_max_sequence_len {Item}.
Arguments sq_finalize {Item}.
Arguments seqs_get {Item}.
Arguments mk_entry {Item}.
Arguments en_int {Item}.
Arguments en_init {Item}.
Arguments sq_entry {Item}.
Arguments en_push {Item}.
Arguments en_pop {Item}.
Arguments en_len {Item}.
Arguments en_is_empty {Item}.
Arguments en_drop {Item}.
Arguments en_step {Item}.
Arguments en_run {Item}.
Arguments EPush {Item}.
Arguments EPop {Item}.
Arguments ELen {Item}.
Arguments OUnit {Item}.
Arguments OPop {Item}.
Arguments OLen {Item}.
Arguments OpIntern {Item}.
Arguments OpEntry {Item}.

(** ** Recursive sequence interner (cpparser/src/interning/recursion.rs) *)
Section Recursive.
  Variable Item : Type.
  Variable item_eqb : Item -> Item -> bool.
  Variable hash : list Item -> N.
  Variable probe : N -> N -> bool.
  Variables w lb : N.

  (** recursion.rs:21-30, plus the live entries of the clients (each owns its buffer,
      recursion.rs:94-104), identified by a number chosen by the client. *)
  Record recst := mk_recst {
    rc_int : seqint Item;
    rc_storage : list (list Item);               (* a stack: Vec push/pop at the end *)
    rc_live : list (N * list Item) }.

  (** recursion.rs:36-41 *)
  Definition rc_new : recst := mk_recst sq_new [] [].

  Fixpoint live_get (l : list (N * list Item)) (id : N) : option (list Item) :=
    match l with
    | [] => None
    | (i, b) :: l' => if N.eqb i id then Some b else live_get l' id
    end.
  Fixpoint live_remove (l : list (N * list Item)) (id : N) : list (N * list Item) :=
    match l with
    | [] => []
    | (i, b) :: l' => if N.eqb i id then l' else (i, b) :: live_remove l' id
    end.
  Fixpoint live_set (l : list (N * list Item)) (id : N) (v : list Item) : list (N * list Item) :=
    match l with
    | [] => []
    | (i, b) :: l' => if N.eqb i id then (i, v) :: l' else (i, b) :: live_set l' id v
    end.

  (** recursion.rs:68-82: take a recycled buffer (the last one stored) and clear it, or
      allocate.  `sequence.clear()` is the explicit [clear]. *)
  Definition clear (b : list Item) : list Item := [].
  Definition rc_entry (st : recst) (id : N) : recst :=
    match rev (rc_storage st) with
    | b :: rest => mk_recst (rc_int st) (rev rest) ((id, clear b) :: rc_live st)
    | [] => mk_recst (rc_int st) [] ((id, []) :: rc_live st)
    end.

  (** recursion.rs:110-112 *)
  Definition rc_push (st : recst) (id : N) (x : Item) : recst :=
    match live_get (rc_live st) id with
    | Some b => mk_recst (rc_int st) (rc_storage st) (live_set (rc_live st) id (b ++ [x]))
    | None => st
    end.

  (** recursion.rs:124-134: the buffer goes back, uncleared, to the storage *)
  Definition rc_drop (st : recst) (id : N) : recst :=
    match live_get (rc_live st) id with
    | Some b => mk_recst (rc_int st) (rc_storage st ++ [b]) (live_remove (rc_live st) id)
    | None => st
    end.

  (** recursion.rs:115-121 then Drop; on a panic Drop still runs *)
  Definition rc_intern (st : recst) (id : N) : option (outcome key) * recst :=
    match live_get (rc_live st) id with
    | Some b =>
        match sq_intern Item item_eqb hash probe w lb (rc_int st) b with
        | Ret (k, i') => (Some (Ret k), rc_drop (mk_recst i' (rc_storage st) (rc_live st)) id)
        | Panic => (Some Panic, rc_drop st id)
        end
    | None => (None, st)
    end.

  Inductive rec_op := RNew (id : N) | RPush (id : N) (x : Item) | RIntern (id : N) | RDrop (id : N).

  Definition rc_step (st : recst) (o : rec_op) : option (outcome key) * recst :=
    match o with
    | RNew id => (None, match live_get (rc_live st) id with
                        | Some _ => st         (* the client must use fresh names *)
                        | None => rc_entry st id
                        end)
    | RPush id x => (None, rc_push st id x)
    | RIntern id => rc_intern st id
    | RDrop id => (None, rc_drop st id)
    end.

  Fixpoint rc_run (st : recst) (os : list rec_op) : list (option (outcome key)) * recst :=
    match os with
    | [] => ([], st)
    | o :: os' => let (r, st1) := rc_step st o in
                  let (rs, st2) := rc_run st1 os' in (r :: rs, st2)
    end.
End Recursive.
Arguments mk_recst {Item}.
Arguments rc_int {Item}.
Arguments rc_storage {Item}.
Arguments rc_live {Item}.
Arguments rc_new {Item}.
Arguments live_get {Item}.
Arguments RNew {Item}.
Arguments RPush {Item}.
Arguments RIntern {Item}.
Arguments RDrop {Item}.

(** ** Path interner (asylum/src/path.rs), Unix paths *)

(** `std::path::Component` on Unix (no Prefix) *)
Inductive component := RootDir | CurDir | ParentDir | Normal (s : str).

(** Split at '/' ; always at least one (possibly empty) segment. *)
Fixpoint split_slash (s : str) : list str :=
  match s with
  | [] => [[]]
  | c :: s' =>
      if N.eqb c slash then [] :: split_slash s'
      else match split_slash s' with
           | seg :: rest => (c :: seg) :: rest
           | [] => [[c]]
           end
  end.

Definition is_dot (s : str) : bool := str_eqb s [dot].
Definition is_dotdot (s : str) : bool := str_eqb s [dot; dot].

(** std `Path::has_root` / `is_relative` (Unix) *)
Definition path_has_root (p : str) : bool :=
  match p with c :: _ => N.eqb c slash | [] => false end.
Definition path_is_relative (p : str) : bool := negb (path_has_root p).

(** std `Components`: empty and `.` segments are skipped, except a leading `.` of a
    relative path; `..` is ParentDir. *)
Definition segment_component (s : str) : option component :=
  match s with
  | [] => None
  | _ => if is_dot s then None else if is_dotdot s then Some ParentDir else Some (Normal s)
  end.
Fixpoint filter_some {A} (l : list (option A)) : list A :=
  match l with
  | [] => []
  | Some a :: l' => a :: filter_some l'
  | None :: l' => filter_some l'
  end.
Definition path_components (p : str) : list component :=
  let segs := split_slash p in
  let body := filter_some (map segment_component segs) in
  if path_has_root p then RootDir :: body
  else match segs with
       | s :: _ => if is_dot s then CurDir :: body else body
       | [] => body
       end.

(** `Component::as_os_str` *)
Definition component_str (c : component) : str :=
  match c with
  | RootDir => [slash]
  | CurDir => [dot]
  | ParentDir => [dot; dot]
  | Normal s => s
  end.

Section Paths.
  Variable comp_hash : str -> N.                 (* lasso::Rodeo, same contract as Interner *)
  Variable seq_hash : list key -> N.
  Variable probe : N -> N -> bool.
  Variable cw : N.                               (* bits of the component key *)
  Variables w lb : N.                            (* path key *)

  (** asylum/src/path.rs:207-216 *)
  Record pathint := mk_pathint { pi_comps : interner str; pi_seqs : seqint key }.

  (** asylum/src/path.rs:222-227 *)
  Definition pi_new : pathint := mk_pathint it_new sq_new.

  (** `self.components.get_or_intern(s)`: lasso panics when keys run out, like Interner *)
  Definition comp_intern (cs : interner str) (s : str) : outcome (key * interner str) :=
    it_intern str str_eqb comp_hash probe cw cs s.

  (** asylum/src/path.rs:253-271 — the loop over components.  On a panic of
      get_or_intern the entry is dropped while unwinding (roll back). *)
  Fixpoint pi_loop (cs : interner str) (e : entry key) (l : list component)
    : outcome unit * interner str * entry key :=
    match l with
    | [] => (Ret tt, cs, e)
    | c :: l' =>
        match c with
        | Normal _ | RootDir =>
            match comp_intern cs (component_str c) with
            | Ret (k, cs') => pi_loop cs' (en_push e k) l'
            | Panic => (Panic, cs, e)
            end
        | ParentDir =>
            if Nat.ltb 1 (en_len e) then pi_loop cs (snd (en_pop e)) l'
            else pi_loop cs e l'
        | CurDir => pi_loop cs e l'
        end
    end.

  (** Result of `PathInterner::intern` *)
  Inductive path_result := PKey (k : key) | PErrRelative (p : str).

  (** asylum/src/path.rs:238-275 *)
  Definition pi_intern (st : pathint) (p : str) : outcome path_result * pathint :=
    if path_is_relative p then (Ret (PErrRelative p), st)
    else
      match pi_loop (pi_comps st) (sq_entry (pi_seqs st)) (path_components p) with
      | (Panic, cs, e) => (Panic, mk_pathint cs (en_drop e))
      | (Ret tt, cs, e) =>
          match en_intern key N.eqb seq_hash probe w lb e with
          | (Ret k, sq') => (Ret (PKey k), mk_pathint cs sq')
          | (Panic, sq') => (Panic, mk_pathint cs sq')
          end
      end.

  (** asylum/src/path.rs:121-134, 335-337 and 278-280: the component values of a key *)
  Fixpoint get_all (cs : interner str) (ks : list key) : outcome (list str) :=
    match ks with
    | [] => Ret []
    | k :: ks' => obind (it_get cs k) (fun s => obind (get_all cs ks') (fun r => Ret (s :: r)))
    end.
  Definition pi_components (st : pathint) (k : key) : outcome (list str) :=
    obind (sq_get lb (pi_seqs st) k) (fun ks => get_all (pi_comps st) ks).

  (** std `PathBuf::push` (Unix) *)
  Definition ends_with_slash (b : str) : bool :=
    match rev b with c :: _ => N.eqb c slash | [] => false end.
  Definition pathbuf_push (b p : str) : str :=
    if path_has_root p then p
    else if (match b with [] => true | _ => ends_with_slash b end) then b ++ p
    else b ++ [slash] ++ p.

  (** asylum/src/path.rs:137-143 *)
  Definition boxed_path (comps : list str) : str := fold_left pathbuf_push comps [].
  Definition pi_to_boxed_path (st : pathint) (k : key) : outcome str :=
    obind (pi_components st k) (fun cs => Ret (boxed_path cs)).

  (** asylum/src/path.rs:283-305 *)
  Definition pi_len (st : pathint) : nat := sq_len (pi_seqs st).
  Definition pi_is_empty (st : pathint) : bool := sq_is_empty (pi_seqs st).
  Definition pi_num_components (st : pathint) : nat := sq_num_items (pi_seqs st).
  Definition pi_num_unique_components (st : pathint) : nat := it_len (pi_comps st).

  Fixpoint pi_run (st : pathint) (ps : list str) : list (outcome path_result) * pathint :=
    match ps with
    | [] => ([], st)
    | p :: ps' => let (r, st1) := pi_intern st p in
                  let (rs, st2) := pi_run st1 ps' in (r :: rs, st2)
    end.
End Paths.

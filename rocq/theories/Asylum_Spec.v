(** Specification vocabulary for the asylum properties: what a client of the interners
    did, said without reference to how interners store things. *)
From Verif Require Import Base Asylum_Model.

(** [x] was successfully interned by one of the calls [xs] that returned [ks]. *)
Definition succeeded {Item} (xs : list Item) (ks : list (option key)) (x : Item) : Prop :=
  exists i k, nth_error xs i = Some x /\ nth_error ks i = Some (Some k).

(** What a key with [w] bits, [lb] of them for the length, can hold. *)
Definition representable (w lb o len : N) : Prop :=
  (o * 2 ^ lb < 2 ^ 64 /\ len < 2 ^ lb /\ o * 2 ^ lb + len < 2 ^ w - 1)%N.

Section Seq.
  Context {Item : Type}.
  (** The effect of entry operations on a private list. *)
  Definition local_step (l : list Item) (o : entry_op Item) : entry_obs Item * list Item :=
    match o with
    | EPush x => (OUnit, l ++ [x])
    | EPop => match rev l with
              | [] => (OPop None, [])
              | x :: r => (OPop (Some x), rev r)
              end
    | ELen => (OLen (length l), l)
    end.
  Fixpoint local_run (l : list Item) (ops : list (entry_op Item)) : list (entry_obs Item) * list Item :=
    match ops with
    | [] => ([], l)
    | o :: ops' => let (b, l1) := local_step l o in
                   let (bs, l2) := local_run l1 ops' in (b :: bs, l2)
    end.
  (** The items that survive the pushes and pops of a transaction. *)
  Definition survivors (ops : list (entry_op Item)) : list Item := snd (local_run [] ops).

  (** The sequence a client operation asks to intern, if any. *)
  Definition wanted (o : seq_op Item) : option (list Item) :=
    match o with
    | OpIntern s => Some s
    | OpEntry ops true => Some (survivors ops)
    | OpEntry ops false => None
    end.

  (** Operation [i] of history [os] (outputs [outs]) interned [s] and got [k]. *)
  Definition got (os : list (seq_op Item)) (outs : list (seq_out Item)) (i : nat)
      (s : list Item) (k : key) : Prop :=
    exists o obs, nth_error os i = Some o /\ wanted o = Some s /\
                  nth_error outs i = Some (obs, Some (Ret k)).
End Seq.

Section Rec.
  Context {Item : Type}.
  (** The items pushed to the live work-in-progress sequence [id] since its creation, after
      the operations [p] (most recent first); None when no such sequence is alive.
      Operations on other identifiers are skipped. *)
  Fixpoint items_of (p : list (rec_op Item)) (id : N) : option (list Item) :=
    match p with
    | [] => None
    | RNew j :: p' =>
        if N.eqb j id then match items_of p' id with Some l => Some l | None => Some [] end
        else items_of p' id
    | RPush j x :: p' =>
        if N.eqb j id then option_map (fun l => l ++ [x]) (items_of p' id) else items_of p' id
    | RIntern j :: p' | RDrop j :: p' => if N.eqb j id then None else items_of p' id
    end.
  (** The sequence each operation interns, if any. *)
  Fixpoint rec_wanted (p : list (rec_op Item)) (os : list (rec_op Item)) : list (option (list Item)) :=
    match os with
    | [] => []
    | o :: os' =>
        (match o with RIntern id => items_of p id | _ => None end) :: rec_wanted (o :: p) os'
    end.
End Rec.

(** ** Lexical normal form of a path string *)
Definition norm_step (acc : list str) (seg : str) : list str :=
  if str_eqb seg [] then acc                       (* "//" *)
  else if str_eqb seg [dot] then acc               (* "." *)
  else if str_eqb seg [dot; dot] then removelast acc   (* "..", stays at the root *)
  else acc ++ [seg].
(** The sequences under construction after the operations [os] (oldest first): created and
    neither interned nor dropped since.  Creating a name twice does nothing. *)
Fixpoint open_after {Item} (names : list N) (os : list (rec_op Item)) : list N :=
  match os with
  | [] => names
  | RNew j :: os' => open_after (if existsb (N.eqb j) names then names else j :: names) os'
  | RPush _ _ :: os' => open_after names os'
  | RIntern j :: os' | RDrop j :: os' => open_after (filter (fun i => negb (N.eqb j i)) names) os'
  end.

(** Directory names from the root to the file. *)
Definition normal_form (p : str) : list str := fold_left norm_step (split_slash p) [].

Definition absolute (p : str) : Prop := exists rest, p = slash :: rest.

(** "/a/b/c" *)
Fixpoint join_slash (l : list str) : str :=
  match l with
  | [] => []
  | [s] => s
  | s :: l' => s ++ slash :: join_slash l'
  end.
Definition render (names : list str) : str := slash :: join_slash names.

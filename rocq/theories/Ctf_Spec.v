(** * What a JSON document means as a trace

    Nothing here depends on the order in which fields are visited, except where the meaning of
    the document does. *)

From Coq Require Import String Permutation Sorted.
From Verif Require Import Base Load_Model Load_Spec Ctf_Model.
Local Open Scope list_scope.

Notation "'key' s" := (of_string s) (at level 10, s at level 0).

(** Fields of an object *)
Definition absent (l : fields) (k : str) : Prop := forall v, ~ In (k, v) l.
(** The last value of a field *)
Definition final (l : fields) (k : str) (v : doc) : Prop :=
  exists pre post, l = pre ++ (k, v) :: post /\ absent post k.
(** [a] comes before [b] *)
Definition alphabetical (a b : str) : Prop :=
  exists p, (a = p /\ exists y b', b = p ++ y :: b')
            \/ exists x a' y b', a = p ++ x :: a' /\ b = p ++ y :: b' /\ (x < y)%N.
(** At most once *)
Definition single (l : fields) (k : str) : Prop :=
  forall pre v mid w post, l <> pre ++ (k, v) :: mid ++ (k, w) :: post.
(** The field [k], which must be there, reads as [x]. *)
Definition has {A} (l : fields) (k : str) (R : doc -> A -> Prop) (x : A) : Prop :=
  exists v, In (k, v) l /\ R v x.
(** The field [k], if it is there and not null, reads as [o]. *)
Definition may_have {A} (l : fields) (k : str) (R : doc -> A -> Prop) (o : option A) : Prop :=
  match o with
  | Some x => has l k R x
  | None => absent l k \/ In (k, DNull) l
  end.

Definition int32 (v : doc) (z : Z) : Prop := v = DNum (NInt z) /\ (- 2 ^ 31 <= z < 2 ^ 31)%Z.
Definition int64 (v : doc) (z : Z) : Prop := v = DNum (NInt z) /\ (- 2 ^ 63 <= z < 2 ^ 63)%Z.
Definition text (v : doc) (s : str) : Prop := v = DStr s.

(** Non-empty pieces of a text, between commas *)
Fixpoint joined (l : list str) : str :=
  match l with [] => [] | [p] => p | p :: r => p ++ of_string "," ++ joined r end.
Definition categories (v : doc) (c : list str) : Prop :=
  exists pieces, pieces <> [] /\ v = DStr (joined pieces)
    /\ (forall p, In p pieces -> ~ In 44%N p)
    /\ c = filter (fun p => match p with [] => false | _ => true end) pieces.

(** Identification of a stack frame: a 64-bit integer or a text *)
Definition frame_id (v : doc) : Prop := (exists s, text v s) \/ exists z, int64 v z.
Definition texts (v : doc) : Prop := exists l, v = DArr l /\ forall x, In x l -> exists s, text x s.

(** Whether an object has a stack trace: what counts is the first field that may be one. *)
Definition has_stack (id inline : str) (l : fields) : Prop :=
  exists pre k v post, l = pre ++ (k, v) :: post /\ absent pre id /\ absent pre inline
    /\ ((k = id /\ frame_id v) \/ (k = inline /\ texts v)).
Definition stack_is (id inline : str) (l : fields) (o : option N) : Prop :=
  (has_stack id inline l /\ o = Some 0%N) \/ (~ has_stack id inline l /\ o = None).

(** Fields of an object other than [names] *)
Definition others (names : list str) (l : fields) : fields :=
  filter (fun e => negb (known names (fst e))) l.

Section WithNumbers.
  Variable time : number -> Z.
  Variable ident : number -> N.

  Definition instant (v : doc) (t : Z) : Prop := exists n, v = DNum n /\ t = time n.

  (** JSON values.  An object is the list of its keys in order, with the last value of each. *)
  Inductive value : doc -> json -> Prop :=
  | v_null : value DNull JNull
  | v_bool b : value (DBool b) (JBool b)
  | v_nat z : (0 <= z)%Z -> value (DNum (NInt z)) (JNum (Some (Z.to_N z)) (ident (NInt z)))
  | v_negative z : (z < 0)%Z -> value (DNum (NInt z)) (JNum None (ident (NInt z)))
  | v_float f : value (DNum (NFloat f)) (JNum None (ident (NFloat f)))
  | v_str s : value (DStr s) (JStr s)
  | v_arr l m : Forall2 value l m -> value (DArr l) (JArr m)
  | v_obj l last m :
      StronglySorted (fun e f => alphabetical (fst e) (fst f)) last ->
      (forall k v, In (k, v) last <-> final l k v) ->
      Forall2 (fun e f => fst e = fst f /\ value (snd e) (snd f)) last m ->
      value (DObj l) (JObj m).
  (** A map of values: the last value of each key, in any order *)
  Definition mapping (l : fields) (m : args) : Prop :=
    distinct_keys m /\
    forall k j, In (k, j) m <-> exists v, final l k v /\ value v j.
  Definition map_of (v : doc) (m : args) : Prop := exists l, v = DObj l /\ mapping l m.

  (** Events that last *)
  Definition duration_fields (l : fields) (d : duration_event) : Prop :=
    (forall k, In k [key "pid"; key "tid"; key "ts"; key "name"; key "cat"; key "tts"; key "args"] ->
       single l k)
    /\ has l (key "pid") int32 (de_pid d) /\ has l (key "tid") int32 (de_tid d)
    /\ has l (key "ts") instant (de_ts d) /\ may_have l (key "name") text (de_name d)
    /\ may_have l (key "cat") categories (de_cat d) /\ may_have l (key "tts") instant (de_tts d)
    /\ may_have l (key "args") map_of (de_args d)
    /\ stack_is (key "sf") (key "stack") l (de_stack d).

  (** Arguments of metadata: the standard one, and the others *)
  Definition arguments {A} (name : str) (R : doc -> A -> Prop) (v : doc) (x : A * args) : Prop :=
    exists l, v = DObj l /\ single l name /\ has l name R (fst x) /\ mapping (others [name] l) (snd x).
  Definition metadata_fields {A} (name : str) (R : doc -> A -> Prop) (owner other : str) (l : fields)
    (x : Z) (a : A) (extra : args) (y : option Z) (o : metadata_options) : Prop :=
    (forall k, In k [owner; other; key "args"; key "cat"; key "ts"; key "tts"] -> single l k)
    /\ has l owner int32 x /\ may_have l other int32 y
    /\ has l (key "args") (arguments name R) (a, extra)
    /\ may_have l (key "cat") categories (mo_cat o) /\ may_have l (key "ts") instant (mo_ts o)
    /\ may_have l (key "tts") instant (mo_tts o).

  (** A tag is a text, or (for metadata) a number. *)
  Definition tagged (l : fields) (k : str) (v : doc) : Prop := single l k /\ In (k, v) l.
  Definition metadata_tag (l : fields) (name : str) (index : Z) : Prop :=
    tagged l (key "name") (DStr name) \/ tagged l (key "name") (DNum (NInt index)).

  Inductive event : doc -> trace_event -> Prop :=
  | event_b l d : tagged l (key "ph") (DStr (key "B")) -> duration_fields l d ->
      event (DObj l) (EvB d)
  | event_e l d : tagged l (key "ph") (DStr (key "E")) -> duration_fields l d ->
      event (DObj l) (EvE d)
  | event_x l d dur tdur stack : tagged l (key "ph") (DStr (key "X")) -> duration_fields l d ->
      single l (key "dur") -> single l (key "tdur") ->
      has l (key "dur") instant dur -> may_have l (key "tdur") instant tdur ->
      stack_is (key "esf") (key "estack") l stack ->
      event (DObj l) (EvX d dur tdur stack)
  | event_process l pid name extra tid o : tagged l (key "ph") (DStr (key "M")) ->
      metadata_tag l (key "process_name") 0 ->
      metadata_fields (key "name") text (key "pid") (key "tid") l pid name extra tid o ->
      event (DObj l) (EvM (ProcessName pid name extra tid o))
  | event_thread l tid name extra pid o : tagged l (key "ph") (DStr (key "M")) ->
      metadata_tag l (key "thread_name") 3 ->
      metadata_fields (key "name") text (key "tid") (key "pid") l tid name extra pid o ->
      event (DObj l) (EvM (ThreadName tid name extra pid o))
  | event_labels l pid x extra tid o : tagged l (key "ph") (DStr (key "M")) ->
      metadata_tag l (key "process_labels") 1 ->
      metadata_fields (key "labels") text (key "pid") (key "tid") l pid x extra tid o ->
      event (DObj l) (EvM (OtherMetadata 1))
  | event_process_sort l pid x extra tid o : tagged l (key "ph") (DStr (key "M")) ->
      metadata_tag l (key "process_sort_index") 2 ->
      metadata_fields (key "sort_order") int64 (key "pid") (key "tid") l pid x extra tid o ->
      event (DObj l) (EvM (OtherMetadata 2))
  | event_thread_sort l tid x extra pid o : tagged l (key "ph") (DStr (key "M")) ->
      metadata_tag l (key "thread_sort_index") 4 ->
      metadata_fields (key "sort_order") int64 (key "tid") (key "pid") l tid x extra pid o ->
      event (DObj l) (EvM (OtherMetadata 4)).

  (** Standard fields of the document *)
  Definition standard : list str :=
    [key "traceEvents"; key "displayTimeUnit"; key "systemTraceEvents"; key "powerTraceAsString";
     key "stackFrames"; key "samples"; key "controllerTraceDataKey"].

  (** A document that uses no standard field other than the events *)
  Definition plain_document (d : doc) (td : trace_data) : Prop :=
    exists l events,
      d = DObj l
      /\ (forall k, In k standard -> single l k)
      /\ In (key "traceEvents", DArr events) l
      /\ Forall2 event events (td_events td)
      /\ (forall v, In (key "displayTimeUnit", v) l ->
            v = DStr (key "ms") \/ v = DObj [(key "ms", DNull)])
      /\ (forall k v, In k [key "systemTraceEvents"; key "powerTraceAsString"; key "stackFrames";
                            key "samples"; key "controllerTraceDataKey"] -> In (k, v) l -> v = DNull)
      /\ mapping (others standard l) (td_extra td)
      /\ td_plain td = true.

  (** ** Documents of the format *)

  (** Fields that must be there, that may be there *)
  Definition with_field (l : fields) (k : str) (P : doc -> Prop) : Prop := exists v, In (k, v) l /\ P v.
  Definition maybe_field (l : fields) (k : str) (P : doc -> Prop) : Prop :=
    forall v, In (k, v) l -> v = DNull \/ P v.
  (** An object with these fields only, each at most once; or the array of all of them in order *)
  Definition record (names : list str) (v : doc) (l : fields) : Prop :=
    (v = DObj l /\ (forall k, In k names -> single l k) /\ forall k w, In (k, w) l -> In k names)
    \/ (v = DArr (map snd l) /\ map fst l = names).
  Definition sample (v : doc) : Prop :=
    exists l, record [key "cpu"; key "tid"; key "ts"; key "name"; key "sf"; key "weight"] v l
      /\ maybe_field l (key "cpu") (fun w => exists z, int32 w z)
      /\ with_field l (key "tid") (fun w => exists z, int32 w z)
      /\ with_field l (key "ts") (fun w => exists n, w = DNum n)
      /\ with_field l (key "name") (fun w => exists s, text w s)
      /\ with_field l (key "sf") frame_id
      /\ with_field l (key "weight") (fun w => exists z, int64 w z).
  Definition stack_frame (v : doc) : Prop :=
    exists l, record [key "category"; key "name"; key "parent"] v l
      /\ with_field l (key "category") (fun w => exists s, text w s)
      /\ with_field l (key "name") (fun w => exists s, text w s)
      /\ maybe_field l (key "parent") frame_id.
  Definition time_unit (v : doc) : Prop :=
    exists s, In s [key "ms"; key "ns"] /\ (v = DStr s \/ v = DObj [(s, DNull)]).
  Definition document (d : doc) : Prop :=
    exists l, d = DObj l
      /\ (forall k, In k standard -> single l k)
      /\ with_field l (key "traceEvents") (fun v =>
            exists events, v = DArr events /\ forall e, In e events -> exists t, event e t)
      /\ (forall v, In (key "displayTimeUnit", v) l -> time_unit v)
      /\ maybe_field l (key "systemTraceEvents") (fun v => exists s, text v s)
      /\ maybe_field l (key "powerTraceAsString") (fun v => exists s, text v s)
      /\ maybe_field l (key "stackFrames") (fun v => exists fs, v = DObj fs /\ forall k f, In (k, f) fs -> stack_frame f)
      /\ maybe_field l (key "samples") (fun v => exists l, v = DArr l /\ forall x, In x l -> sample x)
      /\ maybe_field l (key "controllerTraceDataKey") (fun v => exists s, text v s).
End WithNumbers.

(** Two documents that differ in the order of the fields of their objects only.  Fields of the
    same name stay in order, and so do the two ways to write a stack trace. *)
Definition exchangeable (k k' : str) : Prop :=
  k <> k' /\ forall id inline,
    In (id, inline) [(key "sf", key "stack"); (key "esf", key "estack")] ->
    ~ (k = id /\ k' = inline) /\ ~ (k = inline /\ k' = id).
Inductive reordered : doc -> doc -> Prop :=
| r_same d : reordered d d
| r_trans d d' d'' : reordered d d' -> reordered d' d'' -> reordered d d''
| r_item pre v v' post : reordered v v' -> reordered (DArr (pre ++ v :: post)) (DArr (pre ++ v' :: post))
| r_field pre k v v' post : reordered v v' ->
    reordered (DObj (pre ++ (k, v) :: post)) (DObj (pre ++ (k, v') :: post))
| r_swap pre a b post : exchangeable (fst a) (fst b) ->
    reordered (DObj (pre ++ a :: b :: post)) (DObj (pre ++ b :: a :: post)).

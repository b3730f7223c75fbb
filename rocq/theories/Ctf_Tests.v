(** The unit tests of clang-time-trace's Chrome Trace Event layer, replayed on the model; see
    Cpp_Tests.v for what this is for.

    Documents are written as serde_json's tokenizer presents them.  A test compares every part of
    the result the model has; the contents of stack traces, stack frames and samples, and the
    array format (which nothing but these tests reads) are not among them.  Times count tenths of
    a microsecond; the float f of a document is its number of tenths. *)
From Coq Require Import String.
From Verif Require Import Base Load_Model Ctf_Model.
Local Open Scope list_scope.
Local Open Scope Z_scope.

Local Notation "' s" := (of_string s) (at level 0, s at level 0).
Definition time (n : number) : Z := match n with NInt z => 10 * z | NFloat f => Z.of_N f end.
Definition ident (n : number) : N := match n with NInt z => Z.to_N z | NFloat f => f end.
Definition event_of := to_event time ident (fun m => m).
Definition data_of := to_trace_data time ident (fun m => m).
Definition int (z : Z) : doc := DNum (NInt z).
Definition flt (f : N) : doc := DNum (NFloat f).
Definition txt (s : string) : doc := DStr (of_string s).
Definition jint (n : N) : json := JNum (Some n) n.

(** check_trace_data_array and check_trace_event, ctf/mod.rs:227-261: the events, alone and in an
    object *)
Definition check (l : list (doc * trace_event)) : Prop :=
  map (fun e => event_of (fst e)) l = map (fun e => Some (snd e)) l /\
  data_of (DObj [('"traceEvents", DArr (map fst l))]) = Some (mk_td (map snd l) true []).

(** ** ctf/mod.rs:264-289 *)
Definition asub (ph : string) (ts : Z) : doc :=
  DObj [('"name", txt "Asub"); ('"cat", txt "PERF"); ('"ph", txt ph); ('"pid", int 22630);
        ('"tid", int 22630); ('"ts", int ts)].
Definition asub_event (ts : Z) : duration_event :=
  mk_de 22630 22630 (10 * ts) (Some '"Asub") (Some ['"PERF"]) None None None.
Example json_array_format_test :
  check [(asub "B" 829, EvB (asub_event 829)); (asub "E" 833, EvE (asub_event 833))].
Proof. vm_compute. repeat split. Qed.

(** ** ctf/mod.rs:292-378 *)
Definition frame (category name : string) (parent : list doc) : doc :=
  DObj ([('"category", txt category); ('"name", txt name)] ++ map (fun p => ('"parent", p)) parent).
Example json_object_format_test :
  data_of (DObj [
    ('"traceEvents", DArr [asub "B" 829; asub "E" 833]); ('"displayTimeUnit", txt "ns");
    ('"systemTraceEvents", txt "SystemTraceData");
    ('"otherData", DObj [('"version", txt "My Application v1.0")]);
    ('"stackFrames", DObj [('"a", frame "libchrome.so" "CrRendererMain" [int 1]);
                           ('"1", frame "libc.so" "_crtmain" []);
                           ('"3", frame "libc.so" "_start" [])]);
    ('"samples", DArr [DObj [('"cpu", int 0); ('"tid", int 1); ('"ts", flt 10000);
                             ('"name", txt "cycles:HG"); ('"sf", int 3); ('"weight", int 1)]])])
  = Some (mk_td [EvB (asub_event 829); EvE (asub_event 833)] false
            [('"otherData", JObj [('"version", JStr '"My Application v1.0")])]).
Proof. vm_compute. reflexivity. Qed.

(** ** ctf/events/metadata.rs:161-178 *)
Example metadata_event_test :
  check [(DObj [('"name", txt "thread_name"); ('"ph", txt "M"); ('"pid", int 2343);
                ('"tid", int 2347); ('"args", DObj [('"name", txt "RendererThread")])],
          EvM (ThreadName 2347 '"RendererThread" [] (Some 2343) (mk_mo None None None)))].
Proof. vm_compute. repeat split. Qed.

(** ** ctf/events/duration.rs:51-94 *)
Example begin_end_test :
  check [(DObj [('"name", txt "myFunction"); ('"cat", txt "foo"); ('"ph", txt "B");
                ('"ts", int 123); ('"pid", int 2343); ('"tid", int 2347);
                ('"args", DObj [('"first", int 1)])],
          EvB (mk_de 2343 2347 1230 (Some '"myFunction") (Some ['"foo"]) None
                 (Some [('"first", jint 1)]) None));
         (DObj [('"ph", txt "E"); ('"ts", int 145); ('"pid", int 2343); ('"tid", int 2347);
                ('"args", DObj [('"first", int 4); ('"second", int 2)])],
          EvE (mk_de 2343 2347 1450 None None None
                 (Some [('"first", jint 4); ('"second", jint 2)]) None))].
Proof. vm_compute. repeat split. Qed.

(** ** ctf/events/duration.rs:96-174 *)
Definition short (ts : N) (tid : Z) (ph : string) (name : list string) : doc :=
  DObj ([('"pid", int 1); ('"ts", flt ts); ('"tid", int tid); ('"ph", txt ph)]
        ++ map (fun n => ('"name", txt n)) name).
Definition short_event (ts tid : Z) (name : option str) : duration_event :=
  mk_de 1 tid ts name None None None None.
Example nested_events_test :
  check [(short 10 1 "B" ["A"%string], EvB (short_event 10 1 (Some '"A")));
         (short 11 1 "B" ["Asub"%string], EvB (short_event 11 1 (Some '"Asub")));
         (short 39 1 "E" [], EvE (short_event 39 1 None));
         (short 40 1 "E" [], EvE (short_event 40 1 None))] /\
  check [(short 10 1 "B" ["A"%string], EvB (short_event 10 1 (Some '"A")));
         (short 9 2 "B" ["B"%string], EvB (short_event 9 2 (Some '"B")));
         (short 11 1 "E" [], EvE (short_event 11 1 None));
         (short 40 2 "E" [], EvE (short_event 40 2 None))].
Proof. vm_compute. repeat split. Qed.

(** ** ctf/events/duration.rs:176-247 *)
Example stacks_test :
  let e (ph : string) ts more :=
    DObj ([('"pid", int 1); ('"tid", int 1); ('"ts", flt ts); ('"ph", txt ph); ('"name", txt "A")]
          ++ more) in
  let ev ts := mk_de 1 1 ts (Some '"A") None None None (Some 0%N) in
  let child := DObj [('"parent", txt "5"); ('"name", txt "SomeFunction"); ('"category", txt "my app")] in
  data_of (DObj [
    ('"traceEvents", DArr [e "B"%string 1%N [('"sf", int 7)]; e "E"%string 2%N [('"sf", int 9)]]);
    ('"stackFrames", DObj [('"5", DObj [('"name", txt "main"); ('"category", txt "my app")]);
                           ('"7", child); ('"9", child)])])
    = Some (mk_td [EvB (ev 1); EvE (ev 2)] false []) /\
  check [(e "B"%string 10%N [('"stack", DArr [txt "0x1"; txt "0x2"])], EvB (ev 10))].
Proof. vm_compute. repeat split. Qed.

(** ** ctf/events/duration.rs:249-276 *)
Example complete_event_test :
  check [(DObj [('"name", txt "myFunction"); ('"cat", txt "foo"); ('"ph", txt "X");
                ('"ts", int 123); ('"dur", int 234); ('"pid", int 2343); ('"tid", int 2347);
                ('"args", DObj [('"first", int 1)])],
          EvX (mk_de 2343 2347 1230 (Some '"myFunction") (Some ['"foo"]) None
                 (Some [('"first", jint 1)]) None) 2340 None None)].
Proof. vm_compute. repeat split. Qed.

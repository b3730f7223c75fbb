(** Property C77 (build profile files). *)
From Coq Require Import QArith String.
From Verif Require Import Base.
From Verif Require Import Cmd_Model Cmd_Spec Cmd_Proofs3 Csv_Model Csv_Spec.
From Verif Require Import Csv_Proofs Csv_Proofs2 Csv_Proofs3 Csv_Proofs4.
Local Open Scope nat_scope.
Local Open Scope list_scope.
Local Notation length := List.length.
Local Notation "' s" := (of_string s) (at level 0, s at level 0).

(** Whatever the paths (commas, quotes, line ends), a saved profile loads as the same units in
    the same order. *)
Theorem C77_saved_profile_loads :
  forall show read us text, prints_and_reads show read -> Forall storable us ->
  save show us = Some text ->
  exists vs, load read (Some text) = inl vs /\ Forall2 same_unit us vs.
Proof. exact save_load. Qed.
Print Assumptions C77_saved_profile_loads.

(** The profile of a measured build, once loaded: paths, sizes and times are those of the
    units that were measured. *)
Definition measured (m : str * N * option duration) : unit_row :=
  let '(path, rss, time) := m in mkRow (PText path) rss (new_time time).
Theorem C77_measured_units_are_loaded :
  forall show read (ms : list (str * N * option duration)) text, prints_and_reads show read ->
  (forall path rss time, In (path, rss, time) ms ->
     (rss < 2 ^ 64)%N /\ forall d, time = Some d -> (d <= max_duration)%N) ->
  save show (map measured ms) = Some text ->
  exists vs, load read (Some text) = inl vs /\
    Forall2 (fun m v => let '(path, rss, time) := m in
      r_path v = PText path /\ r_rss v = rss /\ wall_time (r_time v) = wall_time (new_time time)) ms vs.
Proof.
  intros show read ms text Hpr Hms H.
  assert (Hst : Forall storable (map measured ms)).
  { apply Forall_forall. intros u Hu. apply in_map_iff in Hu as ([[p n] d] & <- & Hin).
    destruct (Hms p n d Hin) as [Hn Hd]. split; [now exists p|]. split; [exact Hn|].
    intros x E. destruct d as [d|]; [|discriminate].
    destruct (as_secs_ok d (Hd d eq_refl)) as (m & e & Ea & [Hm He] & H64 & _).
    cbn [measured r_time new_time option_map] in E. rewrite Ea in E.
    assert (Ex : x = FFin false m e) by congruence. subst x.
    split; [exact Hm|]. split; [exact He|]. intros [-> ->]. revert H64. apply Qlt_not_le. vm_compute. reflexivity. }
  destruct (save_load show read _ text Hpr Hst H) as (vs & E & HF). exists vs. split; [exact E|].
  clear - Hms HF. revert vs HF. induction ms as [|[[p n] d] ms IH]; intros vs HF; inversion HF as [|? v ? vs' Hv HF']; subst; constructor.
  - destruct Hv as (H1 & H2 & H3). cbn [measured r_path r_rss r_time] in *. split; [now symmetry|]. split; [now symmetry|].
    destruct (Hms p n d (or_introl eq_refl)) as [_ Hd]. destruct d as [d|].
    + cbn [new_time option_map] in H3 |- *. destruct (r_time v) as [y|]; [|contradiction].
      destruct (reload_ok d (Hd d eq_refl)) as (d' & Ed & _). cbn [new_time option_map] in Ed. rewrite Ed.
      now apply (wall_time_same _ _ _ H3).
    + cbn [new_time option_map] in H3 |- *. destruct (r_time v); [contradiction|reflexivity].
  - apply IH; [|exact HF']. intros path rss time Hin. apply (Hms path rss time). now right.
Qed.
Print Assumptions C77_measured_units_are_loaded.

(** Any CSV table, with or without a byte order mark: loading it succeeds exactly if every row
    says what a unit is - columns go by name, in any order, others are ignored - and gives the
    units that the rows speak of. *)
Theorem C77_tables_are_read :
  forall read header rows bom text us, table_text (header :: rows) text ->
  (bom = [65279%N] \/ bom = [] /\ hd 0%N text <> 65279%N) ->
  load read (Some (bom ++ text)) = inl us <-> Forall2 (row_says read header) rows us.
Proof. exact load_table. Qed.
Print Assumptions C77_tables_are_read.

(** A cut file (the disk is full, the machine stops): loading it fails, or gives the first
    units, plus at most one unit of the right path and size but of any time. *)
Theorem C77_cut_profile :
  forall show read us text p, prints_and_reads show read -> Forall storable us ->
  save show us = Some text -> (exists q, text = p ++ q) ->
  load read (Some p) = inr ParseError \/
  exists k vs, load read (Some p) = inl vs /\
    (Forall2 same_unit (firstn k us) vs \/
     exists u t vs', nth_error us k = Some u /\ Forall2 same_unit (firstn k us) vs' /\
       vs = vs' ++ [mkRow (r_path u) (r_rss u) t]).
Proof. exact save_cut. Qed.
Print Assumptions C77_cut_profile.

(** What an interrupted measurement leaves is the start of the whole file, and loads as the
    units measured so far. *)
Theorem C77_interrupted_profile :
  forall show read us text k, prints_and_reads show read -> Forall storable us -> save show us = Some text ->
  exists p q vs, save show (firstn k us) = Some p /\ text = p ++ q /\
    load read (Some p) = inl vs /\ Forall2 same_unit (firstn k us) vs.
Proof.
  intros show read us text k Hpr Hst H. destruct (save_firstn show us text k H) as (p & q & Hp & ->).
  destruct (save_load show read (firstn k us) p Hpr (forall_firstn _ _ k Hst) Hp) as (vs & E & HF).
  now exists p, q, vs.
Qed.
Print Assumptions C77_interrupted_profile.

(** Saving fails exactly if some path is not text; loading reports a missing file as such, and
    nothing else. *)
Theorem C77_errors :
  (forall show us, save show us = None <-> ~ Forall (fun u => exists p, r_path u = PText p) us) /\
  (forall read file, load read file = inr FileNotFound <-> file = None).
Proof.
  split.
  - intros show us. rewrite <- (save_ok show us). split.
    + intros E [t H]. congruence.
    + intros H. destruct (save show us) as [t|]; [exfalso; apply H; now exists t|reflexivity].
  - intros read [s|]; [|now split]. split; [|discriminate]. unfold load.
    destruct (csv_read StartRecord [] [] (strip_bom s)) as [|h rows]; [discriminate|].
    destruct (de_rows read h rows); discriminate.
Qed.
Print Assumptions C77_errors.

(** A way to print and read, for the examples: three numbers *)
Definition show3 (x : f32) : str :=
  match x with
  | FNan => '"NaN"
  | FInf neg => if neg then '"-inf" else '"inf"
  | FFin neg m e => [if neg then 45%N else 43%N; m; Z.to_N (e + 149)]
  end.
Definition read3 (s : str) : option f32 :=
  if str_eqb s '"NaN" then Some FNan
  else match s with
  | [c; m; e] => if N.eqb c 43 then Some (FFin false m (Z.of_N e - 149))
                 else if N.eqb c 45 then Some (FFin true m (Z.of_N e - 149))
                 else Some (FInf false)
  | [] => None
  | _ => Some (FInf true)
  end.

Lemma three_ok : prints_and_reads show3 read3.
Proof.
  intros [|neg|neg m e] H.
  - split; [discriminate|]. exists FNan. now split.
  - split; [destruct neg; discriminate|]. exists (FInf neg). split; [destruct neg; reflexivity|]. now split.
  - cbn [show3]. split; [discriminate|]. exists (FFin neg m e). destruct H as [Hm [He Hx]].
    assert (E : (Z.of_N (Z.to_N (e + 149)) - 149 = e)%Z) by lia.
    split; [|split; [now repeat split|cbn; split; [reflexivity|apply Qeq_refl]]].
    unfold read3. replace (str_eqb _ _) with false.
    + destruct neg; cbn [N.eqb Pos.eqb]; now rewrite E.
    + symmetry. destruct neg; reflexivity.
Qed.

(** A cut may go unnoticed and change the last unit: its time may be lost. *)
Theorem C77_cut_time_is_noticed_refuted :
  ~ forall show read us p q vs, prints_and_reads show read -> Forall storable us ->
      save show us = Some (p ++ q) -> load read (Some p) = inl vs ->
      exists k, Forall2 same_unit (firstn k us) vs.
Proof.
  intros H.
  assert (Hu : storable (mkRow (PText '"a.cpp") 5 (Some (FFin false 3 (-1))))).
  { split; [now exists '"a.cpp"|]. split; [reflexivity|]. intros x E. injection E as <-. cbn.
    split; [vm_compute; discriminate|]. split; [lia|]. intros [_ X]. discriminate. }
  destruct (H show3 read3 [mkRow (PText '"a.cpp") 5 (Some (FFin false 3 (-1)))]
    ('"file,max_rss,time" ++ 10%N :: '"a.cpp,5,") (show3 (FFin false 3 (-1)) ++ [10%N]) [mkRow (PText '"a.cpp") 5 None]
    three_ok (Forall_cons _ Hu (Forall_nil _)) eq_refl eq_refl) as [k Hk].
  destruct k as [|k]; cbn [firstn] in Hk; inversion Hk as [|? ? ? ? (_ & _ & X)]; subst. contradiction.
Qed.
Print Assumptions C77_cut_time_is_noticed_refuted.

(** A file that is no build profile at all is not always refused: one line of anything is a
    profile without units. *)
Theorem C77_foreign_files_are_refused_refuted :
  ~ forall read row text, table_text [row] text -> ~ In '"file" row -> load read (Some text) = inr ParseError.
Proof.
  intros H. assert (E : load read3 (Some '"hello, world") = inr ParseError).
  { apply (H read3 ['"hello"; '" world"]).
    - apply tt_last; [|discriminate].
      change '"hello, world" with ('"hello" ++ 44%N :: '" world").
      apply fst_more; [|apply fst_one]; apply ft_bare; try discriminate;
        intros c Hc; cbn in Hc; repeat (destruct Hc as [<-|Hc]; [split; [discriminate|intros [X|X]; discriminate]|]); contradiction.
    - intros [X|[X|[]]]; discriminate. }
  discriminate.
Qed.
Print Assumptions C77_foreign_files_are_refused_refuted.

(** Two units, one of a tricky path and without a time; the same table in another form. *)
Example C77_witness :
  let us := [mkRow (PText ('"a, " ++ [34%N; 10%N] ++ '"b")) 1234%N None;
             mkRow (PText '"/c.cpp") 18446744073709551615 (Some (FFin false 3 (-1)))] in
  prints_and_reads show3 read3 /\ Forall storable us /\
  save show3 us = Some ('"file,max_rss,time" ++ [10%N; 34%N] ++ '"a, " ++ [34%N; 34%N; 10%N] ++ '"b" ++ 34%N :: '",1234," ++ 10%N ::
                        '"/c.cpp,18446744073709551615," ++ [43%N; 3%N; 148%N; 10%N]) /\
  load read3 (Some ('"time,max_rss,extra,file" ++ [13%N; 10%N; 10%N] ++ '",0x4d2,?," ++ 34%N :: '"a, " ++ [34%N; 34%N; 10%N] ++ '"b" ++ [34%N; 13%N] ++
                    [43%N; 3%N; 148%N] ++ '",+18446744073709551615,,/c.cpp")) = inl us /\
  load read3 (Some ('"file,max_rss" ++ 10%N :: '"a,1" ++ 10%N :: '"b,2,3")) = inr ParseError /\
  load read3 (Some ('"file,max_rss" ++ 10%N :: '"a,18446744073709551616")) = inr ParseError /\
  save show3 [mkRow (PBytes [255%N]) 1 None] = None.
Proof.
  split; [exact three_ok|]. split.
  - constructor; [|constructor; [|constructor]].
    + split; [now eexists|]. split; [reflexivity|]. intros x E. discriminate.
    + split; [now eexists|]. split; [reflexivity|]. intros x E. injection E as <-. cbn.
      split; [vm_compute; discriminate|]. split; [lia|]. intros [_ X]. discriminate.
  - repeat split; vm_compute; reflexivity.
Qed.

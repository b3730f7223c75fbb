(** Properties C49-C51, C60 (compilation database, build profiles). *)
From Coq Require Import NArith ZArith QArith Qabs Qround String.
From Verif Require Import Base Asylum_Model Cmd_Model Cmd_Spec Cmd_Proofs Cmd_Proofs2 Cmd_Proofs3.
Local Open Scope list_scope.
Local Open Scope nat_scope.

(** ** C49: compilation database *)
(** A file of entries is loaded without error and looked up by path: the last entry given
    for a path is the one found. *)
Theorem C49_lookup_finds_the_last_entry :
  forall l p e, db_entry (from_entries l) p = Some e <-> last_for l p e.
Proof. exact from_entries_lookup. Qed.
Print Assumptions C49_lookup_finds_the_last_entry.
Theorem C49_lookup_fails_only_for_unknown_paths :
  forall l p, db_entry (from_entries l) p = None <-> forall e, In e l -> ~ same_path (e_file e) p.
Proof. exact from_entries_none. Qed.
Print Assumptions C49_lookup_fails_only_for_unknown_paths.
Theorem C49_entries_are_what_lookup_finds :
  forall db, db_reach db ->
  NoDup (map (fun e => path_components (e_file e)) (db_entries db)) /\
  forall p e, db_entry db p = Some e <-> In e (db_entries db) /\ same_path (e_file e) p.
Proof. exact entries_distinct. Qed.
Print Assumptions C49_entries_are_what_lookup_finds.
Theorem C49_push_panics_exactly_on_duplicates :
  forall db e, db_reach db ->
  (db_push db e = Panic <-> exists e', In e' (db_entries db) /\ same_path (e_file e') (e_file e)) /\
  forall db', db_push db e = Ret db' ->
    (forall e', In e' (db_entries db') <-> e' = e \/ In e' (db_entries db)) /\
    List.length (db_entries db') = S (List.length (db_entries db)).
Proof. exact push_ok. Qed.
Print Assumptions C49_push_panics_exactly_on_duplicates.

Definition entry_of (file word : string) : entry :=
  {| e_directory := of_string "/build"; e_words := [of_string "c++"; of_string word]; e_file := of_string file;
     e_output := None |}.
Example C49_witness :
  db_entry (from_entries [entry_of "/a.cpp" "1"; entry_of "/b.cpp" "2"; entry_of "/a.cpp" "3"]) (of_string "/a.cpp")
    = Some (entry_of "/a.cpp" "3") /\
  List.length (db_entries (from_entries [entry_of "/a.cpp" "1"; entry_of "/b.cpp" "2"; entry_of "/a.cpp" "3"])) = 2 /\
  db_push (from_entries [entry_of "/a.cpp" "1"]) (entry_of "/a.cpp" "2") = Panic.
Proof. repeat split; reflexivity. Qed.
(** The documentation of `entry` asks for an exact match of strings (commands.rs:74-80): it
    is looser than that. *)
Theorem C49_exact_string_match_refuted :
  ~ forall l p e, db_entry (from_entries l) p = Some e -> e_file e = p.
Proof.
  intros H. specialize (H [entry_of "/src/a.cpp" "1"] (of_string "/src//./a.cpp") (entry_of "/src/a.cpp" "1") eq_refl).
  discriminate.
Qed.
Print Assumptions C49_exact_string_match_refuted.

(** ** C50: freshness *)
Theorem C50_outdated_means_older_than_an_input :
  forall query now inputs output time product,
  times query inputs time -> query output = MTime product ->
  (product_freshness query now inputs output = IoOk Outdated <->
     exists p, (p = db_location \/ In p inputs) /\ (product < time p)%Z) /\
  ((forall p, p = db_location \/ In p inputs -> (time p <= product)%Z) ->
     ((product <= now)%Z ->
        product_freshness query now inputs output = IoOk (MaybeOutdated (Some (now - product)%Z))) /\
     ((now < product)%Z ->
        product_freshness query now inputs output = IoOk (MaybeOutdated None))).
Proof. exact freshness_ok. Qed.
Print Assumptions C50_outdated_means_older_than_an_input.
Theorem C50_nonexistent_means_not_found :
  forall query now inputs output,
  (product_freshness query now inputs output = IoOk Nonexistent <-> query output = MNotFound) /\
  (query output = MError -> product_freshness query now inputs output = IoErr).
Proof. exact freshness_missing. Qed.
Print Assumptions C50_nonexistent_means_not_found.
Theorem C50_errors_come_from_file_queries :
  forall query now inputs output,
  product_freshness query now inputs output = IoErr ->
  query output = MError \/ exists p, (p = db_location \/ In p inputs) /\ forall t, query p <> MTime t.
Proof. exact freshness_error. Qed.
Print Assumptions C50_errors_come_from_file_queries.
Theorem C50_failing_queries_are_not_ignored :
  forall query now inputs output product,
  query output = MTime product ->
  (exists p, (p = db_location \/ In p inputs) /\ forall t, query p <> MTime t) ->
  product_freshness query now inputs output = IoErr \/
  product_freshness query now inputs output = IoOk Outdated /\
    exists p t, (p = db_location \/ In p inputs) /\ query p = MTime t /\ (product < t)%Z.
Proof. exact freshness_error_conv. Qed.
Print Assumptions C50_failing_queries_are_not_ignored.
(** The inputs are those of the database, or the one file of the entry. *)
Theorem C50_inputs_of_profiles :
  forall query now,
  (forall l path, exists inputs,
     profile_freshness query now (from_entries l) path = product_freshness query now inputs path /\
     forall p, In p inputs <-> exists e, last_for l p e /\ e_file e = p) /\
  (forall e path, derived_freshness query now e path = product_freshness query now [e_file e] path).
Proof.
  intros query now. split; [|easy]. intros l path.
  exists (map e_file (db_entries (from_entries l))). split; [easy|]. intros p. rewrite in_map_iff. split.
  - intros (e & <- & H). exists e. split; [|easy]. apply from_entries_in. exact H.
  - intros (e & H & <-). exists e. split; [easy|]. apply from_entries_in. exact H.
Qed.
Print Assumptions C50_inputs_of_profiles.
(** The user is asked, unless the profile is less than a minute old or was chosen by him. *)
Theorem C50_prompt :
  forall f manual,
  (from_freshness f manual = None <->
     exists age, f = MaybeOutdated age /\ (manual = true \/ exists d, age = Some d /\ (d < 60 * ns_per_s)%Z)) /\
  (f = Nonexistent -> from_freshness f manual = Some NewProfile) /\
  (f = Outdated -> from_freshness f manual = Some StaleProfile).
Proof. exact prompt_ok. Qed.
Print Assumptions C50_prompt.
Definition query1 (p : str) : mtime :=
  if str_eqb p db_location then MTime 10 else if str_eqb p (of_string "/a.cpp") then MTime 30
  else if str_eqb p (of_string "profile") then MTime 20 else MNotFound.
Example C50_witness :
  product_freshness query1 100 [of_string "/a.cpp"] (of_string "profile") = IoOk Outdated /\
  product_freshness query1 100 [] (of_string "profile") = IoOk (MaybeOutdated (Some 80%Z)) /\
  product_freshness query1 5 [] (of_string "profile") = IoOk (MaybeOutdated None) /\
  product_freshness query1 100 [] (of_string "none") = IoOk Nonexistent /\
  product_freshness query1 100 [of_string "none"] (of_string "profile") = IoErr.
Proof. repeat split; reflexivity. Qed.
(** The age shown in the prompt is not the age of the profile if that is in the future. *)
Theorem C50_shown_age_refuted :
  ~ forall query now inputs output product age,
      query output = MTime product ->
      product_freshness query now inputs output = IoOk (MaybeOutdated age) ->
      forall mins n, from_freshness (MaybeOutdated age) false = Some (MaybeStaleProfile mins) ->
      show_age mins = Days n -> (n * 24 * 60 * 60 * ns_per_s <= now - product)%Z.
Proof.
  intros H. specialize (H query1 5%Z [] (of_string "profile") 20%Z None eq_refl eq_refl _ _ eq_refl eq_refl).
  vm_compute in H. apply H. reflexivity.
Qed.
Print Assumptions C50_shown_age_refuted.
(** Otherwise it is, to the unit shown. *)
Theorem C50_shown_age :
  forall d mins, (0 <= d)%Z -> from_freshness (MaybeOutdated (Some d)) false = Some (MaybeStaleProfile mins) ->
  match show_age mins with
  | Days n => 0 < n /\ n * 86400 * ns_per_s <= d < (n + 1) * 86400 * ns_per_s
  | Hours n => 0 < n < 24 /\ n * 3600 * ns_per_s <= d < (n + 1) * 3600 * ns_per_s
  | Minutes n => 0 < n < 60 /\ n * 60 * ns_per_s <= d < (n + 1) * 60 * ns_per_s
  end%Z.
Proof.
  intros d mins Hd. unfold from_freshness, show_age, ns_per_s. cbv zeta.
  destruct (Z.ltb_spec 0 (d / 1000000000 / 60)) as [H|H]; cbn [andb negb]; [|discriminate].
  intros E. injection E as <-.
  pose proof (Z.div_mod d 1000000000 ltac:(lia)). pose proof (Z.mod_pos_bound d 1000000000 ltac:(lia)).
  set (s := (d / 1000000000)%Z) in *.
  pose proof (Z.div_mod s 60 ltac:(lia)). pose proof (Z.mod_pos_bound s 60 ltac:(lia)).
  set (m := (s / 60)%Z) in *.
  pose proof (Z.div_mod m 60 ltac:(lia)). pose proof (Z.mod_pos_bound m 60 ltac:(lia)).
  set (h := (m / 60)%Z) in *.
  pose proof (Z.div_mod h 24 ltac:(lia)). pose proof (Z.mod_pos_bound h 24 ltac:(lia)).
  destruct (Z.ltb_spec 0 (h / 24)); [lia|]. destruct (Z.ltb_spec 0 h); lia.
Qed.
Print Assumptions C50_shown_age.

(** ** C51: wall times *)
Theorem C51_error_exactly_for_bad_times :
  forall x, wall_time (Some x) = Some (inr x) <-> bad_time x.
Proof. exact wall_time_error. Qed.
Print Assumptions C51_error_exactly_for_bad_times.
(** Other times give a duration with the same whole seconds, off by 33 ns at most; 2^64
    seconds, which a Duration cannot hold, become the whole second before. *)
Theorem C51_duration_of_other_times :
  forall neg m e, f32_ok (FFin neg m e) -> ~ bad_time (FFin neg m e) ->
  exists d, wall_time (Some (FFin neg m e)) = Some (inl d) /\ (d <= max_duration)%N /\
    ((seconds m e < inject_Z (2 ^ 64))%Q ->
       (Qabs (inject_Z (Z.of_N d) - exact_ns m e) <= 33 # 1)%Q /\
       Z.of_N (d / giga) = Qfloor (seconds m e)) /\
    ((seconds m e == inject_Z (2 ^ 64))%Q -> d = ((2 ^ 64 - 1) * giga)%N).
Proof. exact wall_time_value. Qed.
Print Assumptions C51_duration_of_other_times.
(** A new profile has no bad time, and its time is kept to a relative 2^-22. *)
Theorem C51_new_profiles_are_good :
  forall d, (d <= max_duration)%N ->
  exists d', wall_time (new_time (Some d)) = Some (inl d') /\
    (Qabs (inject_Z (Z.of_N d') - inject_Z (Z.of_N d)) <= inject_Z (Z.of_N d) * (1 # 4194304) + (33 # 1))%Q.
Proof. exact reload_ok. Qed.
Print Assumptions C51_new_profiles_are_good.
(** 1.5 s; 2^24 + 1 s cannot be stored; 2^64 s *)
Example C51_witness :
  wall_time (Some (FFin false 3 (-1))) = Some (inl 1500000000%N) /\
  ~ bad_time (FFin false 3 (-1)) /\ bad_time (FFin true 3 (-1)) /\ bad_time (FFin false (2 ^ 23 + 1) 41) /\
  ~ bad_time (FFin false (2 ^ 23) 41) /\
  wall_time (new_time (Some 16777217000000000%N)) = Some (inl 16777216000000000%N).
Proof.
  repeat split; try reflexivity.
  - rewrite <- wall_time_error. vm_compute. discriminate.
  - left. easy.
  - right. vm_compute. reflexivity.
  - rewrite <- wall_time_error. vm_compute. discriminate.
Qed.
(** The project's test `unit_profile_new` (output.rs:125-143) is too optimistic: 15 ns are read back as 14. *)
Theorem C51_same_stored_time_refuted :
  ~ forall d d', (d <= max_duration)%N -> wall_time (new_time (Some d)) = Some (inl d') ->
      as_secs_f32 d = as_secs_f32 d'.
Proof.
  intros H. specialize (H 15%N 14%N ltac:(vm_compute; discriminate) eq_refl). vm_compute in H. discriminate.
Qed.
Print Assumptions C51_same_stored_time_refuted.

(** ** C60: output path of a compilation *)
Theorem C60_output_is_the_argument_of_dash_o :
  forall canon e, e_directory e <> [] ->
  (forall o, e_output e = Some o -> entry_output canon e = Some (path_components o)) /\
  (e_output e = None ->
     forall p, entry_output canon e = Some p <->
       exists o name par, output_argument e o /\ (exists par', path_components o = par' ++ [Normal name]) /\
         path_components (seen_from (e_directory e) o) = par ++ [Normal name] /\
         p = match canon par with Some d => d ++ [Normal name] | None => par ++ [Normal name] end).
Proof. exact output_ok. Qed.
Print Assumptions C60_output_is_the_argument_of_dash_o.
Example C60_witness :
  entry_output (fun _ => None)
    {| e_directory := of_string "/build"; e_words := map of_string ["c++"; "-c"; "-o"; "obj/a.o"; "a.cpp"]%string;
       e_file := of_string "a.cpp"; e_output := None |}
  = Some (path_components (of_string "/build/obj/a.o")).
Proof. reflexivity. Qed.

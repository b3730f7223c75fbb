(** Specification vocabulary for full-build profiling sessions. *)
From Verif Require Import Base Cmd_Model Clang_Model Session_Model.

(** The question asked about the state of the build profile, if any: not about a profile that
    the user has chosen, nor about one that is less than a minute old, if no source is newer. *)
Inductive question : freshness -> bool -> option prompt -> Prop :=
| q_new manual : question Nonexistent manual (Some NewProfile)
| q_stale manual : question Outdated manual (Some StaleProfile)
| q_chosen age : question (MaybeOutdated age) true None
| q_recent age : (age < 60000000000)%Z -> question (MaybeOutdated (Some age)) false None
| q_old age : (60000000000 <= age)%Z ->
    question (MaybeOutdated (Some age)) false (Some (MaybeStaleProfile (age / 60000000000)))
| q_future : question (MaybeOutdated None) false (Some (MaybeStaleProfile 18446744073709551615)).

(** The buttons that say yes, and those that say no, to a measurement. *)
Definition asks_to_measure (p : prompt) : button :=
  match p with NewProfile => BYes | _ => BMeasure end.
Definition declines_to_measure (p : prompt) : button :=
  match p with NewProfile => BNo | _ => BReuse end.

(** What the session shows from the moment it loads a profile, to its end *)
Definition shows_profile (l : load_result) : list item :=
  match l with
  | LoadOk => [TableShown; UserLeft]
  | LoadNotFound => [ErrorShown MVanished; UserLeft]
  | LoadParseError => [ErrorShown MUnparsable; UserLeft]
  end.

(** What a session that is over has shown, if the user did not abort a measurement *)
Inductive story (i : inputs) : list item -> Prop :=
| st_database e : i_db i = Some e -> story i [ErrorShown (MDatabase e); UserLeft]
| st_clang e : i_db i = None -> i_clang i = Error e -> story i [ErrorShown (MClang e); UserLeft]
| st_freshness : i_db i = None -> i_clang i = Found -> i_fresh i = IoErr ->
    story i [ErrorShown MFreshness; UserLeft]
| st_open f : i_db i = None -> i_clang i = Found -> i_fresh i = IoOk f ->
    question f (i_manual i) None -> story i (shows_profile (i_load i))
| st_quit f p : i_db i = None -> i_clang i = Found -> i_fresh i = IoOk f ->
    question f (i_manual i) (Some p) -> story i [Asked p; UserLeft]
| st_no_profile f : i_db i = None -> i_clang i = Found -> i_fresh i = IoOk f ->
    f = Nonexistent -> story i [Asked NewProfile; Pressed BNo]
| st_reuse f p : i_db i = None -> i_clang i = Found -> i_fresh i = IoOk f ->
    question f (i_manual i) (Some p) -> f <> Nonexistent ->
    story i (Asked p :: Pressed BReuse :: shows_profile (i_load i))
| st_backup f p : i_db i = None -> i_clang i = Found -> i_fresh i = IoOk f ->
    question f (i_manual i) (Some p) -> i_backup_fails i = true ->
    story i [Asked p; Pressed (asks_to_measure p); ErrorShown MBackup; UserLeft]
| st_measured f p : i_db i = None -> i_clang i = Found -> i_fresh i = IoOk f ->
    question f (i_manual i) (Some p) -> i_backup_fails i = false ->
    story i ([Asked p; Pressed (asks_to_measure p); Started; Finished None; ProgramLeft]
               ++ shows_profile (i_load i))
| st_failed f p e : i_db i = None -> i_clang i = Found -> i_fresh i = IoOk f ->
    question f (i_manual i) (Some p) -> i_backup_fails i = false ->
    story i ([Asked p; Pressed (asks_to_measure p); Started; Finished (Some e); ProgramLeft]
               ++ (if i_restore_fails i then [ErrorShown MCleanup; UserLeft] else [])
               ++ [ErrorShown (MMeasure e); UserLeft]).

(** The session is waiting for the user: a prompt, a progress dialog, an error or the table. *)
Definition waiting (s : session) : Prop :=
  match s_at s with
  | AtPrompt _ _ | AtProgress | AtCleanupError | AtTable | AtError => True
  | _ => False
  end.

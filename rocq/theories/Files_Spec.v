(** Specification vocabulary for the files of measurements. *)
From Coq Require Import Relation_Operators.
From Verif Require Import Base Files_Model.

(** A directory without hard links between the two names. *)
Definition fs_ok (f : fs) : Prop :=
  (forall n i, entry f n = Some i -> i < f_next f) /\
  (forall i, f_out f = Some i -> f_bak f <> Some i).

(** Two directories that look the same. *)
Definition same_files (f g : fs) : Prop := forall n, read f n = read g n.

(** Any number of steps *)
Definition trace_run (faulty lingers : bool) : trace_measure -> trace_measure -> Prop :=
  clos_refl_trans_1n _ (trace_step faulty lingers).

(** Several measurements, run one after the other to their ends, without I/O errors: each one
    succeeds with some output, or fails. *)
Inductive measurement_end := MSuccess (result : option str) | MFailure.
Inductive session : fs -> list measurement_end -> fs -> Prop :=
| se_nil f : session f [] f
| se_success f l m : trace_reach false false f m -> t_pc m = TSuccess false -> forall f',
    session (t_fs m) l f' -> session f (MSuccess (t_result m) :: l) f'
| se_failure f l m : trace_reach false false f m -> t_pc m = TFailed false -> forall f',
    session (t_fs m) l f' -> session f (MFailure :: l) f'.
(** What the output path should contain after such measurements: the last success. *)
Fixpoint expected (old : option str) (l : list measurement_end) : option str :=
  match l with
  | [] => old
  | MSuccess r :: l' => expected r l'
  | MFailure :: l' => expected old l'
  end.

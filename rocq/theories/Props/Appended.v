(** * Property C120: further calls leave the moves made before alone *)
From Verif Require Import Base.Str Base.Py Spec.Gcode Spec.Blocks Spec.Machine Spec.Program Spec.Jobs Spec.Axes Spec.Rates Spec.OnMachine Spec.Appended
  Model.Groups Model.Plane Model.Job Proofs.AxesEx Proofs.AppendedP Proofs.AppendedEx.
Local Open Scope list_scope.

(** The moves of the program of a job come first in the program of every job made from it, with the
    same states of the machine but for the spindle speed (see C14). *)
Theorem C120_moves_kept : forall h r h' r' j' st, user_heap h -> user_heap h' -> later h r h' r' -> hget h' r' = Some j' -> job_printable h' j' -> ms_ended st = false ->
  exists s bs before more, to_gcode h' r' = Ok s /\ parse_program s = Some bs /\ snd (run st bs) = before ++ more /\ continues h r st before.
Proof. exact later_moves. Qed.
Print Assumptions C120_moves_kept.
Example C120_example : user_heap plate_heap /\ user_heap two_heap /\ later plate_heap 1%nat two_heap 3%nat /\
  (exists j, hget plate_heap 1%nat = Some j /\ job_printable plate_heap j) /\ (exists j, hget two_heap 3%nat = Some j /\ job_printable two_heap j) /\
  List.length (moves_of plate_heap 1%nat) = 24%nat /\ List.length (moves_of two_heap 3%nat) = 44%nat.
Proof. exact ex_appended. Qed.

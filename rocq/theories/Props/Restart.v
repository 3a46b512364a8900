(** * The state the machine was left in (C139) *)
From Verif Require Import Base.Str Base.Py Spec.Gcode Spec.Machine Spec.Program Spec.Jobs Spec.Axes Spec.Feeds Spec.OnMachine Spec.Restart
  Model.Groups Model.Plane Model.Job Proofs.AxesEx Proofs.RestartP Proofs.RestartEx.
From Verif Require Proofs.ProgramEx Proofs.FeedEx.
Local Open Scope list_scope.

(** ** C139: two machines in any states make the same moves of a program: each of the same kind, in the
    same units, plane, coordinates and modes; axes that are moved end at the same place, and feed moves
    start from the same place. *)
Theorem C139_same_moves : forall h r j st st', user_heap h -> hget h r = Some j -> job_printable h j -> ms_ended st = false -> ms_ended st' = false ->
  exists s bs, to_gcode h r = Ok s /\ parse_program s = Some bs /\ Forall2 same_move (snd (run st bs)) (snd (run st' bs)).
Proof. exact restart_moves. Qed.
Print Assumptions C139_same_moves.

(** Without surface operations, at the same feed rates. *)
Theorem C139_same_rates : forall h r j st st', fed_reachable h -> hget h r = Some j -> job_printable h j -> ms_ended st = false -> ms_ended st' = false ->
  exists s bs, to_gcode h r = Ok s /\ parse_program s = Some bs /\ Forall2 same_rate (snd (run st bs)) (snd (run st' bs)).
Proof. exact restart_rates. Qed.
Print Assumptions C139_same_rates.

(** A surface is cut at whatever feed rate was set before the program. *)
Theorem C139_rates_refuted : exists h r j s bs st st', user_heap h /\ hget h r = Some j /\ job_printable h j /\ to_gcode h r = Ok s /\ parse_program s = Some bs /\
  ms_ended st = false /\ ms_ended st' = false /\ ~ Forall2 same_rate (snd (run st bs)) (snd (run st' bs)).
Proof. exact rates_refuted. Qed.
Print Assumptions C139_rates_refuted.

(** A machine that was just switched on and one left in inches, increments and another plane. *)
Example C139_example : user_heap two_heap /\ (exists j, hget two_heap 3%nat = Some j /\ job_printable two_heap j) /\
  firstn 3 (ends_of ProgramEx.st_off two_blocks) = [(GRapid, None, None, Some 10); (GRapid, Some 6, Some 6, Some 10); (GRapid, Some 6, Some 6, Some 1)]%Z /\
  firstn 3 (ends_of st_left two_blocks) = [(GRapid, None, None, Some 10); (GRapid, Some 6, Some 6, Some 10); (GRapid, Some 6, Some 6, Some 1)]%Z /\
  ends_of ProgramEx.st_off two_blocks = ends_of st_left two_blocks.
Proof. exact ex_restart. Qed.
Example C139_example_fed : fed_reachable ProgramEx.ex_heap /\ exists j, hget ProgramEx.ex_heap ProgramEx.ex_ref = Some j /\ job_printable ProgramEx.ex_heap j.
Proof. split; [exact FeedEx.ex_fed_reachable|]. destruct ProgramEx.ex_printable as (j & H1 & H2 & _). exists j. split; assumption. Qed.

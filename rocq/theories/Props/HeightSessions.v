(** * Programs that travel at different heights (C141) *)
From Verif Require Import Base.Str Base.Py Spec.Gcode Spec.Machine Spec.Program Spec.Axes Spec.OnMachine Spec.Alike Spec.Heights Spec.HeightMoves Model.Groups Model.Geometry Model.Plane Model.Job
  Model.Profile Model.PocketOp Model.Drill Model.Surface Proofs.RouteEx Proofs.OnMachineEx Proofs.HeightsEx Proofs.HeightMovesP Proofs.HeightMovesEx.
Local Open Scope list_scope.

(** ** C141: two users make the same jobs and calls, but for the height of rapid moves.  Their programs
    make exactly the same feed moves, each from the same state of the machine to the same state.  Seen from
    above all moves are the same, and so is the state the machine is left in. *)
Theorem C141_same_feed_moves : forall h h' r j, high_sessions h h' -> user_heap h -> user_heap h' -> hget h r = Some j ->
  exists j', hget h' r = Some j' /\ same_but_height j j' /\
  (job_printable h j -> job_printable h' j' -> forall st, ms_ended st = false -> exists s bs s' bs', to_gcode h r = Ok s /\ parse_program s = Some bs /\
     to_gcode h' r = Ok s' /\ parse_program s' = Some bs' /\ fst (run st bs) = fst (run st bs') /\
     feed_moves (snd (run st bs)) = feed_moves (snd (run st bs')) /\ map no_z_event (snd (run st bs)) = map no_z_event (snd (run st bs'))).
Proof. exact high_machine. Qed.
Print Assumptions C141_same_feed_moves.

(** A call answers both with the same job or the same error. *)
Theorem C141_same_answers : forall h h' r t name gen, high_sessions h h' -> rapid_settled gen ->
  snd (fluent_op h r t name gen) = snd (fluent_op h' r t name gen).
Proof. exact high_answers. Qed.
Print Assumptions C141_same_answers.

(** All the operations can be called in such sessions. *)
Theorem C141_operations : (forall K TK WK os is_ oo io sd t, rapid_settled (profile_gen K TK WK os is_ oo io sd t)) /\
  (forall K TK WK ws o sd t, rapid_settled (wire_profile_gen K TK WK ws o sd t)) /\
  (forall K WK F E fuel ops avoids a, rapid_settled (pocket_gen K WK F E fuel ops avoids a)) /\
  (forall os d, rapid_settled (drill_gen os d)) /\
  (forall K C a os, rapid_settled (surface_gen K C a os)).
Proof. exact travel_settled. Qed.
Print Assumptions C141_operations.

Example C141_example : high_sessions (plate ex_job) (plate high_job) /\ user_heap (plate ex_job) /\ user_heap (plate high_job) /\
  (exists j, hget (plate ex_job) 3%nat = Some j /\ job_printable (plate ex_job) j) /\ (exists j, hget (plate high_job) 3%nat = Some j /\ job_printable (plate high_job) j) /\
  firstn 4 (rapid_ends (plate ex_job) 3%nat) = [Some 10; Some 10; Some 1; Some 1]%Z /\
  firstn 4 (rapid_ends (plate high_job) 3%nat) = [Some 50; Some 50; Some 1; Some 1]%Z /\
  List.length (cut_ends (plate ex_job) 3%nat) = 10%nat.
Proof. exact (conj plate_sessions ex_plates). Qed.

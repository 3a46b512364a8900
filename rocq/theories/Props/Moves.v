(** * Theorems about the moves of whole programs (C69, C75, C76) *)
From Verif Require Import Base.Str Base.Py Model.Groups Model.Plane Model.Job Model.Profile Model.Drill Model.Strategy Model.Surface Model.PocketOp
  Spec.Gcode Spec.Blocks Spec.Machine Spec.Program Spec.Arcs Spec.Jobs Spec.Feeds Spec.Paths Spec.Moves Spec.Pockets Spec.Home Spec.Ends
  Proofs.FeedP Proofs.HomeP Proofs.HomeEx Proofs.EndsP.
From Verif Require Proofs.ProgramEx Proofs.DrillEx Proofs.RouteEx.
Local Open Scope list_scope.

(** ** C75 *)
(** Whatever was called: run on a machine, the program makes one move for each motion of the job, in
    order, of the right kind, to the right place and at the right feed rate, and no other moves. *)
Theorem C75_program_makes_the_moves : forall h r j st, reachable h -> hget h r = Some j -> job_printable h j -> ms_ended st = false ->
  exists s bs f, to_gcode h r = Ok s /\ parse_program s = Some bs /\ traced (ms_feed st) (job_moves j) (snd (run st bs)) f.
Proof. exact moves_traced. Qed.
Print Assumptions C75_program_makes_the_moves.
Example C75_example : reachable ProgramEx.ex_heap /\ (exists j, hget ProgramEx.ex_heap ProgramEx.ex_ref = Some j /\
  job_printable ProgramEx.ex_heap j /\ List.length (j_operations j) = 3%nat) /\ to_gcode ProgramEx.ex_heap ProgramEx.ex_ref = Ok ProgramEx.ex_text.
Proof. exact ProgramEx.ex_program. Qed.

(** ** C76 *)
(** The first move of every operation is a rapid straight to the rapid height (drilling: the safe
    height), the second a rapid across at that height. *)
Theorem C76_profile_starts_straight : forall K TK WK os is_ oo io sd t, straight_gen j_rapid_height (profile_gen K TK WK os is_ oo io sd t).
Proof. exact profile_straight. Qed.
Print Assumptions C76_profile_starts_straight.
Theorem C76_wire_profile_starts_straight : forall K TK WK ws o sd t, straight_gen j_rapid_height (wire_profile_gen K TK WK ws o sd t).
Proof. exact wire_profile_straight. Qed.
Print Assumptions C76_wire_profile_starts_straight.
Theorem C76_pocket_starts_straight : forall K WK F E fuel areas avoids a, straight_gen j_rapid_height (pocket_gen K WK F E fuel areas avoids a).
Proof. exact pocket_straight. Qed.
Print Assumptions C76_pocket_starts_straight.
Theorem C76_surface_starts_straight : forall K C a objects, straight_gen j_rapid_height (surface_gen K C a objects).
Proof. exact surface_straight. Qed.
Print Assumptions C76_surface_starts_straight.
Theorem C76_drill_starts_straight : forall o d, straight_gen j_op_safe_height (drill_gen o d).
Proof. exact drill_straight. Qed.
Print Assumptions C76_drill_starts_straight.
Example C76_example : exists cmds, drill_gen (Some DrillEx.ex_holes) (Some (qz 2)) RouteEx.ex_job = Ok cmds /\
  firstn 8 (DrillEx.drill_texts (Ok cmds)) =
    ["G0 Z1"; "G0 X0 Y0 Z1"; "G0 X0 Y0 Z0"; "G1 X0 Y0 Z-2 F300"; "G0 X0 Y0 Z1"; "G0 X4 Y3 Z1"; "G0 X4 Y3 Z0"; "G1 X4 Y3 Z-2 F300"]%string /\
  length cmds = 20%nat.
Proof. exact DrillEx.ex_drill. Qed.

(** ** C69: the tool is clear of the work when it is sent home (G30).
    Full statement: every home move after the first motion starts at the rapid height.  This is
    false: the home move at the end starts where the last motion ended, with the spindle running. *)
Theorem C69_home_from_end_of_cut : forall h r j st os r0 n cs m, reachable h -> hget h r = Some j -> job_printable h j -> ms_ended st = false ->
  j_operations j = os ++ [Op r0 n (cs ++ [Motion m])] ->
  exists s bs hs st', to_gcode h r = Ok s /\ parse_program s = Some bs /\ homes st bs = hs ++ [st'] /\ ms_spindle st' = SpCW /\
    (forall x, ax (m_end m) = Some x -> exists v, ms_x st' = Some v /\ (qabs (v - x) <= qq 1 2000)%Qc) /\
    (forall y, ay (m_end m) = Some y -> exists v, ms_y st' = Some v /\ (qabs (v - y) <= qq 1 2000)%Qc) /\
    (forall z, az (m_end m) = Some z -> exists v, ms_z st' = Some v /\ (qabs (v - z) <= qq 1 2000)%Qc).
Proof. exact home_from_end. Qed.
Print Assumptions C69_home_from_end_of_cut.
(** Drilling always ends at the bottom of the last hole. *)
Theorem C69_drill_ends_in_hole : forall os d j cmds, drill_gen (Some os) (Some d) j = Ok cmds ->
  exists cs m, cmds = cs ++ [Motion m] /\ straight_cut m /\ az (m_end m) = Some (- qabs d)%Qc.
Proof. exact drill_ends. Qed.
Print Assumptions C69_drill_ends_in_hole.
(** Profiles, wire profiles and pockets end in a cut too, whatever the kernel answers: no operation of
    these kinds retracts the tool after its last cut.  (Surface operations may end in a rapid.) *)
Theorem C69_profile_ends_in_cut : forall K TK WK outers inners oo io sd t, cut_gen (profile_gen K TK WK outers inners oo io sd t).
Proof. exact profile_ends. Qed.
Print Assumptions C69_profile_ends_in_cut.
Theorem C69_wire_profile_ends_in_cut : forall K TK WK ws o sd t, cut_gen (wire_profile_gen K TK WK ws o sd t).
Proof. exact wire_profile_ends. Qed.
Print Assumptions C69_wire_profile_ends_in_cut.
Theorem C69_pocket_ends_in_cut : forall K WK F E fuel areas avoids a j cmds, pocket_gen K WK F E fuel areas avoids a j = Ok cmds ->
  (0 < j_op_safe_height j)%Qc -> (forall s, pa_stepdown a = Some s -> (0 <= s)%Qc) -> exists ms, cmds = map Motion ms /\ ends_in_cut ms.
Proof. exact pocket_ends. Qed.
Print Assumptions C69_pocket_ends_in_cut.
Theorem C69_cq_pocket_ends_in_cut : forall K WK F fuel j ops avoids oo io av so si ms,
  pocket_cq K WK F fuel j ops avoids oo io av so si = Ok ms -> ends_in_cut ms.
Proof. exact pocket_cq_ends. Qed.
Print Assumptions C69_cq_pocket_ends_in_cut.
Example C69_pocket_example : exists K WK F E fuel areas a j cmds,
  pocket_gen K WK F E fuel areas None a j = Ok cmds /\ (0 < j_op_safe_height j)%Qc /\ pa_stepdown a = Some 1%Qc /\ cmds <> [].
Proof. exact pocket_ends_ex. Qed.
Theorem C69_clear_before_home_refuted : exists h r j s bs st, reachable h /\ hget h r = Some j /\ to_gcode h r = Ok s /\ parse_program s = Some bs /\
  In st (homes ProgramEx.st_off bs) /\ exists z, ms_z st = Some z /\ (z < 0 /\ z < j_op_safe_height j /\ z < j_rapid_height j)%Qc.
Proof. exact home_in_hole. Qed.
Print Assumptions C69_clear_before_home_refuted.

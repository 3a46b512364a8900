(** * Programs for turned and mirrored work (C144) *)
From Verif Require Import Base.Str Base.Py Spec.Gcode Spec.Machine Spec.Program Spec.Jobs Spec.Axes Spec.Alike Spec.Drills Spec.Turn Spec.TurnWire Spec.TurnFace Spec.TurnMoves Model.Groups Model.Geometry Model.Plane Model.Edges Model.Job
  Model.Tabs Model.Routers Model.Profile Model.Pocket Model.PocketOp Model.Drill Proofs.RouteEx Proofs.TurnEx Proofs.TurnMovesP Proofs.TurnGensP Proofs.TurnMovesEx.
Local Open Scope list_scope.

(** ** C144: two users make the same jobs and calls, but the work of the second is turned about the tool's
    axis, mirrored, and moved.  Their programs make the same moves, those of the second turned, to within
    one and a half thousandths along each axis (both are rounded to thousandths); mirrored arcs go the
    other way round.  The machine is left in the same state. *)
Theorem C144_turned_programs : forall T o top h h' r j, turns T o -> turned_sessions top T o h h' -> reachable h -> hget h r = Some j -> exists j', hget h' r = Some j' /\
  (job_printable h j -> job_printable h' j' -> forall st, ms_ended st = false -> exists s bs s' bs', to_gcode h r = Ok s /\ parse_program s = Some bs /\
     to_gcode h' r = Ok s' /\ parse_program s' = Some bs' /\ fst (run st bs) = fst (run st bs') /\ Forall2 (turned_event (qq 3 2000) T o) (snd (run st bs)) (snd (run st bs'))).
Proof. exact turned_within. Qed.
Print Assumptions C144_turned_programs.

(** Exactly for quarter turns, mirrored or not, and moved by even numbers of thousandths. *)
Theorem C144_quarter_turns : forall T o top h h' r j, quarters T o -> turned_sessions top T o h h' -> reachable h -> hget h r = Some j -> exists j', hget h' r = Some j' /\
  (job_printable h j -> job_printable h' j' -> forall st, ms_ended st = false -> exists s bs s' bs', to_gcode h r = Ok s /\ parse_program s = Some bs /\
     to_gcode h' r = Ok s' /\ parse_program s' = Some bs' /\ fst (run st bs) = fst (run st bs') /\ Forall2 (turned_event 0%Qc T o) (snd (run st bs)) (snd (run st bs'))).
Proof. exact turned_exactly. Qed.
Print Assumptions C144_quarter_turns.

(** A call answers both with the same job or the same error. *)
Theorem C144_same_answers : forall T o top h h' r t name gen gen', turned_sessions top T o h h' -> settled gen -> turned_gen top T o gen gen' ->
  snd (fluent_op h' r t name gen') = snd (fluent_op h r t name gen).
Proof. exact turned_answers. Qed.
Print Assumptions C144_same_answers.

(** Drilling, both profiles and pockets can be called in such sessions, if the answers of kernel and
    engine turn with the work. *)
Theorem C144_operations :
  (forall top T o os os' z ps, turns T o -> wanted_holes (to_world top) os ps -> wanted_holes (to_world top) os' (map T ps) ->
     settled (drill_gen (Some os) z) /\ turned_gen top T o (drill_gen (Some os) z) (drill_gen (Some os') z)) /\
  (forall top T o K TK WK given, turns T o -> kernel_turns T o K -> tab_kernel_turns T o TK -> wire_kernel_turns T o WK top given ->
     (forall os is_ oo io sd t, settled (profile_gen K TK WK os is_ oo io sd t) /\ turned_gen top T o (profile_gen K TK WK os is_ oo io sd t) (profile_gen K TK WK (map given os) (map given is_) oo io sd t)) /\
     (forall ws r sd t, settled (wire_profile_gen K TK WK ws r sd t) /\ turned_gen top T o (wire_profile_gen K TK WK ws r sd t) (wire_profile_gen K TK WK (map given ws) r sd t))) /\
  (forall top T o K WK F gw given shadow E, turns T o -> kernel_turns T o K -> wire_kernel_turns T o WK top gw -> face_kernel_turns F top given shadow T o -> engine_turns T E ->
     forall fuel ops avoids a, settled (pocket_gen K WK F E fuel ops avoids a) /\ turned_gen top T o (pocket_gen K WK F E fuel ops avoids a) (pocket_gen K WK F E fuel (map given ops) (option_map (map given) avoids) a)).
Proof. exact gens_turned. Qed.
Print Assumptions C144_operations.

Example C144_example : quarters flipped (-(1))%Qc /\ turned_sessions plane_xy flipped (-(1))%Qc plain mirror /\ reachable plain /\
  (exists j, hget plain 3%nat = Some j /\ job_printable plain j) /\ (exists j, hget mirror 3%nat = Some j /\ job_printable mirror j) /\
  firstn 6 (kinds_h plain 3%nat) = [(GRapid, None, None); (GRapid, Some 0, Some (-1000)); (GRapid, Some 0, Some (-1000)); (GLinear, Some 0, Some (-1000)); (GArcCCW, Some 0, Some 1000); (GLinear, Some 0, Some (-1000))]%Z /\
  firstn 6 (kinds_h mirror 3%nat) = [(GRapid, None, None); (GRapid, Some 8000, Some 2000); (GRapid, Some 8000, Some 2000); (GLinear, Some 8000, Some 2000); (GArcCW, Some 6000, Some 2000); (GLinear, Some 8000, Some 2000)]%Z /\
  List.length (kinds_h plain 3%nat) = 22%nat.
Proof. exact ex_mirrored_discs. Qed.

(** Other turns are not kept exactly: a hole a thousandth right of the origin, turned by the angle of the
    triangle 3, 4, 5, is drilled where rounding puts it. *)
Theorem C144_exact_refuted : exists top T o h h' r, turns T o /\ turned_sessions top T o h h' /\ user_heap h /\ user_heap h' /\
  (exists j, hget h r = Some j /\ job_printable h j) /\ (exists j, hget h' r = Some j /\ job_printable h' j) /\
  exists s bs s' bs' st, to_gcode h r = Ok s /\ parse_program s = Some bs /\ to_gcode h' r = Ok s' /\ parse_program s' = Some bs' /\ ms_ended st = false /\
    ~ Forall2 (turned_event 0%Qc T o) (snd (run st bs)) (snd (run st bs')).
Proof. exact slant. Qed.
Print Assumptions C144_exact_refuted.

(** * Programs for work that lies somewhere else (C142) *)
From Verif Require Import Base.Str Base.Py Spec.Gcode Spec.Machine Spec.Program Spec.Jobs Spec.Axes Spec.Alike Spec.Shift Spec.ShiftKernel Spec.ShiftFace Spec.ShiftMoves Model.Groups Model.Geometry Model.Plane Model.Edges Model.Job
  Model.Tabs Model.Routers Model.Profile Model.Pocket Model.PocketOp Model.Drill Model.Strategy Model.Surface Proofs.RouteEx Proofs.ShiftMovesP Proofs.ShiftMovesEx.
Local Open Scope list_scope.

(** ** C142: two users make the same jobs and calls, but the work of the second lies [d] away.  Their
    programs make the same moves, those of the second [d] away, to within a thousandth (both are rounded
    to thousandths).  The machine is left in the same state. *)
Theorem C142_moved_programs : forall d top h h' r j, moved_sessions top d h h' -> reachable h -> hget h r = Some j ->
  exists j', hget h' r = Some j' /\
  (job_printable h j -> job_printable h' j' -> forall st, ms_ended st = false -> exists s bs s' bs', to_gcode h r = Ok s /\ parse_program s = Some bs /\
     to_gcode h' r = Ok s' /\ parse_program s' = Some bs' /\ fst (run st bs) = fst (run st bs') /\ Forall2 (moved_event (qq 1 1000) d) (snd (run st bs)) (snd (run st bs'))).
Proof. exact moved_within. Qed.
Print Assumptions C142_moved_programs.

(** Exactly [d] away if [d] is an even number of thousandths along both axes. *)
Theorem C142_moved_exactly : forall d top h h' r j, even_step (fst d) -> even_step (snd d) -> moved_sessions top d h h' -> reachable h -> hget h r = Some j ->
  exists j', hget h' r = Some j' /\
  (job_printable h j -> job_printable h' j' -> forall st, ms_ended st = false -> exists s bs s' bs', to_gcode h r = Ok s /\ parse_program s = Some bs /\
     to_gcode h' r = Ok s' /\ parse_program s' = Some bs' /\ fst (run st bs) = fst (run st bs') /\ Forall2 (moved_event 0%Qc d) (snd (run st bs)) (snd (run st bs'))).
Proof. exact moved_exactly. Qed.
Print Assumptions C142_moved_exactly.

(** A call answers both with the same job or the same error. *)
Theorem C142_same_answers : forall d top h h' r t name gen gen', moved_sessions top d h h' -> settled gen -> moved_gen top d gen gen' ->
  snd (fluent_op h' r t name gen') = snd (fluent_op h r t name gen).
Proof. exact moved_answers. Qed.
Print Assumptions C142_same_answers.

(** All the operations can be called in such sessions, if the answers of kernel and engine move with the
    work. *)
Theorem C142_operations : 
  (forall top v os z, settled (drill_gen os z) /\ moved_gen top (hole_shift top v) (drill_gen os z) (drill_gen (option_map (map (move_object v)) os) z)) /\
  (forall top d K TK WK given, kernel_moves K d -> tab_kernel_moves TK d -> wire_kernel_moves WK top given d ->
     (forall os is_ oo io sd t, settled (profile_gen K TK WK os is_ oo io sd t) /\ moved_gen top d (profile_gen K TK WK os is_ oo io sd t) (profile_gen K TK WK (map given os) (map given is_) oo io sd t)) /\
     (forall ws o sd t, settled (wire_profile_gen K TK WK ws o sd t) /\ moved_gen top d (wire_profile_gen K TK WK ws o sd t) (wire_profile_gen K TK WK (map given ws) o sd t))) /\
  (forall top d K WK F gw given shadow E, kernel_moves K d -> wire_kernel_moves WK top gw d -> face_kernel_moves F top given shadow d -> engine_moves E d ->
     forall fuel ops avoids a, settled (pocket_gen K WK F E fuel ops avoids a) /\ moved_gen top d (pocket_gen K WK F E fuel ops avoids a) (pocket_gen K WK F E fuel (map given ops) (option_map (map given) avoids) a)) /\
  (forall top d K C given given_w shadow, clipper_moves C d -> surface_kernel_moves K top given given_w shadow d ->
     forall a os, settled (surface_gen K C a os) /\ moved_gen top d (surface_gen K C a os) (surface_gen K C a (map (move_selected given given_w) os))).
Proof. exact gens_moved. Qed.
Print Assumptions C142_operations.

Example C142_example : moved_sessions plane_xy by_d here there /\ even_step (fst by_d) /\ even_step (snd by_d) /\ reachable here /\
  (exists j, hget here 3%nat = Some j /\ job_printable here j) /\ (exists j, hget there 3%nat = Some j /\ job_printable there j) /\
  firstn 7 (ends_h here 3%nat) = [None; Some 0; Some 0; Some 0; Some 40000; Some 40000; Some 0]%Z /\
  firstn 7 (ends_h there 3%nat) = [None; Some 500; Some 500; Some 500; Some 40500; Some 40500; Some 500]%Z /\
  List.length (ends_h here 3%nat) = 28%nat.
Proof. exact ex_moved_plates. Qed.

(** An odd number of thousandths is not kept exactly: ties are rounded to even, so a hole at 0.0005 is
    drilled at 0, and one at 0.0015 at 0.002. *)
Theorem C142_exact_refuted : exists top d h h' r, moved_sessions top d h h' /\ user_heap h /\ user_heap h' /\
  (exists j, hget h r = Some j /\ job_printable h j) /\ (exists j, hget h' r = Some j /\ job_printable h' j) /\
  exists s bs s' bs' st, to_gcode h r = Ok s /\ parse_program s = Some bs /\ to_gcode h' r = Ok s' /\ parse_program s' = Some bs' /\ ms_ended st = false /\
    ~ Forall2 (moved_event 0%Qc d) (snd (run st bs)) (snd (run st bs')).
Proof. exact odd_step. Qed.
Print Assumptions C142_exact_refuted.

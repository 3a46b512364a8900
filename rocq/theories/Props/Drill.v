(** * Theorems about drilling (C46-C49) *)
From Verif Require Import Base.Str Base.Py Model.Geometry Model.Plane Model.Drill Spec.Paths Spec.Moves Spec.Drills Spec.Jobs
  Proofs.RouteEx Proofs.DrillP Proofs.DrillEx Proofs.DrillPlanesP Proofs.PlaneXyP.
From Coq Require Import Permutation.
Local Open Scope Qc_scope.
Local Open Scope list_scope.

(** ** C46 *)
(** The cutting moves are one per requested hole (with repetitions), the first hole first. *)
Theorem C46_every_hole_once : forall os d j cmds, drill_gen (Some os) (Some d) j = Ok cmds ->
  exists p pts order groups, wanted_holes (to_world (j_top j)) os (p :: pts) /\ Permutation order pts /\
    cmds = map Motion (concat groups) /\
    Forall2 (drilled (j_op_safe_height j) (- qabs d) (j_feed j)) (p :: order) groups.
Proof. exact drill_every_hole. Qed.
Print Assumptions C46_every_hole_once.

(** Which arguments are accepted. *)
Theorem C46_arguments : forall o d j,
  (o = None -> drill_gen o d j = Err OperationError) /\
  (d = None -> drill_gen o d j = Err OperationError) /\
  (o = Some [] -> drill_gen o d j = Err OperationError) /\
  (forall os, o = Some os -> Forall kernel_fine os -> In DOther os -> drill_gen o d j = Err OperationError) /\
  (forall os, o = Some os -> d <> None -> os <> [] -> Forall kernel_fine os -> ~ In DOther os -> exists cmds, drill_gen o d j = Ok cmds).
Proof. exact drill_gen_errors. Qed.
Print Assumptions C46_arguments.

(** Job.drill: the commands become the last operation of the new job, made with the updated feed. *)
Theorem C46_job_drill : forall h r o d t h' r', job_drill h r o d t = (h', Ok r') ->
  exists os depth j ju j' pre p pts order groups, o = Some os /\ d = Some depth /\
    hget h r = Some j /\ settings_of ju = tool_settings j t /\ same_frame j ju /\
    hget h' r' = Some j' /\ j_operations j' = pre ++ [Op r' "Drill" (map Motion (concat groups))] /\
    wanted_holes (to_world (j_top j)) os (p :: pts) /\ nearest_first p pts order /\
    Forall2 (drilled (j_op_safe_height j) (- qabs depth) (j_feed ju)) (p :: order) groups /\ continuous av_none (concat groups).
Proof. exact job_drill_spec. Qed.
Print Assumptions C46_job_drill.

Example C46_example : (exists cmds, drill_gen (Some ex_holes) (Some (qz 2)) ex_job = Ok cmds /\
  firstn 8 (drill_texts (Ok cmds)) =
    ["G0 Z1"; "G0 X0 Y0 Z1"; "G0 X0 Y0 Z0"; "G1 X0 Y0 Z-2 F300"; "G0 X0 Y0 Z1"; "G0 X4 Y3 Z1"; "G0 X4 Y3 Z0"; "G1 X4 Y3 Z-2 F300"]%string /\
  length cmds = 20%nat) /\
  wanted_holes (to_world (j_top ex_job)) ex_holes [zp 0 0; zp 10 0; zp 4 3; zp 12 1; zp 4 3].
Proof. exact (conj ex_drill ex_holes_wanted). Qed.

(** ** C47 *)
Theorem C47_nearest_next : forall os d j cmds, drill_gen (Some os) (Some d) j = Ok cmds ->
  exists p pts order groups, wanted_holes (to_world (j_top j)) os (p :: pts) /\ nearest_first p pts order /\
    cmds = map Motion (concat groups) /\
    Forall2 (drilled (j_op_safe_height j) (- qabs d) (j_feed j)) (p :: order) groups.
Proof. exact drill_nearest. Qed.
Print Assumptions C47_nearest_next.
(** The order is determined by this. *)
Theorem C47_order_determined : forall here pts o1, nearest_first here pts o1 ->
  forall o2, nearest_first here pts o2 -> o1 = o2.
Proof. exact nearest_first_unique. Qed.
Print Assumptions C47_order_determined.

Example C47_example : nearest_first (zp 0 0) [zp 10 0; zp 4 3; zp 12 1; zp 4 3] [zp 4 3; zp 4 3; zp 10 0; zp 12 1].
Proof. exact ex_order. Qed.

(** ** C48 *)
Theorem C48_vertical_and_safe : forall os d j cmds, drill_gen (Some os) (Some d) j = Ok cmds ->
  exists order groups, cmds = map Motion (concat groups) /\ continuous av_none (concat groups) /\
    Forall2 (drilled (j_op_safe_height j) (- qabs d) (j_feed j)) order groups /\
    forall m, In m (concat groups) -> vertical m \/ at_height m (j_op_safe_height j).
Proof. exact drill_safe. Qed.
Print Assumptions C48_vertical_and_safe.

Example C48_example : exists cmds, drill_gen (Some ex_holes) (Some (- qz 2)) ex_job = Ok cmds /\
  drill_gen (Some ex_holes) (Some (qz 2)) ex_job = Ok cmds.
Proof. exact ex_negative_depth. Qed.

(** ** C49 *)
(** Full statement: for every plane, the XY position is that of [to_local].  Missing (false in the
    code, which uses the inverse map): all planes but those with the world's axes and an origin on
    the world's Z axis. *)
Theorem C49_positions_partial : forall os d j cmds z, j_top j = PL (V3 0 0 z) (V3 1 0 0) (V3 0 1 0) (V3 0 0 1) ->
  drill_gen (Some os) (Some d) j = Ok cmds ->
  exists p pts order groups, wanted_holes (to_local (j_top j)) os (p :: pts) /\ nearest_first p pts order /\
    cmds = map Motion (concat groups) /\
    Forall2 (drilled (j_op_safe_height j) (- qabs d) (j_feed j)) (p :: order) groups.
Proof. exact drill_in_place. Qed.
Print Assumptions C49_positions_partial.
(** The planes for which holes are drilled in place are exactly those that are their own inverse,
    seen from above: [C49_planes_partial] and, for all others, [C49_other_planes]. *)
Theorem C49_planes_partial : forall os d j cmds, own_inverse (j_top j) -> drill_gen (Some os) (Some d) j = Ok cmds ->
  exists p pts order groups, wanted_holes (to_local (j_top j)) os (p :: pts) /\ nearest_first p pts order /\
    cmds = map Motion (concat groups) /\
    Forall2 (drilled (j_op_safe_height j) (- qabs d) (j_feed j)) (p :: order) groups.
Proof. exact drill_own_inverse. Qed.
Print Assumptions C49_planes_partial.
Theorem C49_other_planes : forall j d, ~ own_inverse (j_top j) -> exists v cmds m p,
  drill_gen (Some [DVector v]) (Some d) j = Ok (map Motion cmds) /\ In m cmds /\ straight_cut m /\ xy (m_end m) = Some p /\
  p <> (vx (to_local (j_top j) v), vy (to_local (j_top j) v)).
Proof. exact drill_elsewhere. Qed.
Print Assumptions C49_other_planes.
(** In the plane XY points stay where they are. *)
Theorem C49_xy : forall v, to_world plane_xy v = v /\ to_local plane_xy v = v.
Proof. exact xy_plane. Qed.
Print Assumptions C49_xy.
(** With the world's axes and any origin, every hole is off by twice the origin. *)
Theorem C49_shift : forall o v, let top := PL o (V3 1 0 0) (V3 0 1 0) (V3 0 0 1) in
  vx (to_world top v) = vx (to_local top v) + qz 2 * vx o /\ vy (to_world top v) = vy (to_local top v) + qz 2 * vy o.
Proof. exact shifted_world. Qed.
Print Assumptions C49_shift.
Theorem C49_misplaced_refuted : exists j os d cmds pts, drill_gen (Some os) (Some d) j = Ok (map Motion cmds) /\
  wanted_holes (to_local (j_top j)) os pts /\ pts = [zp 0 0] /\
  exists m, In m cmds /\ straight_cut m /\ xy (m_end m) = Some (zp 20 0).
Proof. exact drill_misplaced. Qed.
Print Assumptions C49_misplaced_refuted.

Example C49_example : j_top ex_job = PL (V3 0 0 0) (V3 1 0 0) (V3 0 1 0) (V3 0 0 1).
Proof. reflexivity. Qed.
Example C49_planes_example : own_inverse below_top /\ ~ own_inverse moved_top.
Proof. exact below_own_inverse. Qed.

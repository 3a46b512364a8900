(** * Properties C79-C84: the pocket operation and its engines *)
From Verif Require Import Base.Str Base.Py Model.Geometry Model.Plane Model.Tree Model.Edges Model.Routers Model.Interp Model.PocketOp
  Spec.Paths Spec.Moves Spec.Wires Spec.Contours Spec.Pockets Spec.PocketCq Spec.Sides
  Proofs.RouteEx Proofs.ProfileEx Proofs.PocketEx Proofs.PocketCqP Proofs.PocketOpP Proofs.PocketOpEx Proofs.SidesP Proofs.SidesEx.
Import Model.Pocket.
From Coq Require Import Permutation.
Local Open Scope Qc_scope.
Local Open Scope list_scope.

(** ** C79 *)
Theorem C79_no_tool : forall K WK F E fuel eng j areas avoids a, tool_radius j = None ->
  pocket K WK F E fuel eng j areas avoids a = Err TypeError.
Proof. exact pocket_no_tool. Qed.
Print Assumptions C79_no_tool.

Theorem C79_unknown_engine : forall K WK F E fuel j areas avoids a r, tool_radius j = Some r ->
  pocket K WK F E fuel EngOther j areas avoids a = Err ValueError.
Proof. exact pocket_other. Qed.
Print Assumptions C79_unknown_engine.

(** Only level areas are accepted (to three decimals, after the transformation to the job's plane). *)
Theorem C79_level_areas : forall K WK F E fuel j areas avoids a cmds f,
  pocket K WK F E fuel EngClipper j areas avoids a = Ok cmds -> In f (areas ++ listed avoids) ->
  round_units (fk_zmin F (fk_transform F (j_top j) f)) 3 = round_units (fk_zmax F (fk_transform F (j_top j) f)) 3.
Proof. exact pocket_flat. Qed.
Print Assumptions C79_level_areas.

(** What reaches the engines: the areas in the coordinates of the job and the distances meant by
    the arguments. *)
Theorem C79_clipper_arguments : forall K WK F E fuel j areas avoids a cmds,
  pocket K WK F E fuel EngClipper j areas avoids a = Ok cmds ->
  exists r ps qs, tool_radius j = Some r /\
    Forall2 (fun f p => from_cq_face K F (j_precision j) (fk_transform F (j_top j) f) = Ok p) areas ps /\
    Forall2 (fun f p => from_cq_face K F (j_precision j) (fk_transform F (j_top j) f) = Ok p) (listed avoids) qs /\
    pocket_clipper E fuel j ps qs (outer_distance r avoids a) (distance r (pa_inner a) 1)
     (distance r (pa_avoid_outer a) 1) (distance r (pa_avoid_inner a) (- (1))) (distance r (pa_stepover a) (qq 1 2)) (pa_stepdown a) = Ok cmds.
Proof. exact pocket_clipper_ok. Qed.
Print Assumptions C79_clipper_arguments.
Theorem C79_cq_arguments : forall K WK F E fuel j areas avoids a r, tool_radius j = Some r ->
  pocket K WK F E fuel EngCq j areas avoids a =
  pocket_cq K WK F fuel j (map (fk_transform F (j_top j)) areas) (map (fk_transform F (j_top j)) (listed avoids))
     (outer_distance r avoids a) (distance r (pa_inner a) 1)
     (distance r (pa_avoid_outer a) 1) (distance r (pa_avoid_inner a) (- (1))) (distance r (pa_stepover a) (qq 1 2)).
Proof. exact pocket_cq_args. Qed.
Print Assumptions C79_cq_arguments.

Example C79_example : tool_radius bare_job = None /\ tool_radius ex_job = Some (qq 3 2) /\
  pocket K0 flat_wk rect_fk box_engine 20 EngClipper ex_job [rface 0 0 10 8 (-2)] None (down_args 1) = Ok clipper_cmds /\
  outer_distance (qq 3 2) (@None (list rect_face)) no_args = qq (-3) 2 /\ distance (qq 3 2) (Some (OPair 1 (qq 1 10))) 1 = qq 8 5.
Proof.
  split; [reflexivity|]. split; [reflexivity|]. split; [apply clipper_runs|].
  split; apply Qc_is_canon; reflexivity.
Qed.

(** ** C80 *)
Theorem C80_floor : forall K WK F E fuel j areas avoids a cmds floor,
  pocket K WK F E fuel EngClipper j areas avoids a = Ok cmds ->
  floor <= 0 -> (forall f, In f areas -> floor <= fk_zmax F (fk_transform F (j_top j) f)) ->
  floor <= j_op_safe_height j -> floor <= j_rapid_height j ->
  continuous av_none cmds /\ Forall (above floor) cmds /\
  Forall (fun m => rapid m -> safe_rapid (j_rapid_height j) (j_op_safe_height j) m) cmds /\
  Forall (fun m => ~ rapid m -> exists d, floor <= d /\ ok_feed (j_op_safe_height j) (j_plunge_feed j) (j_feed j) d m) cmds.
Proof. exact whole_pocket_floor. Qed.
Print Assumptions C80_floor.

Example C80_example :
  pocket K0 flat_wk rect_fk box_engine 20 EngClipper ex_job [rface 0 0 10 8 (-2)] None (down_args 1) = Ok clipper_cmds /\
  cut_heights clipper_cmds = [-1; -2]%Z /\ clipper_cmds <> [] /\
  (forall f, In f [rface 0 0 10 8 (-2)] -> qz (-2) <= fk_zmax rect_fk (fk_transform rect_fk (j_top ex_job) f)) /\
  qz (-2) <= j_op_safe_height ex_job /\ qz (-2) <= j_rapid_height ex_job.
Proof.
  split; [apply clipper_runs|]. split; [apply clipper_runs|]. split; [apply clipper_runs|].
  split; [intros f [<-|[]]; vm_compute; discriminate|]. split; discriminate.
Qed.

(** ** C81 *)
Theorem C81_cq_pocket : forall K WK F fuel j areas avoids oo io ao ai so cmds,
  pocket_cq K WK F fuel j areas avoids oo io ao ai so = Ok cmds ->
  exists offs avs pockets fills gs,
    Forall2 (cq_offset K WK F oo io) areas offs /\ Forall2 (cq_offset K WK F ao ai) avoids avs /\
    cq_levels F (j_top j) (concat offs) (concat avs) pockets /\
    Forall2 (fun p ss => exists islands, Forall2 (fun w f => fk_make F w [] = Ok f) (fk_inners F p) islands /\
               wire_filling (cq_inward K WK F so islands) (fk_outer F p) ss) pockets fills /\
    cmds = concat gs /\ Forall2 (cq_routed K j) (concat fills) gs /\
    Forall (fun m => (rapid m -> safe_rapid (j_rapid_height j) (j_op_safe_height j) m) /\
                     (~ rapid m -> feed_ok (j_op_safe_height j) (j_plunge_feed j) (j_feed j) m)) cmds.
Proof. exact pocket_cq_spec. Qed.
Print Assumptions C81_cq_pocket.

(** With finitely many wires to follow and no errors of the kernel, the filling ends. *)
Theorem C81_fill_ends : forall K WK F fuel p step islands (addresses : list (list nat)),
  Forall2 (fun w f => fk_make F w [] = Ok f) (fk_inners F p) islands ->
  (forall a c, reached (cq_inward K WK F step islands) (fk_outer F p) a c ->
     In a addresses /\ exists l, cq_inward K WK F step islands c l) ->
  (length addresses < fuel)%nat -> exists ss, fill_face K WK F fuel p step = Ok ss.
Proof. exact fill_face_ends. Qed.
Print Assumptions C81_fill_ends.

Example C81_example :
  pocket K0 flat_wk rect_fk box_engine 20 EngCq ex_job [rface 0 0 10 8 (-5)] None (down_args 1) = Ok (cq_cmds (Some 1)) /\
  length (cq_cmds (Some 1)) = 32%nat.
Proof. split; [apply cq_runs|]. vm_compute. reflexivity. Qed.

(** ** C82 *)
(** Full statement: for every plane of the job.  Missing (false in the code): planes whose normal is
    not the global Z axis. *)
Theorem C82_level_heights_partial : forall F top d f, moves_faces F -> p_zdir top = V3 0 0 1 ->
  fk_zmax F (raised_to F top d f) = d /\ fk_zmax F (moved_to F top d f) = d.
Proof. exact raised_upright. Qed.
Print Assumptions C82_level_heights_partial.
Theorem C82_actual_height : forall F top d f, moves_faces F ->
  fk_zmax F (moved_to F top d f) = fk_zmax F f + (d - fk_zmax F f) * vz (p_zdir top).
Proof. exact moved_height. Qed.
Print Assumptions C82_actual_height.
(** So a level is where it should be exactly for those planes, or when the face was there already. *)
Theorem C82_exactly : forall F top d f, moves_faces F ->
  (fk_zmax F (moved_to F top d f) = d <-> fk_zmax F f = d \/ vz (p_zdir top) = 1).
Proof. exact moved_exactly. Qed.
Print Assumptions C82_exactly.

(** On the YZ plane the cutter leaves the areas sideways. *)
Theorem C82_tilted_plane_refuted : exists K WK F E fuel j areas r lim cmds m p,
  moves_faces F /\ tool_radius j = Some r /\
  (forall f e, In f areas -> In e (fk_outer F (fk_transform F (j_top j) f)) -> vx (e_startPoint e) <= lim /\ vx (e_endPoint e) <= lim) /\
  pocket K WK F E fuel EngCq j areas None no_args = Ok cmds /\
  In m cmds /\ ~ rapid m /\ xy (m_end m) = Some p /\ lim < fst p + r.
Proof. exact cq_sideways. Qed.
Print Assumptions C82_tilted_plane_refuted.

Example C82_example : moves_faces rect_fk /\ p_zdir plane_xy = V3 0 0 1 /\
  fk_zmax rect_fk (raised_to rect_fk plane_xy (qz (-1)) (rface 0 0 10 8 (-4))) = qz (-1).
Proof.
  split; [exact rect_fk_moves|]. split; [reflexivity|]. apply raised_upright; [exact rect_fk_moves|reflexivity].
Qed.

(** ** C83 *)
(** The engine "cq" has no passes, whatever the stepdown. *)
Theorem C83_stepdown_ignored : forall K WK F E fuel j areas avoids a s,
  pocket K WK F E fuel EngCq j areas avoids a =
  pocket K WK F E fuel EngCq j areas avoids (PA (pa_outer a) (pa_inner a) (pa_avoid_outer a) (pa_avoid_inner a) (pa_stepover a) s).
Proof. exact pocket_cq_stepdown. Qed.
Print Assumptions C83_stepdown_ignored.
Theorem C83_passes_refuted : exists K WK F E fuel j areas a s z cmds,
  pa_stepdown a = Some s /\ 0 < s /\ z < - s /\ moves_faces F /\
  pocket K WK F E fuel EngCq j areas None a = Ok cmds /\
  Forall (fun m => ~ rapid m -> az (m_end m) = Some z) cmds /\ (exists m, In m cmds /\ ~ rapid m).
Proof. exact cq_one_pass. Qed.
Print Assumptions C83_passes_refuted.

(** ** C84 *)
(** Full statement: the tool stays inside the outlines.  Proved, with polygons offset correctly: in no
    direction the centre of the tool gets nearer to the end of the areas than the outline offset
    asks for; that is the radius, but 0 as soon as there is an area to avoid. *)
Theorem C84_reach_partial : forall K WK F E fuel j areas avoids a cmds n lim r,
  pocket K WK F E fuel EngClipper j areas avoids a = Ok cmds -> tool_radius j = Some r ->
  stays_within E n -> outer_distance r avoids a <= 0 -> 0 <= distance r (pa_stepover a) (qq 1 2) ->
  (forall f e v, In f areas -> In e (fk_outer F (fk_transform F (j_top j) f)) -> of_edge e v -> reach n (vx v, vy v) <= lim) ->
  forall m, In m cmds -> ~ rapid m ->
    exists p q, segment_of m p q /\ forall c, on_segment c p q -> reach n c <= lim + outer_distance r avoids a.
Proof. exact whole_within. Qed.
Print Assumptions C84_reach_partial.
Example C84_example :
  pocket K0 flat_wk rect_fk box_engine 20 EngClipper ex_job [rface 0 0 10 8 (-2)] None (down_args 1) = Ok clipper_cmds /\
  tool_radius ex_job = Some (qq 3 2) /\ unit_length east /\ stays_within box_engine east /\
  outer_distance (qq 3 2) (@None (list rect_face)) (down_args 1) = - qq 3 2 /\ 0 <= distance (qq 3 2) (pa_stepover (down_args 1)) (qq 1 2) /\
  (forall f e v, In f [rface 0 0 10 8 (-2)] -> In e (fk_outer rect_fk (fk_transform rect_fk (j_top ex_job) f)) -> of_edge e v ->
     reach east (vx v, vy v) <= qz 10).
Proof.
  split; [apply clipper_runs|]. split; [reflexivity|]. split; [reflexivity|]. split; [exact box_stays|].
  split; [apply Qc_is_canon; reflexivity|]. split; [discriminate|exact free_edges].
Qed.

(** With an area to avoid, even one far away, the outline is cut by the centre of the tool. *)
Theorem C84_outline_refuted : exists K WK F E fuel j areas avoids r lim cmds cmds' m p,
  tool_radius j = Some r /\
  (forall f e, In f areas -> In e (fk_outer F (fk_transform F (j_top j) f)) -> vx (e_startPoint e) <= lim /\ vx (e_endPoint e) <= lim) /\
  pocket K WK F E fuel EngClipper j areas None no_args = Ok cmds /\
  (forall m p, In m cmds -> ~ rapid m -> xy (m_end m) = Some p -> fst p + r <= lim) /\
  pocket K WK F E fuel EngClipper j areas (Some avoids) no_args = Ok cmds' /\
  In m cmds' /\ ~ rapid m /\ xy (m_end m) = Some p /\ lim < fst p + r.
Proof. exact outline_overrun. Qed.
Print Assumptions C84_outline_refuted.

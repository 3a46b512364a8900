(** * Theorems about surface operations and feed rates (C56-C59, C64, C71-C74, C104) *)
From Verif Require Import Base.Str Base.Py Model.Groups Model.Geometry Model.Plane Model.Job Model.Profile Model.Drill Model.Edges
  Model.Strategy Model.Surface Model.PocketOp
  Spec.Gcode Spec.Blocks Spec.Machine Spec.Jobs Spec.Paths Spec.Moves Spec.Pockets Spec.Zigzag Spec.Surfaces Spec.Runs Spec.Gouge Spec.Feeds
  Spec.Program Proofs.RouteEx Proofs.ZigzagEx Proofs.SurfaceP Proofs.SurfaceThmP Proofs.SurfaceEx Proofs.FeedP Proofs.FeedEx Proofs.GougeP Proofs.GougeEx Proofs.RunsP.
From Verif Require Proofs.ProgramEx.
Local Open Scope Qc_scope.
Local Open Scope list_scope.

(** ** C56 *)
(** Every move of the operation is a safe rapid, or a cut that ends at a scanned point, no lower than
    the drop-cutter height of the point and no lower than the depth of the pass. *)
Theorem C56_never_below_surface : forall K C a objects j cmds, surface_gen K C a objects j = Ok cmds ->
  exists faces zmin groups, objects <> [] /\ selected objects faces /\ sk_zmin K (j_top j) faces = Ok zmin /\
    cmds = map Motion (concat groups) /\
    Forall (fun ms => exists b seqs depths, scanned K C a (j_top j) faces zmin b seqs /\
      descent (sa_top_height a) zmin (sa_stepdown a) depths /\
      continuous av_none ms /\
      Forall (fun m => (rapid m /\ safe_rapid (j_rapid_height j) (j_op_safe_height j) m) \/
        exists p depth, In p (concat seqs) /\ In depth depths /\ surface_cut depth p m) ms) groups.
Proof. exact surface_moves. Qed.
Print Assumptions C56_never_below_surface.

(** The order of all the moves over one boundary: pass by pass, run by run. *)
Theorem C56_passes : forall K C a j faces zmin b ms, surface_boundary K C a j faces zmin b = Ok ms ->
  exists seqs depths, scanned K C a (j_top j) faces zmin b seqs /\
    descent (sa_top_height a) zmin (sa_stepdown a) depths /\
    surfaced (j_rapid_height j) (j_op_safe_height j) seqs depths ms /\ continuous av_none ms.
Proof. exact surface_boundary_steps. Qed.
Print Assumptions C56_passes.

Example C56_example : surface_texts (stairs_gen None 0 ex_job) =
  ["G0 Z10"; "G0 X5 Y2 Z10"; "G0 X5 Y2 Z1"; "G1 X10 Y2 Z-3"; "G1 X10 Y2 Z-3"; "G1 X10 Y5 Z-3"; "G1 X10 Y5 Z-3"; "G1 X5 Y5 Z-1";
   "G0 X5 Y5 Z10"; "G0 X5 Y8 Z10"; "G0 X5 Y8 Z1"; "G1 X10 Y8 Z-3"]%string.
Proof. exact stairs_text. Qed.

(** ** C57 *)
Theorem C57_chop : forall limit seqs, chopped_all limit seqs (chop_sequences_by_depth seqs limit).
Proof. exact chop_ok. Qed.
Print Assumptions C57_chop.
Theorem C57_chop_determined : forall limit seq runs, chopped limit seq runs -> forall runs', chopped limit seq runs' -> runs = runs'.
Proof. exact chopped_unique. Qed.
Print Assumptions C57_chop_determined.
Theorem C57_points_kept : forall limit seq runs, chopped limit seq runs -> concat runs = filter (fun p => qleb (vz p) limit) seq.
Proof. exact chopped_points. Qed.
Print Assumptions C57_points_kept.

Example C57_example : chop_sequences_by_depth [[zv 0 0 (-1); zv 1 0 2; zv 2 0 0; zv 3 0 (-3); zv 4 0 5]; [zv 5 0 7]; [zv 6 0 (-2)]] 0 =
  [[zv 0 0 (-1)]; [zv 2 0 0; zv 3 0 (-3)]; [zv 6 0 (-2)]].
Proof. exact ex_chop. Qed.

(** ** C58: a positive stepdown gives descending passes.
    Full statement: for 0 < s, surface_depths top bottom (Some s) = Ok (ds ++ [bottom]) with
    steps_by s top bottom ds.  This is false: it holds for negative stepdowns only, and then only if
    there is room for a pass before the last. *)
Theorem C58_negative_stepdown_partial : forall top bottom s, s < 0 -> bottom < top + s ->
  exists ds, surface_depths top bottom (Some s) = Ok (ds ++ [bottom]) /\ ds <> [] /\ steps_by (- s) top bottom ds.
Proof. exact surface_depths_down. Qed.
Print Assumptions C58_negative_stepdown_partial.
Example C58_example : qz (-3) < 0 /\ qz (-10) < 0 + qz (-3) /\
  surface_depths 0 (qz (-10)) (Some (qz (-3))) = Ok ([qz (-3); qz (-6); qz (-9)] ++ [qz (-10)]).
Proof. exact ex_depths_down. Qed.

(** A positive stepdown over a part below its top fails, always; so does a negative one as long as the part is deep. *)
Theorem C58_stepdown_fails : forall K C a j faces zmin b s, sa_stepdown a = Some s ->
  (0 < s /\ zmin <= sa_top_height a + s) \/ (s < 0 /\ sa_top_height a + s <= zmin) ->
  forall ms, surface_boundary K C a j faces zmin b <> Ok ms.
Proof. exact stepdown_fails. Qed.
Print Assumptions C58_stepdown_fails.
Theorem C58_positive_stepdown_refuted : exists s, 0 < s /\ stairs_gen (Some s) 0 ex_job = Err IndexError /\
  (exists cmds, stairs_gen None 0 ex_job = Ok cmds) /\ (exists cmds, stairs_gen (Some (- s)) 0 ex_job = Ok cmds).
Proof. exact stepdown_positive_fails. Qed.
Print Assumptions C58_positive_stepdown_refuted.

(** ** C59: a feed rate is in force at every cutting move.
    Full statement: for every reachable heap.  False with surface operations; the theorem is for
    programs of the other operations. *)
Theorem C59_feed_in_force_partial : forall h r j st, fed_reachable h -> hget h r = Some j -> job_printable h j -> ms_ended st = false ->
  exists s bs, to_gcode h r = Ok s /\ parse_program s = Some bs /\
    Forall2 (fun m e => is_feed_move (ev_kind e) = true -> exists v, m_feed m = Some v /\ ms_feed (ev_from e) = Some (pyval v))
      (job_moves j) (snd (run st bs)).
Proof. exact feed_in_force. Qed.
Print Assumptions C59_feed_in_force_partial.
(** The operations that qualify. *)
Theorem C59_profile_fed : forall K TK WK os is_ oo io sd t, fed_gen (profile_gen K TK WK os is_ oo io sd t).
Proof. exact profile_fed. Qed.
Print Assumptions C59_profile_fed.
Theorem C59_wire_profile_fed : forall K TK WK ws o sd t, fed_gen (wire_profile_gen K TK WK ws o sd t).
Proof. exact wire_profile_fed. Qed.
Print Assumptions C59_wire_profile_fed.
Theorem C59_drill_fed : forall o d, fed_gen (drill_gen o d).
Proof. exact drill_fed. Qed.
Print Assumptions C59_drill_fed.
Theorem C59_pocket_fed : forall K WK F E fuel areas avoids a, fed_gen (pocket_gen K WK F E fuel areas avoids a).
Proof. exact pocket_fed. Qed.
Print Assumptions C59_pocket_fed.
Example C59_example : fed_reachable ProgramEx.ex_heap /\ exists j, hget ProgramEx.ex_heap ProgramEx.ex_ref = Some j /\
  job_printable ProgramEx.ex_heap j /\ List.length (j_operations j) = 3%nat.
Proof. exact (conj ex_fed_reachable ProgramEx.ex_printable). Qed.

(** Surface operations give no feed rate at all: whatever the machine had before stays in force. *)
Theorem C59_surface_unfed : forall K C a objects j cmds, surface_gen K C a objects j = Ok cmds ->
  exists ms, cmds = map Motion ms /\ Forall (fun m => m_feed m = None) ms.
Proof. exact surface_unfed. Qed.
Print Assumptions C59_surface_unfed.
Theorem C59_no_feed_in_force : forall h r j st, reachable h -> hget h r = Some j -> job_printable h j -> ms_ended st = false ->
  Forall (fun m => m_feed m = None) (job_moves j) ->
  exists s bs, to_gcode h r = Ok s /\ parse_program s = Some bs /\
    Forall (fun e => ms_feed (ev_from e) = ms_feed st) (snd (run st bs)) /\
    map ev_kind (snd (run st bs)) = map move_kind (job_moves j).
Proof. exact feed_missing. Qed.
Print Assumptions C59_no_feed_in_force.
Theorem C59_feed_in_force_refuted : exists h r s bs e, reachable h /\
  h = fst (job_surface3d surface_heap0 0%nat (slope_kernel stairs (qz (-3))) (scan_answer ex_lines) (ex_args None 0) (slope_objects stairs (qz (-3)))) /\
  to_gcode h r = Ok s /\ parse_program s = Some bs /\
  In e (snd (run ProgramEx.st_off bs)) /\ is_feed_move (ev_kind e) = true /\ ms_feed (ev_from e) = None.
Proof. exact surface_no_feed. Qed.
Print Assumptions C59_feed_in_force_refuted.

(** ** C64 *)
Theorem C64_interpolation : forall len step seq, 0 < step -> seq <> [] ->
  (forall a b, In (a, b) (steps seq) -> 0 < len a b /\ sqd a b <= len a b * len a b) ->
  exists fine, interpolate_cut_sequence len step seq = Ok fine /\ fine_sequence step seq fine.
Proof. exact interpolate_ok. Qed.
Print Assumptions C64_interpolation.
Theorem C64_empty_sequence : forall len step, interpolate_cut_sequence len step [] = Err IndexError.
Proof. exact interpolate_empty. Qed.
Print Assumptions C64_empty_sequence.
(** A point repeated in the sequence is an error of the kernel (normalising a null vector). *)
Theorem C64_repeated_point : forall len step p l1 l2, len p p = 0 -> step <> 0 ->
  (forall a b, In (a, b) (steps (l1 ++ [p])) -> len a b <> 0) ->
  interpolate_cut_sequence len step (l1 ++ p :: p :: l2) = Err KernelError.
Proof. exact interpolate_repeated. Qed.
Print Assumptions C64_repeated_point.
Example C64_example : (0 < qz 5 /\ [zp 0 2; zp 10 2; zp 10 5] <> [] /\
  forall a b, In (a, b) (steps [zp 0 2; zp 10 2; zp 10 5]) -> 0 < taxi a b /\ sqd a b <= taxi a b * taxi a b) /\
  interpolate_cut_sequence taxi (qz 4) [zp 0 2; zp 10 2; zp 10 5] = Ok [zp 0 2; zp 0 2; zp 4 2; zp 8 2; zp 10 2; zp 10 2; zp 10 5].
Proof. exact ex_interpolate. Qed.

(** ** C71: the tool goes to every scanned point below the top.
    Full statement: every p in the scan with zmin <= vz p <= 0 is the end of a cut.  False: the first
    point of a run is only passed over at the safe height. C73 below says which points are cut. *)
Theorem C71_every_point_cut_refuted : exists K C a j faces zmin b ms seqs p,
  surface_boundary K C a j faces zmin b = Ok ms /\ scanned K C a (j_top j) faces zmin b seqs /\
  In p (concat seqs) /\ vz p <= 0 /\ zmin <= vz p /\ sa_stepdown a = None /\
  forall m, In m ms -> straight_cut m -> xy (m_end m) <> Some (vx p, vy p).
Proof. exact first_point_left. Qed.
Print Assumptions C71_every_point_cut_refuted.
(** Exactly: in each pass a cut ends at every point that is not above the limit of the pass and comes
    after another such point, at its height or the depth of the pass, and nowhere else. *)
Theorem C71_cuts_exactly : forall K C a j faces zmin b ms, surface_boundary K C a j faces zmin b = Ok ms ->
  exists seqs depths, scanned K C a (j_top j) faces zmin b seqs /\ descent (sa_top_height a) zmin (sa_stepdown a) depths /\
    forall e, (exists m, In m ms /\ straight_cut m /\ m_end m = e) <->
      exists limit depth p q, In (limit, depth) (combine (pass_limits depths) depths) /\ neighbours seqs p q /\ vz p <= limit /\ vz q <= limit /\
        e = AV (Some (vx q)) (Some (vy q)) (Some (qmax depth (vz q))).
Proof. exact cuts_exactly. Qed.
Print Assumptions C71_cuts_exactly.
Example C71_example : exists ms, stairs_boundary None 0 ex_job = Ok ms /\ List.length ms = 12%nat.
Proof. eexists. split; [vm_compute; reflexivity|reflexivity]. Qed.

(** ** C72: no rapid ends below the surface.
    Full statement: for every stepdown and top height.  Proved if the passes stay at or below the safe height. *)
Theorem C72_rapids_above_surface_partial : forall K C a j faces zmin b ms, surface_boundary K C a j faces zmin b = Ok ms ->
  0 <= j_op_safe_height j -> zmin <= j_op_safe_height j ->
  (forall s, sa_stepdown a = Some s -> s < 0 /\ sa_top_height a + s <= j_op_safe_height j) ->
  exists seqs, scanned K C a (j_top j) faces zmin b seqs /\
    forall m z, In m ms -> rapid m -> az (m_end m) = Some z -> z <> j_rapid_height j ->
      exists p, In p (concat seqs) /\ xy (m_end m) = Some (vx p, vy p) /\ vz p <= z.
Proof. exact surface_descents. Qed.
Print Assumptions C72_rapids_above_surface_partial.
Example C72_example : exists ms, stairs_boundary (Some (qz (-1))) 0 ex_job = Ok ms /\
  0 <= j_op_safe_height ex_job /\ qz (-3) <= j_op_safe_height ex_job /\
  (forall s, sa_stepdown (ex_args (Some (qz (-1))) 0) = Some s -> s < 0 /\ sa_top_height (ex_args (Some (qz (-1))) 0) + s <= j_op_safe_height ex_job).
Proof. exact ex_descents. Qed.
Theorem C72_rapids_above_surface_refuted : exists K C a j faces zmin b ms seqs m p z,
  surface_boundary K C a j faces zmin b = Ok ms /\ scanned K C a (j_top j) faces zmin b seqs /\
  0 <= j_op_safe_height j /\ zmin <= j_op_safe_height j /\ (exists s, sa_stepdown a = Some s /\ s < 0) /\
  In m ms /\ rapid m /\ az (m_end m) = Some z /\ In p (concat seqs) /\ xy (m_end m) = Some (vx p, vy p) /\
  z < vz p /\ forall q, In q (concat seqs) -> xy (m_end m) = Some (vx q, vy q) -> z < vz q.
Proof. exact rapid_into_part. Qed.
Print Assumptions C72_rapids_above_surface_refuted.
(** Exactly: the rapids down end at the safe height, above the points where the runs of the passes begin. *)
Theorem C72_descents_exactly : forall K C a j faces zmin b ms, surface_boundary K C a j faces zmin b = Ok ms ->
  j_rapid_height j <> j_op_safe_height j ->
  exists seqs depths, scanned K C a (j_top j) faces zmin b seqs /\ descent (sa_top_height a) zmin (sa_stepdown a) depths /\
    forall x y, (exists m, In m ms /\ rapid m /\ az (m_end m) = Some (j_op_safe_height j) /\ xy (m_end m) = Some (x, y)) <->
      exists limit depth p, In (limit, depth) (combine (pass_limits depths) depths) /\ starts_run limit seqs p /\ x = vx p /\ y = vy p.
Proof. exact descents_exactly. Qed.
Print Assumptions C72_descents_exactly.
Example C72_exactly_example : (exists ms, stairs_boundary (Some (qz (-1))) (qz 5) ex_job = Ok ms) /\ j_rapid_height ex_job <> j_op_safe_height ex_job /\
  starts_run 0 [[zv 0 0 2; zv 5 0 (-1); zv 10 0 (-3)]] (zv 5 0 (-1)) /\ ~ starts_run 0 [[zv 0 0 2; zv 5 0 (-1); zv 10 0 (-3)]] (zv 10 0 (-3)).
Proof. exact ex_runs. Qed.

(** ** C73 *)
(** A point with a predecessor in its scan line, both at or below zero and (with a stepdown) the
    predecessor not more than one stepdown above, is cut to its final height. *)
Theorem C73_finished_surface : forall K C a j faces zmin b ms, surface_boundary K C a j faces zmin b = Ok ms ->
  (forall s, sa_stepdown a = Some s -> s <= 0) ->
  exists seqs, scanned K C a (j_top j) faces zmin b seqs /\
    forall p q, neighbours seqs p q -> vz p <= 0 -> vz q <= 0 -> zmin <= vz q ->
      (forall s, sa_stepdown a = Some s -> s < 0 -> vz p <= vz q - s) ->
      exists m, In m ms /\ straight_cut m /\ m_end m = AV (Some (vx q)) (Some (vy q)) (Some (vz q)).
Proof. exact surface_finish. Qed.
Print Assumptions C73_finished_surface.
Example C73_example : exists seqs, stairs_sequences (Some (qz (-3))) 0 = Ok seqs /\
  exists p q, neighbours seqs p q /\ vz p <= 0 /\ vz q <= 0 /\ qz (-3) <= vz q /\ vz p <= vz q - qz (-3) /\ q = zv 5 5 (-1).
Proof. exact ex_finish. Qed.

(** ** C74: the tool stays above the surface between scanned points too.
    Full statement: with [f] the heights answered, f <= z everywhere along a cut.  False; how far the tool
    can be below: a cut goes between neighbouring scanned points, which are not farther apart than the
    interpolation step, and on a surface of slope at most L by half that times L. *)
Theorem C74_depth_partial : forall K C a j faces zmin b ms f L, surface_boundary K C a j faces zmin b = Ok ms ->
  0 <= j_op_safe_height j -> zmin <= j_op_safe_height j ->
  (forall s, sa_stepdown a = Some s -> s < 0 /\ sa_top_height a + s <= j_op_safe_height j) ->
  true_length K -> 0 < sa_interpolation_step a -> drops_to K (j_top j) faces f -> no_steeper L f ->
  forall m, In m ms -> straight_cut m ->
  exists x0 y0 z0 x1 y1 z1, m_start m = AV (Some x0) (Some y0) (Some z0) /\ m_end m = AV (Some x1) (Some y1) (Some z1) /\
    sqd (x0, y0) (x1, y1) <= sa_interpolation_step a * sa_interpolation_step a /\
    forall t, 0 <= t -> t <= 1 ->
      f (x0 + t * (x1 - x0)) (y0 + t * (y1 - y0)) <= z0 + t * (z1 - z0) + L * (qabs (x1 - x0) + qabs (y1 - y0)) / qz 2.
Proof. exact gouge_bound. Qed.
Print Assumptions C74_depth_partial.
(** A roof with its ridge between two scanned points: the bound is attained. *)
Example C74_example : exists ms m, roof_boundary = Ok ms /\
  (0 <= j_op_safe_height ex_job /\ qz (-4) <= j_op_safe_height ex_job /\ true_length roof_kernel /\ 0 < sa_interpolation_step (ex_args None 0)) /\
  drops_to roof_kernel (j_top ex_job) [tt] (fun x _ => roof x) /\ no_steeper (qq 1 2) (fun x _ => roof x) /\
  In m ms /\ straight_cut m /\
  m_start m = AV (Some (qz 10)) (Some (qz 5)) (Some (qq (-5) 4)) /\ m_end m = AV (Some (qz 5)) (Some (qz 5)) (Some (qq (-5) 4)) /\
  roof (qz 10 + qq 1 2 * (qz 5 - qz 10)) = qq (-5) 4 + qq 1 2 * (qabs (qz 5 - qz 10) + qabs (qz 5 - qz 5)) / qz 2.
Proof. exact ex_gouge. Qed.
Theorem C74_above_between_points_refuted : exists K C a j faces zmin b ms m t x0 y0 z0 x1 y1 z1 h,
  surface_boundary K C a j faces zmin b = Ok ms /\ In m ms /\ straight_cut m /\
  m_start m = AV (Some x0) (Some y0) (Some z0) /\ m_end m = AV (Some x1) (Some y1) (Some z1) /\
  0 <= t /\ t <= 1 /\
  sk_drop K (j_top j) faces [V3 (x0 + t * (x1 - x0)) (y0 + t * (y1 - y0)) zmin] = Ok [h] /\ z0 + t * (z1 - z0) < h.
Proof. exact cut_through_step. Qed.
Print Assumptions C74_above_between_points_refuted.

(** ** C104 *)
(** What is scanned: the selected faces (and faces of selected wires), projected, with the outline and
    the holes offset by a multiple of the diameter and a distance. *)
Theorem C104_area : forall K C a objects j cmds, surface_gen K C a objects j = Ok cmds ->
  exists faces zmin base bs groups, objects <> [] /\ selected objects faces /\
    sk_zmin K (j_top j) faces = Ok zmin /\ sk_project K (j_top j) faces = Ok base /\
    Forall2 (fun b fs => sk_planar K b = true /\ exists outer inner,
      offset_distance (sa_tool_diameter a) (sa_outer a) outer /\ offset_distance (sa_tool_diameter a) (sa_inner a) inner /\
      sk_offset K b outer inner = Ok fs) base bs /\
    Forall2 (fun b ms => surface_boundary K C a j faces zmin b = Ok ms) (concat bs) groups /\ cmds = map Motion (concat groups).
Proof. exact surface_area. Qed.
Print Assumptions C104_area.
(** An empty selection, and one with something else than faces and wires. *)
Theorem C104_rejected : forall K C a objects j, (objects = [] -> surface_gen K C a objects j = Err OperationError) /\
  (forall l1 l2, objects = l1 ++ OOther :: l2 -> (forall w, In (OWire w) l1 -> exists f, sk_make K w = Ok f) -> Forall (fun o => o <> OOther) l1 ->
     surface_gen K C a objects j = Err OperationError).
Proof. exact surface_rejects. Qed.
Print Assumptions C104_rejected.
(** The annotation allows [None] for the offset of the holes.  With it nothing is ever cut ... *)
Theorem C104_no_inner : forall K C a objects j cmds, sa_inner a = None -> surface_gen K C a objects j = Ok cmds -> cmds = [].
Proof. exact surface_no_inner. Qed.
Print Assumptions C104_no_inner.
(** ... and a good selection is a TypeError. *)
Theorem C104_no_inner_refuted : exists K C a objects faces base zmin j, sa_inner a = None /\ objects <> [] /\ selected objects faces /\
  sk_zmin K (j_top j) faces = Ok zmin /\ sk_project K (j_top j) faces = Ok base /\ base <> [] /\ Forall (fun b => sk_planar K b = true) base /\
  surface_gen K C a objects j = Err TypeError.
Proof. exact inner_none. Qed.
Print Assumptions C104_no_inner_refuted.
Example C104_example : offset_distance (qz 4) (Some (OffNum (qz (-1)))) (qz (-4)) /\ offset_distance (qz 4) (Some (OffPair (qz (-1)) (qq 1 2))) (qq (-7) 2) /\
  @selected (slope_kernel stairs 0) [@OFace (slope_kernel stairs 0) tt; @OWire (slope_kernel stairs 0) tt] [tt; tt].
Proof. exact area_example. Qed.

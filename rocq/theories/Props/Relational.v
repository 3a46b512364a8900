(** * Operations compared with one another (C125, C126, C127) *)
From Verif Require Import Base.Str Base.Py Model.Groups Model.Geometry Model.Plane Model.Edges Model.Job Model.Routers Model.Pocket Model.Profile Model.Drill Model.Strategy Model.Surface Model.PocketOp Model.Tabs
  Spec.Alike Spec.Shift Spec.ShiftKernel Spec.ShiftFace Proofs.AlikeP Proofs.ShiftP Proofs.ShiftKernelP Proofs.ShiftFaceP Proofs.RouteEx Proofs.DrillEx Proofs.ProfileEx Proofs.RelationalEx Proofs.ShiftKernelEx Proofs.ShiftFaceEx.
Local Open Scope list_scope.

(** ** C125 *)
(** Calls of the same method with the same arguments on jobs with the same settings: both fail with
    the same error, or both add an operation with the same commands.  The operations made before, the
    speeds, the tool numbers (also those named in the call) and the names do not matter. *)
Theorem C125_profile : forall K TK WK h r j h' r' j' shapes oo io sd t tl tl',
  hget h r = Some j -> hget h' r' = Some j' -> alike j j' -> same_feeds j j' -> width_named tl = width_named tl' -> feed_named tl = feed_named tl' ->
  calls_alike same_commands (job_profile K TK WK h r shapes oo io sd t tl) (job_profile K TK WK h' r' shapes oo io sd t tl').
Proof. exact profile_call_same. Qed.
Print Assumptions C125_profile.
Theorem C125_wire_profile : forall K TK WK h r j h' r' j' ws o sd t tl tl',
  hget h r = Some j -> hget h' r' = Some j' -> alike j j' -> same_feeds j j' -> width_named tl = width_named tl' -> feed_named tl = feed_named tl' ->
  calls_alike same_commands (job_wire_profile K TK WK h r ws o sd t tl) (job_wire_profile K TK WK h' r' ws o sd t tl').
Proof. exact wire_profile_call_same. Qed.
Print Assumptions C125_wire_profile.
Theorem C125_pocket : forall K WK F E fuel h r j h' r' j' areas avoids a tl tl',
  hget h r = Some j -> hget h' r' = Some j' -> alike j j' -> same_feeds j j' -> width_named tl = width_named tl' -> feed_named tl = feed_named tl' ->
  calls_alike same_commands (job_pocket K WK F E fuel h r areas avoids a tl) (job_pocket K WK F E fuel h' r' areas avoids a tl').
Proof. exact pocket_call_same. Qed.
Print Assumptions C125_pocket.
Theorem C125_drill : forall h r j h' r' j' os z tl tl',
  hget h r = Some j -> hget h' r' = Some j' -> alike j j' -> same_feeds j j' -> width_named tl = width_named tl' -> feed_named tl = feed_named tl' ->
  calls_alike same_commands (job_drill h r os z tl) (job_drill h' r' os z tl').
Proof. exact drill_call_same. Qed.
Print Assumptions C125_drill.
(** Surfaces: not even the feed rates matter (no feed is given to their cuts, C59). *)
Theorem C125_surface : forall h r j h' r' j' K C a objects, hget h r = Some j -> hget h' r' = Some j' -> alike j j' ->
  calls_alike same_commands (job_surface3d h r K C a objects) (job_surface3d h' r' K C a objects).
Proof. exact surface_call_same. Qed.
Print Assumptions C125_surface.
(** Other work done, another tool number, another speed. *)
Example C125_example : hget [ex_job] 0%nat = Some ex_job /\ hget [ex_job; busy_job] 1%nat = Some busy_job /\ alike ex_job busy_job /\ same_feeds ex_job busy_job /\
  j_operations ex_job <> j_operations busy_job /\ j_speed ex_job <> j_speed busy_job /\
  snd (job_drill [ex_job] 0%nat (Some ex_holes) (Some (qz 2)) None) = Ok 1%nat /\
  snd (job_drill [ex_job; busy_job] 1%nat (Some ex_holes) (Some (qz 2)) None) = Ok 2%nat.
Proof. exact ex_calls. Qed.

(** ** C126 *)
(** Feed rates, of the job or of the tool named, change the feed words and nothing else: both calls
    fail with the same error, or the operations go the same way. *)
Theorem C126_profile : forall K TK WK h r j h' r' j' shapes oo io sd t tl tl',
  hget h r = Some j -> hget h' r' = Some j' -> alike j j' -> width_named tl = width_named tl' ->
  calls_alike same_path (job_profile K TK WK h r shapes oo io sd t tl) (job_profile K TK WK h' r' shapes oo io sd t tl').
Proof. exact profile_call_path. Qed.
Print Assumptions C126_profile.
Theorem C126_wire_profile : forall K TK WK h r j h' r' j' ws o sd t tl tl',
  hget h r = Some j -> hget h' r' = Some j' -> alike j j' -> width_named tl = width_named tl' ->
  calls_alike same_path (job_wire_profile K TK WK h r ws o sd t tl) (job_wire_profile K TK WK h' r' ws o sd t tl').
Proof. exact wire_profile_call_path. Qed.
Print Assumptions C126_wire_profile.
Theorem C126_pocket : forall K WK F E fuel h r j h' r' j' areas avoids a tl tl',
  hget h r = Some j -> hget h' r' = Some j' -> alike j j' -> width_named tl = width_named tl' ->
  calls_alike same_path (job_pocket K WK F E fuel h r areas avoids a tl) (job_pocket K WK F E fuel h' r' areas avoids a tl').
Proof. exact pocket_call_path. Qed.
Print Assumptions C126_pocket.
Theorem C126_drill : forall h r j h' r' j' os z tl tl',
  hget h r = Some j -> hget h' r' = Some j' -> alike j j' -> width_named tl = width_named tl' ->
  calls_alike same_path (job_drill h r os z tl) (job_drill h' r' os z tl').
Proof. exact drill_call_path. Qed.
Print Assumptions C126_drill.
Example C126_example : alike ex_job fast_job /\ ~ same_feeds ex_job fast_job /\
  all_feeds (drill_gen (Some ex_holes) (Some (qz 2)) ex_job) <> all_feeds (drill_gen (Some ex_holes) (Some (qz 2)) fast_job).
Proof. exact ex_feeds. Qed.

(** ** C127 *)
(** Moved holes are drilled in the same order, with the same moves moved; errors stay the same. *)
Theorem C127_drill : forall v os z j,
  drill_gen (Some (map (move_object v) os)) z j = rmap (map (move_command (hole_shift (j_top j) v))) (drill_gen (Some os) z j).
Proof. exact (fun v os => drill_shift v (Some os)). Qed.
Print Assumptions C127_drill.
(** Contours, and pockets of polygons if the answers of the engine move with the polygons. *)
Theorem C127_contours : forall d j fs so pp,
  route_polyface_outers j (map (move_face d) fs) so (option_map (move_avec d) pp) = rmap (map (move_motion d)) (route_polyface_outers j fs so pp).
Proof. exact contours_shift. Qed.
Print Assumptions C127_contours.
Theorem C127_pocket : forall d E, engine_moves E d -> forall fuel j areas avoids oo io ao ai so sd,
  pocket_clipper E fuel j (map (move_face d) areas) (map (move_face d) avoids) oo io ao ai so sd =
  rmap (map (move_motion d)) (pocket_clipper E fuel j areas avoids oo io ao ai so sd).
Proof. exact pocket_shift. Qed.
Print Assumptions C127_pocket.
(** Wires, if the answers of the kernel move with them. *)
Theorem C127_wires : forall d K, kernel_moves K d -> forall j ws so pp,
  route_wires K j (map (move_wire d) ws) so (option_map (move_avec d) pp) = rmap (map (move_motion d)) (route_wires K j ws so pp).
Proof. exact wires_shift. Qed.
Print Assumptions C127_wires.
(** The drilling of C46_example is not an error; a pocket of two passes; two wires linked by a cut. *)
Example C127_example : (forall d, engine_moves copy_engine d) /\ (forall d, kernel_moves corner_kernel d) /\
  length (motions shifted_pocket) = 15%nat /\ length (motions shifted_wires) = 13%nat.
Proof. exact ex_shift. Qed.
(** Profiles with tabs and stepdowns; [given] is how the wires handed in are moved. *)
Theorem C127_profile : forall d K TK WK j given, kernel_moves K d -> tab_kernel_moves TK d -> wire_kernel_moves WK (j_top j) given d ->
  forall outers inners oo io sd t, profile_gen K TK WK (map given outers) (map given inners) oo io sd t j = rmap (map (move_command d)) (profile_gen K TK WK outers inners oo io sd t j).
Proof. exact profile_gen_shift. Qed.
Print Assumptions C127_profile.
Theorem C127_wire_profile : forall d K TK WK j given, kernel_moves K d -> tab_kernel_moves TK d -> wire_kernel_moves WK (j_top j) given d ->
  forall ws o sd t, wire_profile_gen K TK WK (map given ws) o sd t j = rmap (map (move_command d)) (wire_profile_gen K TK WK ws o sd t j).
Proof. exact wire_profile_shift. Qed.
Print Assumptions C127_wire_profile.
(** The routes of zig-zag, and scanned surfaces. *)
Theorem C127_zig_zag : forall d C, clipper_moves C d -> forall diameter stepover outer inner,
  zig_zag C diameter stepover (map (move_boundary d) outer) (map (move_boundary d) inner) = rmap (map (move_path d)) (zig_zag C diameter stepover outer inner).
Proof. exact zig_zag_shift. Qed.
Print Assumptions C127_zig_zag.
Theorem C127_surface : forall d C, clipper_moves C d -> forall K j given given_w shadow, surface_kernel_moves K (j_top j) given given_w shadow d ->
  forall a objects, surface_gen K C a (map (move_selected given given_w) objects) j = rmap (map (move_command d)) (surface_gen K C a objects j).
Proof. exact surface_shift. Qed.
Print Assumptions C127_surface.
(** Two profiles with tabs in three layers, and a scanned square. *)
Example C127_kernels_example : (forall d, tab_kernel_moves piece_kernel d) /\ (forall top d, wire_kernel_moves stay_wk top (map (move_edge d)) d) /\
  (forall d, clipper_moves corner_clipper d) /\
  (forall top d, surface_kernel_moves outline_kernel top (map (move_edge d)) (map (move_edge d)) (map (move_edge d)) d) /\
  count_of moved_profile = Some 92%nat /\ count_of moved_surface = Some 12%nat.
Proof. exact ex_moved. Qed.
(** Pockets of CAD faces, with both engines. *)
Theorem C127_face_pocket : forall d K WK F j gw given shadow, kernel_moves K d -> wire_kernel_moves WK (j_top j) gw d -> face_kernel_moves F (j_top j) given shadow d ->
  forall E, engine_moves E d -> forall fuel eng areas avoids a,
  pocket K WK F E fuel eng j (map given areas) (option_map (map given) avoids) a = rmap (map (move_motion d)) (pocket K WK F E fuel eng j areas avoids a).
Proof. exact pocket_op_shift. Qed.
Print Assumptions C127_face_pocket.
Example C127_face_pocket_example : (forall top d, face_kernel_moves plain_fk top (move_plain d) (move_plain d) d) /\ (forall top d, wire_kernel_moves shrink_wk top (map (move_edge d)) d) /\
  (forall d, engine_moves copy_engine d) /\ length (motions (moved_pocket EngClipper)) = 23%nat /\ length (motions (moved_pocket EngCq)) = 23%nat.
Proof. exact ex_moved_pocket. Qed.

(** * C122: what a profile cuts besides its tool paths *)
From Verif Require Import Base.Str Base.Py Spec.Gcode Spec.Blocks Spec.Machine Spec.Program Spec.Jobs Spec.Axes Spec.Wires Spec.Curves Spec.Profiles Spec.OnMachine Spec.Arcs Spec.Traced Spec.Strays
  Model.Groups Model.Geometry Model.Edges Model.Plane Model.Job Model.Routers Model.Tabs Model.Profile
  Proofs.RouteEx Proofs.ProfileEx Proofs.OnMachineEx Proofs.StraysP Proofs.StraysEx.
Local Open Scope Qc_scope.
Local Open Scope list_scope.

(** Whatever the kernel answers, paths that start with a straight edge are traced in full, and at
    most one straight cut follows each: to the parameter answered, on the first edge.
    Full statement: nothing is cut off the paths.  Missing (false in the code, C122_refuted): that
    parameter may belong to another edge.  Also missing (C122_circle_refuted): paths that start with
    an arc. *)
Theorem C122_profile_partial : forall K TK WK h r shapes oo io sd t tl h' r' j' st radius inners outers, user_heap h ->
  job_profile K TK WK h r shapes oo io sd t tl = (h', Ok r') -> hget h' r' = Some j' -> job_printable h' j' -> ms_ended st = false ->
  tool_radius j' = Some radius ->
  toolpaths_of K TK WK j' radius (flat_map inners_of shapes) io sd t inners -> toolpaths_of K TK WK j' radius (flat_map outer_of shapes) oo sd t outers ->
  (forall p, In p (inners ++ outers) -> entered_straight K (j_op_safe_height j') p) ->
  exists p bs before groups, to_gcode h' r' = Ok p /\ parse_program p = Some bs /\ snd (run st bs) = before ++ concat groups /\ continues h r st before /\
    Forall2 (traced_and K (j_op_safe_height j') (j_plunge_feed j') (j_feed j')) (inners ++ outers) groups.
Proof. exact profile_strays. Qed.
Print Assumptions C122_profile_partial.
Theorem C122_wire_profile_partial : forall K TK WK h r ws o sd t tl h' r' j' st radius paths, user_heap h ->
  job_wire_profile K TK WK h r ws o sd t tl = (h', Ok r') -> hget h' r' = Some j' -> job_printable h' j' -> ms_ended st = false ->
  tool_radius j' = Some radius -> toolpaths_of K TK WK j' radius ws (Some o) sd t paths -> (forall p, In p paths -> entered_straight K (j_op_safe_height j') p) ->
  exists p bs before groups, to_gcode h' r' = Ok p /\ parse_program p = Some bs /\ snd (run st bs) = before ++ concat groups /\ continues h r st before /\
    Forall2 (traced_and K (j_op_safe_height j') (j_plunge_feed j') (j_feed j')) paths groups.
Proof. exact wire_profile_strays. Qed.
Print Assumptions C122_wire_profile_partial.

(** Polygons of which the kernel only ever answers places on the first edge: every cut ends on the
    path. *)
Theorem C122_kept_partial : forall K TK WK h r ws o sd t tl h' r' j' st radius paths, user_heap h ->
  job_wire_profile K TK WK h r ws o sd t tl = (h', Ok r') -> hget h' r' = Some j' -> job_printable h' j' -> ms_ended st = false ->
  tool_radius j' = Some radius -> toolpaths_of K TK WK j' radius ws (Some o) sd t paths ->
  (forall p, In p paths -> entered_straight K (j_op_safe_height j') p /\ (forall e, In e p -> e_geom e = GLINE) /\ inside_first K p) ->
  exists p bs before groups, to_gcode h' r' = Ok p /\ parse_program p = Some bs /\ snd (run st bs) = before ++ concat groups /\ continues h r st before /\
    Forall2 (kept_to (j_op_safe_height j') (j_plunge_feed j') (j_feed j')) paths groups.
Proof. exact wire_profile_kept. Qed.
Print Assumptions C122_kept_partial.

(** Two boxes are left of an offset; the kernel answers rightly with the point of the second box
    nearest to the end of the first.  The last cut ends 10 or more away from both boxes. *)
Theorem C122_refuted : exists K TK WK h r ws o h' r' j' st radius paths p bs ev x y z, user_heap h /\
  job_wire_profile K TK WK h r ws o None None None = (h', Ok r') /\ hget h' r' = Some j' /\ job_printable h' j' /\ ms_ended st = false /\
  tool_radius j' = Some radius /\ toolpaths_of K TK WK j' radius ws (Some o) None None paths /\
  (forall w, In w paths -> entered_straight K (j_op_safe_height j') w /\ loop w /\ forall e, In e w -> e_geom e = GLINE) /\
  (forall w u d id q, In w paths -> k_nearest K u (WWire w) = Some (d, TEdge id q) -> nearest_inside w u d id q) /\
  to_gcode h' r' = Ok p /\ parse_program p = Some bs /\ In ev (snd (run st bs)) /\ is_feed_move (ev_kind ev) = true /\
  ms_x (ev_to ev) = Some x /\ ms_y (ev_to ev) = Some y /\ ms_z (ev_to ev) = Some z /\ z < 0 /\
  forall w v, In w paths -> on_path w v -> qz 100 <= sq2 (x - vx v) (y - vy v).
Proof. exact strays_refuted. Qed.
Print Assumptions C122_refuted.
(** A box and a circle are left; the answer is right.  The first arc of the circle is not one: the
    machine does not stand where the words for its centre are counted from. *)
Theorem C122_circle_refuted : exists K TK WK h r ws o h' r' j' st radius paths p bs ev, user_heap h /\
  job_wire_profile K TK WK h r ws o None None None = (h', Ok r') /\ hget h' r' = Some j' /\ job_printable h' j' /\ ms_ended st = false /\
  tool_radius j' = Some radius /\ toolpaths_of K TK WK j' radius ws (Some o) None None paths /\
  (forall w, In w paths -> loop w /\ forall e, In e w -> edge_sound e /\ (e_geom e = GLINE \/ level_circle e)) /\
  (forall w u d id q, In w paths -> k_nearest K u (WWire w) = Some (d, TEdge id q) -> nearest_inside w u d id q) /\
  to_gcode h' r' = Ok p /\ parse_program p = Some bs /\ In ev (snd (run st bs)) /\ (ev_kind ev = GArcCW \/ ev_kind ev = GArcCCW) /\ ~ radii_agree ev.
Proof. exact round_refuted. Qed.
Print Assumptions C122_circle_refuted.

Example C122_example : job_wire_profile stray_kernel flat_tk stray_wk [ex_job] 0%nat [small_box] 1 None None None = (stray_heap, Ok 1%nat) /\
  (exists j, hget stray_heap 1%nat = Some j /\ job_printable stray_heap j /\ tool_radius j = Some (qq 3 2) /\
    toolpaths_of stray_kernel flat_tk stray_wk j (qq 3 2) [small_box] (Some 1) None None [small_box; tall_box] /\
    (forall w, In w [small_box; tall_box] -> entered_straight stray_kernel (j_op_safe_height j) w)) /\
  cut_ends stray_heap 1%nat = [(Some 10, Some 15, Some (-5)); (Some 12, Some 15, Some (-5)); (Some 12, Some 17, Some (-5)); (Some 10, Some 17, Some (-5)); (Some 10, Some 15, Some (-5));
    (Some 0, Some 0, Some (-5)); (Some 2, Some 0, Some (-5)); (Some 2, Some 20, Some (-5)); (Some 0, Some 20, Some (-5)); (Some 0, Some 0, Some (-5)); (Some 15, Some 0, Some (-5))]%Z.
Proof. exact ex_strays. Qed.
(** The same boxes, the answer on the first edge of the second: hypotheses of C122_kept_partial. *)
Example C122_kept_example : job_wire_profile first_kernel flat_tk first_wk [ex_job] 0%nat [high_box] 1 None None None = (first_heap, Ok 1%nat) /\
  (exists j, hget first_heap 1%nat = Some j /\ job_printable first_heap j /\ tool_radius j = Some (qq 3 2) /\
    toolpaths_of first_kernel flat_tk first_wk j (qq 3 2) [high_box] (Some 1) None None [high_box; low_box] /\
    (forall w, In w [high_box; low_box] -> entered_straight first_kernel (j_op_safe_height j) w /\ (forall e, In e w -> e_geom e = GLINE) /\ inside_first first_kernel w) /\
    (exists u d id q, k_nearest first_kernel u (WWire low_box) = Some (d, TEdge id q) /\ nearest_inside low_box u d id q)) /\
  skipn 5 (cut_ends first_heap 1%nat) = [(Some 0, Some 20, Some (-5)); (Some 20, Some 20, Some (-5)); (Some 20, Some 30, Some (-5)); (Some 0, Some 30, Some (-5)); (Some 0, Some 20, Some (-5)); (Some 10, Some 20, Some (-5))]%Z.
Proof. exact ex_kept. Qed.

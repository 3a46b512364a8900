(** * Property C116: the machine follows the wires of a profile *)
From Verif Require Import Base.Str Base.Py Spec.Gcode Spec.Blocks Spec.Machine Spec.Program Spec.Jobs Spec.Axes Spec.Wires Spec.Profiles Spec.OnMachine Spec.Traced Spec.Strays
  Model.Groups Model.Geometry Model.Plane Model.Edges Model.Job Model.Routers Model.Tabs Model.Profile
  Proofs.RouteEx Proofs.ProfileEx Proofs.OnMachineEx Proofs.TracedP Proofs.TracedEx Proofs.UntracedEx.
Local Open Scope Qc_scope.
Local Open Scope list_scope.

(** ** C116 *)
(** The program of a profile, with or without stepdown and tabs, ends with one group of moves for each
    tool path, holes first: the tool is lowered once and then follows the edges in order.
    Full statement: for all tool paths.  Missing (false in the code, C30_parameter_refuted): answers of
    the kernel inside an edge; paths that start at or above the safe height. *)
Theorem C116_profile_partial : forall K TK WK h r shapes oo io sd t tl h' r' j' st radius inners outers, user_heap h ->
  job_profile K TK WK h r shapes oo io sd t tl = (h', Ok r') -> hget h' r' = Some j' -> job_printable h' j' -> ms_ended st = false ->
  tool_radius j' = Some radius ->
  toolpaths_of K TK WK j' radius (flat_map inners_of shapes) io sd t inners -> toolpaths_of K TK WK j' radius (flat_map outer_of shapes) oo sd t outers ->
  (forall p, In p (inners ++ outers) -> traceable K (j_op_safe_height j') p) ->
  exists p bs before groups, to_gcode h' r' = Ok p /\ parse_program p = Some bs /\ snd (run st bs) = before ++ concat groups /\ continues h r st before /\
    Forall2 (wire_traced K (j_op_safe_height j') (j_plunge_feed j') (j_feed j')) (inners ++ outers) groups.
Proof. exact profile_traced. Qed.
Print Assumptions C116_profile_partial.
Theorem C116_wire_profile_partial : forall K TK WK h r ws o sd t tl h' r' j' st radius paths, user_heap h ->
  job_wire_profile K TK WK h r ws o sd t tl = (h', Ok r') -> hget h' r' = Some j' -> job_printable h' j' -> ms_ended st = false ->
  tool_radius j' = Some radius -> toolpaths_of K TK WK j' radius ws (Some o) sd t paths -> (forall p, In p paths -> traceable K (j_op_safe_height j') p) ->
  exists p bs before groups, to_gcode h' r' = Ok p /\ parse_program p = Some bs /\ snd (run st bs) = before ++ concat groups /\ continues h r st before /\
    Forall2 (wire_traced K (j_op_safe_height j') (j_plunge_feed j') (j_feed j')) paths groups.
Proof. exact wire_profile_traced. Qed.
Print Assumptions C116_wire_profile_partial.
Example C116_example : user_heap [ex_job] /\ job_profile K0 flat_tk flat_wk [ex_job] 0%nat [frame] (Some 1) (Some (- (1))) (Some (qz 2)) None None = (frame_heap, Ok 1%nat) /\
  (exists j inners outers, hget frame_heap 1%nat = Some j /\ job_printable frame_heap j /\ tool_radius j = Some (qq 3 2) /\
    toolpaths_of K0 flat_tk flat_wk j (qq 3 2) (flat_map inners_of [frame]) (Some (- (1))) (Some (qz 2)) None inners /\
    toolpaths_of K0 flat_tk flat_wk j (qq 3 2) (flat_map outer_of [frame]) (Some 1) (Some (qz 2)) None outers /\
    (forall p, In p (inners ++ outers) -> traceable K0 (j_op_safe_height j) p)) /\
  firstn 6 (cut_ends frame_heap 1%nat) = [(Some 6, Some 6, Some (-1)); (Some 13, Some 6, Some (-1)); (Some 13, Some 13, Some (-1)); (Some 6, Some 13, Some (-1)); (Some 6, Some 6, Some (-1)); (Some 6, Some 6, Some (-3))]%Z.
Proof. exact (conj start_user ex_traced). Qed.
(** A whole circle and a half disc: arcs about their centres. *)
Example C116_example_arcs : user_heap [ex_job] /\ job_wire_profile K0 flat_tk engrave_wk [ex_job] 0%nat curved 0 None None None = (engraved_heap, Ok 1%nat) /\
  (exists j paths, hget engraved_heap 1%nat = Some j /\ job_printable engraved_heap j /\ tool_radius j = Some (qq 3 2) /\
    toolpaths_of K0 flat_tk engrave_wk j (qq 3 2) curved (Some 0) None None paths /\ paths = curved /\
    (forall p, In p paths -> traceable K0 (j_op_safe_height j) p)) /\
  firstn 6 (cut_kinds engraved_heap 1%nat) = [(GLinear, None, None); (GArcCW, Some 0, Some 1); (GArcCW, Some 0, Some (-1)); (GLinear, None, None); (GArcCW, Some 0, Some (-1)); (GLinear, None, None)]%Z /\
  firstn 6 (cut_ends engraved_heap 1%nat) = [(Some 3, Some 3, Some (-1)); (Some 3, Some 5, Some (-1)); (Some 3, Some 3, Some (-1)); (Some 0, Some 1, Some (-1)); (Some 0, Some (-1), Some (-1)); (Some 0, Some 1, Some (-1))]%Z.
Proof. exact (conj start_user ex_curved). Qed.
(** Two boxes are left of an offset, and the kernel answers rightly with a place inside an edge of the
    second (C122_refuted): however the moves of the program are divided, they do not end with groups
    that trace the boxes. *)
Theorem C116_refuted : exists K TK WK h r ws o h' r' j' st radius paths p bs, user_heap h /\
  job_wire_profile K TK WK h r ws o None None None = (h', Ok r') /\ hget h' r' = Some j' /\ job_printable h' j' /\ ms_ended st = false /\
  tool_radius j' = Some radius /\ toolpaths_of K TK WK j' radius ws (Some o) None None paths /\
  (forall w, In w paths -> loop w /\ forall e, In e w -> edge_sound e /\ e_geom e = GLINE /\ vz (travel_start e) < j_op_safe_height j') /\
  (forall w u d id q, In w paths -> k_nearest K u (WWire w) = Some (d, TEdge id q) -> nearest_inside w u d id q) /\
  to_gcode h' r' = Ok p /\ parse_program p = Some bs /\
  forall before groups, snd (run st bs) = before ++ concat groups -> ~ Forall2 (wire_traced K (j_op_safe_height j') (j_plunge_feed j') (j_feed j')) paths groups.
Proof. exact untraced_refuted. Qed.
Print Assumptions C116_refuted.

(** * C123: wires linked by short cuts, on the machine; C124: pockets of faces on the machine *)
From Verif Require Import Base.Str Base.Py Spec.Gcode Spec.Blocks Spec.Machine Spec.Program Spec.Jobs Spec.Wires Spec.Curves Spec.OnMachine Spec.Arcs Spec.Traced Spec.Strays Spec.LinksMade Spec.PocketCq
  Model.Groups Model.Geometry Model.Edges Model.Job Model.Routers Model.PocketOp
  Proofs.RouteEx Proofs.StraysEx Proofs.ProfileEx Proofs.PocketOpEx Proofs.LinksMadeP Proofs.LinksMadeEx Proofs.CqMadeP Proofs.CqMadeEx Proofs.CqStraysEx.
Local Open Scope Qc_scope.
Local Open Scope list_scope.

(** Full statement: for closed wires and right answers of the kernel, the tool goes along every wire
    once, coming down from the safe height or fed straight over from the wire before.
    Missing (false in the code, C123_zero_refuted): answers with parameter 0.  Also missing: answers
    not linked to (C122_refuted) and answers on splines (C28_subrange_refuted). *)
Theorem C123_linked_partial : forall K j ws so cmds st, route_wires K j ws so None = Ok cmds -> ready st ->
  (forall w, In w ws -> wire_edges w <> []) -> (forall w e, In w ws -> In e (wire_edges w) -> edge_sound e) ->
  (forall w, In w ws -> connected (wire_edges w)) -> (so <> None -> forall w, In w ws -> loop (wire_edges w)) ->
  (forall w e rest, In w ws -> wire_edges w = e :: rest -> vz (travel_start e) < j_op_safe_height j) ->
  (forall w u, In w ws -> good_answer so w (k_nearest K u w)) -> (forall w, In w ws -> answers_in_range K w) ->
  exists groups, snd (run st (flat_map command_blocks (map Motion cmds))) = concat groups /\
    Forall2 (wire_visited K so (j_op_safe_height j) (j_plunge_feed j) (j_feed j)) ws groups.
Proof. exact wires_visited. Qed.
Print Assumptions C123_linked_partial.

(** A box and a circle within the stepover; the answer is right, with parameter 0 in the middle of the
    circle.  The link goes to the start of the circle, the first arc is counted from parameter 0: it
    is no arc. *)
Theorem C123_zero_refuted : exists K j ws s cmds st ev, ready st /\ route_wires K j (map WWire ws) (Some s) None = Ok cmds /\
  (forall w, In w ws -> w <> [] /\ loop w /\ forall e, In e w -> edge_sound e /\ vz (travel_start e) < j_op_safe_height j /\ (e_geom e = GLINE \/ level_circle e)) /\
  (forall w u d id q, In w ws -> k_nearest K u (WWire w) = Some (d, TEdge id q) -> nearest_inside w u d id q /\ d <> 0 /\ d <= s) /\
  In ev (snd (run st (flat_map command_blocks (map Motion cmds)))) /\ (ev_kind ev = GArcCW \/ ev_kind ev = GArcCCW) /\ ~ radii_agree ev.
Proof. exact zero_refuted. Qed.
Print Assumptions C123_zero_refuted.

(** A box, then a circle linked to in its middle. *)
Example C123_example : exists cmds, route_wires round_kernel ex_job [WWire small_box; WWire round_hole] (Some (qz 10)) None = Ok cmds /\ ready st_on /\
  (forall w, In w [WWire small_box; WWire round_hole] -> linkable round_kernel (Some (qz 10)) (j_op_safe_height ex_job) w) /\
  move_ends (wire_moves round_kernel [WWire small_box; WWire round_hole] (Some (qz 10))) =
    [(GLinear, Some 1000, Some 1500); (GLinear, Some 1200, Some 1500); (GLinear, Some 1200, Some 1700); (GLinear, Some 1000, Some 1700); (GLinear, Some 1000, Some 1500);
     (GLinear, Some 100, Some 1500); (GArcCCW, Some (-60), Some 1580); (GArcCCW, Some 0, Some 1400); (GArcCCW, Some 60, Some 1420); (GArcCCW, Some 100, Some 1500)]%Z.
Proof. exact ex_links. Qed.
(** Two boxes, the second linked to at a corner. *)
Example C123_corner_example : exists cmds, route_wires corner_kernel ex_job [WWire small_box; WWire tall_box] (Some (qz 10)) None = Ok cmds /\
  (forall w, In w [WWire small_box; WWire tall_box] -> linkable corner_kernel (Some (qz 10)) (j_op_safe_height ex_job) w) /\
  skipn 5 (move_ends (wire_moves corner_kernel [WWire small_box; WWire tall_box] (Some (qz 10)))) =
    [(GLinear, Some 200, Some 2000); (GLinear, Some 0, Some 2000); (GLinear, Some 0, Some 0); (GLinear, Some 200, Some 0); (GLinear, Some 200, Some 2000)]%Z.
Proof. exact ex_corner. Qed.

(** ** C124 *)
(** Full statement: for all wires filling the pockets.  Missing (false in the code, C123_zero_refuted
    and others): wires for which the kernel answers otherwise than [linkable] says. *)
Theorem C124_cq_pocket_partial : forall K WK F fuel j areas avoids oo io ao ai so cmds st,
  pocket_cq K WK F fuel j areas avoids oo io ao ai so = Ok cmds -> ready st ->
  exists offs avs pockets fills,
    Forall2 (cq_offset K WK F oo io) areas offs /\ Forall2 (cq_offset K WK F ao ai) avoids avs /\
    cq_levels F (j_top j) (concat offs) (concat avs) pockets /\
    Forall2 (fun p ss => exists islands, Forall2 (fun w f => fk_make F w [] = Ok f) (fk_inners F p) islands /\
               wire_filling (cq_inward K WK F so islands) (fk_outer F p) ss) pockets fills /\
    ((forall w, In w (concat (concat fills)) -> linkable K (Some so) (j_op_safe_height j) (WWire w)) ->
     exists groups, snd (run st (flat_map command_blocks (map Motion cmds))) = concat groups /\
       Forall2 (wire_visited K (Some so) (j_op_safe_height j) (j_plunge_feed j) (j_feed j)) (map WWire (concat (concat fills))) groups).
Proof. exact pocket_cq_made. Qed.
Print Assumptions C124_cq_pocket_partial.

(** A pocket of 10 by 8, from the inside out, linked at the corners. *)
Example C124_example : exists cmds fills, cq_result 1 = Ok cmds /\ ready st_on /\
  fill_face first_corner flat_wk rect_fk 20 (rface 1 1 9 7 (-5)) 1 = Ok fills /\ List.length (concat fills) = 3%nat /\
  (forall w, In w (concat fills) -> linkable first_corner (Some 1) (j_op_safe_height ex_job) (WWire w)) /\
  move_ends (cq_moves 1) =
    [(GLinear, Some 300, Some 300); (GLinear, Some 700, Some 300); (GLinear, Some 700, Some 500); (GLinear, Some 300, Some 500); (GLinear, Some 300, Some 300);
     (GLinear, Some 200, Some 200); (GLinear, Some 800, Some 200); (GLinear, Some 800, Some 600); (GLinear, Some 200, Some 600); (GLinear, Some 200, Some 200);
     (GLinear, Some 100, Some 100); (GLinear, Some 900, Some 100); (GLinear, Some 900, Some 700); (GLinear, Some 100, Some 700); (GLinear, Some 100, Some 100)]%Z.
Proof. exact ex_cq_made. Qed.

(** A pocket with an island less than a stepover away from its wall: what is left of the inner contour
    goes round the island, and ends there, more than a stepover away from the outline.  The kernel
    answers rightly with the place of the outline nearest to that end.  The last cut leaves the pocket
    through its wall and ends 28 away from it. *)
Theorem C124_refuted : exists K WK F fuel j area oo io so cmds st f fills ev y z,
  pocket_cq K WK F fuel j [area] [] oo io 1 (- (1)) so = Ok cmds /\ ready st /\ cq_offset K WK F oo io area [f] /\ fill_face K WK F fuel f so = Ok fills /\
  (forall w, In w (concat fills) -> loop w /\ forall e, In e w -> edge_sound e /\ e_geom e = GLINE /\ vz (travel_start e) < j_op_safe_height j) /\
  (forall w u d id q, In w (concat fills) -> k_nearest K u (WWire w) = Some (d, TEdge id q) -> nearest_inside w u d id q) /\
  In ev (snd (run st (flat_map command_blocks (map Motion cmds)))) /\ is_feed_move (ev_kind ev) = true /\
  ms_y (ev_to ev) = Some y /\ ms_z (ev_to ev) = Some z /\ z < 0 /\ forall v, on_path (fk_outer F area) v -> qz 28 <= vy v - y.
Proof. exact isle_refuted. Qed.
Print Assumptions C124_refuted.

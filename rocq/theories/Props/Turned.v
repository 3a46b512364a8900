(** * Turned and mirrored work (C130), orders of holes (C131, C132) *)
From Verif Require Import Base.Str Base.Py Model.Groups Model.Geometry Model.Plane Model.Command Model.Job Model.Routers Model.Drill Model.Pocket
  Spec.Paths Spec.Drills Spec.Turn Spec.Order Proofs.TurnP Proofs.OrderP Proofs.RouteEx Proofs.DrillEx Proofs.RelationalEx Proofs.PartsEx Proofs.TurnEx.
Local Open Scope Qc_scope.
Local Open Scope list_scope.

(** ** C130 *)
(** The holes turned about, mirrored and moved: the same moves turned about, mirrored and moved. *)
Theorem C130_drill : forall T os os' z j ps, rigid T -> wanted_holes (to_world (j_top j)) os ps -> wanted_holes (to_world (j_top j)) os' (map T ps) ->
  drill_gen (Some os') z j = rmap (map (turn_command T)) (drill_gen (Some os) z j).
Proof. exact drill_turn. Qed.
Print Assumptions C130_drill.
Example C130_drill_example : rigid flipped /\ wanted_holes (to_world (j_top ex_job)) spots [zp 0 0; zp 10 0; zp 4 3; zp 12 1] /\
  wanted_holes (to_world (j_top ex_job)) spots_flipped (map flipped [zp 0 0; zp 10 0; zp 4 3; zp 12 1]) /\
  List.length (drill_texts (drill_gen (Some spots) (Some (qz 2)) ex_job)) = 16%nat.
Proof. exact ex_flipped. Qed.
Theorem C130_contours : forall T, rigid T -> forall j fs so pp,
  route_polyface_outers j (map (turn_face T) fs) so (option_map (turn_avec T) pp) = rmap (map (turn_motion T)) (route_polyface_outers j fs so pp).
Proof. exact contours_turn. Qed.
Print Assumptions C130_contours.
(** Pockets of polygons, if the answers of the engine are turned with the polygons. *)
Theorem C130_pocket : forall T, rigid T -> forall E, engine_turns T E -> forall fuel j areas avoids oo io ao ai so sd,
  pocket_clipper E fuel j (map (turn_face T) areas) (map (turn_face T) avoids) oo io ao ai so sd =
  rmap (map (turn_motion T)) (pocket_clipper E fuel j areas avoids oo io ao ai so sd).
Proof. exact pocket_turn. Qed.
Print Assumptions C130_pocket.
Example C130_example : rigid turn345 /\ (forall T, engine_turns T copy_engine) /\
  ends_of (rmap (map (turn_motion turn345)) shifted_pocket) <> ends_of shifted_pocket /\ List.length (motions shifted_pocket) = 15%nat.
Proof. exact ex_turned. Qed.

(** ** C131 *)
(** Holes selected in the order they are drilled in are drilled in that order. *)
Theorem C131_again : forall os os' z j cs, drill_gen (Some os) (Some z) j = Ok cs -> wanted_holes (to_world (j_top j)) os' (cut_places cs) ->
  drill_gen (Some os') (Some z) j = Ok cs.
Proof. exact drill_again. Qed.
Print Assumptions C131_again.
Example C131_example : exists cs, drill_gen (Some spots) (Some (qz 2)) ex_job = Ok cs /\ wanted_holes (to_world (j_top ex_job)) spots_in_order (cut_places cs) /\
  spots <> spots_in_order /\ as_z (cut_places cs) = [(0, 0); (4, 3); (10, 0); (12, 1)]%Z.
Proof. exact ex_again. Qed.

(** ** C132 *)
(** The full property, that the way between the holes is never longer than in the order of the
    selection, is false. *)
Theorem C132_way_refuted : exists j os z cs ps, drill_gen (Some os) (Some z) j = Ok cs /\ wanted_holes (to_world (j_top j)) os ps /\ on_x_axis ps /\
  way ps < way (cut_places cs).
Proof. exact longer_way. Qed.
Print Assumptions C132_way_refuted.
(** What holds: from every hole the way to the next is no longer than to any hole drilled later. *)
Theorem C132_legs_partial : forall os z j cs l1 a b l2 c, drill_gen (Some os) (Some z) j = Ok cs -> cut_places cs = l1 ++ a :: b :: l2 -> In c (b :: l2) ->
  sqd a b <= sqd a c.
Proof. exact drill_legs. Qed.
Print Assumptions C132_legs_partial.
Example C132_example : exists cs, drill_gen (Some spots) (Some (qz 2)) ex_job = Ok cs /\ cut_places cs = [zp 0 0] ++ zp 4 3 :: zp 10 0 :: [zp 12 1].
Proof. exact ex_legs. Qed.

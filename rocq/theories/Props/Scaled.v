(** * Work measured in another unit (C135) *)
From Verif Require Import Base.Str Base.Py Model.Groups Model.Geometry Model.Plane Model.Command Model.Job Model.Routers Model.Drill Model.Pocket
  Spec.Paths Spec.Moves Spec.Contours Spec.Drills Spec.Alike Spec.Scale Proofs.ScaleP Proofs.RouteEx Proofs.DrillEx Proofs.PartsEx Proofs.ScaleEx.
Local Open Scope Qc_scope.
Local Open Scope list_scope.

(** ** C135 *)
(** Full statement: if all lengths (places, depths, heights, stepovers) are multiplied by a positive
    number, so are the tool paths.  It is false of the contours of pockets: whether they are linked
    depends on the unit, as the square of a distance is compared with the stepover.  The same work
    in millimetres is retracted from between contours, and in inches it is not. *)
Theorem C135_units_refuted : exists k j j' fs s r r', 0 < k /\ scaled_job k j j' /\
  (forall f, In f fs -> closed_path (pf_outer f) /\ proper (pf_outer f)) /\ 0 < s /\
  route_polyface_outers j fs (Some s) None = Ok r /\ route_polyface_outers j' (map (scale_face k) fs) (Some (k * s)) None = Ok r' /\
  retracts r = 2%nat /\ retracts r' = 1%nat.
Proof. exact units_refuted. Qed.
Print Assumptions C135_units_refuted.
(** It holds if the stepover is taken for an area, and thus without a stepover. *)
Theorem C135_contours_partial : forall k, 0 < k -> forall j j', scaled_job k j j' -> forall fs so pp,
  route_polyface_outers j' (map (scale_face k) fs) (option_map (Qcmult (k * k)) so) (option_map (scale_avec k) pp) =
  rmap (map (scale_motion k)) (route_polyface_outers j fs so pp).
Proof. exact contours_scale. Qed.
Print Assumptions C135_contours_partial.
Example C135_contours_example : 0 < inch /\ scaled_job inch ex_job inch_job /\
  List.length (motions (route_polyface_outers ex_job apart3 (Some (qz 9)) None)) = 14%nat /\
  retracts (motions (route_polyface_outers ex_job apart3 (Some (qz 9)) None)) = 1%nat.
Proof. exact ex_contours. Qed.
(** Drilling: the order of holes does not depend on the unit. *)
Theorem C135_drill_partial : forall k, 0 < k -> forall j j', scaled_job k j j' -> forall os os' z ps,
  wanted_holes (to_world (j_top j)) os ps -> wanted_holes (to_world (j_top j)) os' (map (scale_pt k) ps) ->
  drill_gen (Some os') (option_map (Qcmult k) z) j' = rmap (map (scale_command k)) (drill_gen (Some os) z j).
Proof. exact drill_scale. Qed.
Print Assumptions C135_drill_partial.
Example C135_drill_example : 0 < qz 3 /\ scaled_job (qz 3) ex_job tripled_job /\
  wanted_holes (to_world (j_top ex_job)) spots [zp 0 0; zp 10 0; zp 4 3; zp 12 1] /\
  wanted_holes (to_world (j_top ex_job)) spots_tripled (map (scale_pt (qz 3)) [zp 0 0; zp 10 0; zp 4 3; zp 12 1]) /\
  List.length (drill_texts (drill_gen (Some spots) (Some (qz 2)) ex_job)) = 16%nat.
Proof. exact ex_tripled. Qed.

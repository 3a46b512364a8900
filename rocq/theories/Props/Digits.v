(** * Property C148: the precision of a job *)
From Verif Require Import Base.Str Base.Py Model.Groups Model.Geometry Model.Plane Model.Edges Model.Job Model.Routers Model.Tabs Model.Profile Model.Drill Model.Strategy Model.Surface
  Spec.Paths Spec.Moves Spec.Digits Proofs.RouteEx Proofs.ProfileEx Proofs.DigitsP Proofs.DigitsEx.
Local Open Scope Qc_scope.
Local Open Scope list_scope.

(** ** C148 *)
(** The precision of a job is to be the precision of its program.  It is not: for every precision of four
    digits and more there are two holes further apart than the precision that are drilled by the same program. *)
Theorem C148_lost_digits : forall p, (4 <= p)%nat -> exists j x y s, j_precision j = p /\ 1 / qz (10 ^ Z.of_nat p) < qabs (x - y) /\
  (forall h r, job_drill [j] 0%nat (Some [DVector (V3 x 0 0)]) (Some (qz 2)) None = (h, r) -> r = Ok 1%nat /\ to_gcode h 1%nat = Ok s) /\
  (forall h r, job_drill [j] 0%nat (Some [DVector (V3 y 0 0)]) (Some (qz 2)) None = (h, r) -> r = Ok 1%nat /\ to_gcode h 1%nat = Ok s).
Proof. exact digits_lost. Qed.
Print Assumptions C148_lost_digits.
Theorem C148_refuted : exists j x y s, 1 / qz (10 ^ Z.of_nat (j_precision j)) < qabs (x - y) /\
  (forall h r, job_drill [j] 0%nat (Some [DVector (V3 x 0 0)]) (Some (qz 2)) None = (h, r) -> r = Ok 1%nat /\ to_gcode h 1%nat = Ok s) /\
  (forall h r, job_drill [j] 0%nat (Some [DVector (V3 y 0 0)]) (Some (qz 2)) None = (h, r) -> r = Ok 1%nat /\ to_gcode h 1%nat = Ok s).
Proof. exact four_lost. Qed.
Print Assumptions C148_refuted.

(** What the code does instead: programs do not depend on the precision of the jobs, *)
Theorem C148_text_partial : forall h h' r, Forall2 but_precision h h' -> to_gcode h r = to_gcode h' r.
Proof. exact text_any_precision. Qed.
Print Assumptions C148_text_partial.
(** nor do holes and surfaces, *)
Theorem C148_drill_partial : forall o d j p, drill_gen o d (at_precision p j) = drill_gen o d j.
Proof. exact drill_any_precision. Qed.
Print Assumptions C148_drill_partial.
Theorem C148_surface_partial : forall K C a os j p, surface_gen K C a os (at_precision p j) = surface_gen K C a os j.
Proof. exact surface_any_precision. Qed.
Print Assumptions C148_surface_partial.
(** nor profiles of lines, arcs and circles. *)
Theorem C148_profile_partial : forall K TK WK j p w o sd t,
  (forall r bases paths, tool_radius j = Some r -> offset_wire K WK (wk_transform WK (j_top j) w) (o * r) = Ok bases ->
     mapM (profile_toolpaths TK WK j sd t) bases = Ok paths -> Forall (Forall no_curve) (concat paths)) ->
  profile K TK WK (at_precision p j) w o sd t = profile K TK WK j w o sd t.
Proof. exact profile_any_precision. Qed.
Print Assumptions C148_profile_partial.

Example C148_example_text : Forall2 but_precision (fine_heap 3 (qq 1 3)) (fine_heap 6 (qq 1 3)) /\
  exists s, to_gcode (fine_heap 3 (qq 1 3)) 1%nat = Ok s.
Proof. split; [repeat constructor|]. eexists. vm_compute. reflexivity. Qed.
(** Three passes around a rectangle. *)
Example C148_example : forall r bases paths, tool_radius ex_job = Some r ->
  offset_wire K0 flat_wk (wk_transform flat_wk (j_top ex_job) (zrect 0 0 20 10 (-6))) (- (1) * r) = Ok bases ->
  mapM (profile_toolpaths flat_tk flat_wk ex_job (Some (qz 2)) None) bases = Ok paths ->
  Forall (Forall no_curve) (concat paths) /\ length (concat paths) = 3%nat.
Proof. exact rect_lines. Qed.
(** Curves are followed as closely as the precision asks. *)
Example C148_example_curve : map (fun p => match route_edge K0 (parabola 0 false) p None None false None with Ok (c, _) => length c | Err _ => 0%nat end) [1; 3]%nat
  = [edge_interpolation_count (parabola 0 false) 1; edge_interpolation_count (parabola 0 false) 3] /\
  Nat.ltb (edge_interpolation_count (parabola 0 false) 1) (edge_interpolation_count (parabola 0 false) 3) = true.
Proof. split; vm_compute; reflexivity. Qed.

(** * Property C119: the arcs of a profile *)
From Verif Require Import Base.Str Base.Py Spec.Gcode Spec.Blocks Spec.Machine Spec.Program Spec.Jobs Spec.Axes Spec.Wires Spec.Profiles Spec.OnMachine Spec.Traced Spec.TracedArcs
  Model.Groups Model.Geometry Model.Plane Model.Edges Model.Job Model.Routers Model.Tabs Model.Profile
  Proofs.RouteEx Proofs.ProfileEx Proofs.OnMachineEx Proofs.TracedEx Proofs.TracedArcsP Proofs.TracedArcsEx.
Local Open Scope Qc_scope.
Local Open Scope list_scope.

(** ** C119 *)
(** Every arc of the moves made for the tool paths is one a machine can make.
    Full statement: for all tool paths whose circular edges are round, with centre words of the plane
    only.  Missing (false in the code): circles that are not level, C119_tilted_refuted; every arc has
    a K word, C119_words_refuted.  And what C116 misses. *)
Theorem C119_profile_partial : forall K TK WK h r shapes oo io sd t tl h' r' j' st radius inners outers, user_heap h ->
  job_profile K TK WK h r shapes oo io sd t tl = (h', Ok r') -> hget h' r' = Some j' -> job_printable h' j' -> ms_ended st = false ->
  tool_radius j' = Some radius ->
  toolpaths_of K TK WK j' radius (flat_map inners_of shapes) io sd t inners -> toolpaths_of K TK WK j' radius (flat_map outer_of shapes) oo sd t outers ->
  (forall p, In p (inners ++ outers) -> traceable K (j_op_safe_height j') p) ->
  (forall p e, In p (inners ++ outers) -> In e p -> circular e -> level_circle e) ->
  exists p bs before groups, to_gcode h' r' = Ok p /\ parse_program p = Some bs /\ snd (run st bs) = before ++ concat groups /\ continues h r st before /\
    Forall2 (wire_traced K (j_op_safe_height j') (j_plunge_feed j') (j_feed j')) (inners ++ outers) groups /\
    forall ev, In ev (concat groups) -> is_arc ev -> proper_arc ev.
Proof. exact profile_arcs. Qed.
Print Assumptions C119_profile_partial.
Theorem C119_wire_profile_partial : forall K TK WK h r ws o sd t tl h' r' j' st radius paths, user_heap h ->
  job_wire_profile K TK WK h r ws o sd t tl = (h', Ok r') -> hget h' r' = Some j' -> job_printable h' j' -> ms_ended st = false ->
  tool_radius j' = Some radius -> toolpaths_of K TK WK j' radius ws (Some o) sd t paths -> (forall p, In p paths -> traceable K (j_op_safe_height j') p) ->
  (forall p e, In p paths -> In e p -> circular e -> level_circle e) ->
  exists p bs before groups, to_gcode h' r' = Ok p /\ parse_program p = Some bs /\ snd (run st bs) = before ++ concat groups /\ continues h r st before /\
    Forall2 (wire_traced K (j_op_safe_height j') (j_plunge_feed j') (j_feed j')) paths groups /\
    forall ev, In ev (concat groups) -> is_arc ev -> proper_arc ev.
Proof. exact wire_profile_arcs. Qed.
Print Assumptions C119_wire_profile_partial.
(** The tool paths of C116_example_arcs are level. *)
Example C119_example : (forall p e, In p curved -> In e p -> circular e -> level_circle e) /\ exists e, In [e] curved /\ circular e.
Proof. exact (conj curved_level (ex_intro _ _ (conj (or_introl eq_refl) (or_intror eq_refl)))). Qed.

(** A circle that is not level is printed as an arc in the plane XY whose ends are not equally far
    from its centre. *)
Theorem C119_tilted_refuted : exists K TK WK h r ws o h' r' j' st radius paths p bs ev, user_heap h /\
  job_wire_profile K TK WK h r ws o None None None = (h', Ok r') /\ hget h' r' = Some j' /\ job_printable h' j' /\ ms_ended st = false /\
  tool_radius j' = Some radius /\ toolpaths_of K TK WK j' radius ws (Some o) None None paths /\ (forall p, In p paths -> traceable K (j_op_safe_height j') p) /\
  (forall p e, In p paths -> In e p -> round_edge e) /\
  to_gcode h' r' = Ok p /\ parse_program p = Some bs /\ In ev (snd (run st bs)) /\ is_arc ev /\ ~ radii_agree ev.
Proof. exact tilted_refuted. Qed.
Print Assumptions C119_tilted_refuted.
(** Level arcs carry a centre word of another plane. *)
Theorem C119_words_refuted : exists K TK WK h r ws o h' r' j' st radius paths p bs ev, user_heap h /\
  job_wire_profile K TK WK h r ws o None None None = (h', Ok r') /\ hget h' r' = Some j' /\ job_printable h' j' /\ ms_ended st = false /\
  tool_radius j' = Some radius /\ toolpaths_of K TK WK j' radius ws (Some o) None None paths /\ (forall p, In p paths -> traceable K (j_op_safe_height j') p) /\
  (forall p e, In p paths -> In e p -> circular e -> level_circle e) /\
  to_gcode h' r' = Ok p /\ parse_program p = Some bs /\ In ev (snd (run st bs)) /\ is_arc ev /\ ~ words_of_plane ev.
Proof. exact words_refuted. Qed.
Print Assumptions C119_words_refuted.

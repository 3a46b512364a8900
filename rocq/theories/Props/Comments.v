(** * Properties C114 and C115: comments of programs; vertical edges *)
From Verif Require Import Base.Str Base.Py Spec.Gcode Spec.Program Spec.Axes Spec.Paths Spec.Wires Spec.Moves Spec.Comments
  Model.Groups Model.Geometry Model.Plane Model.Command Model.Edges Model.Job Model.Routers Proofs.RouteEx Proofs.AxesEx Proofs.CommentsP Proofs.CommentsEx Proofs.VerticalP.
Local Open Scope Qc_scope.
Local Open Scope list_scope.

(** ** C114 *)
(** The comments of a program: the name of the job with its feed rate and unit, and for each
    operation the name of the job and of the operation. *)
Theorem C114_comments : forall h r j, user_heap h -> hget h r = Some j -> job_printable h j ->
  exists s feed, to_gcode h r = Ok s /\ parse_number feed = Some (pyval (j_feed j)) /\
    comments s = (j_name j ++ " - Feedrate: " ++ feed ++ " - Unit: " ++ unit_name (j_unit j))%string ::
                 map (fun o => (j_name j ++ " - " ++ op_name o)%string) (j_operations j).
Proof. exact program_comments. Qed.
Print Assumptions C114_comments.
Example C114_example : user_heap two_heap /\ (exists j, hget two_heap 3%nat = Some j /\ job_printable two_heap j) /\
  (match to_gcode two_heap 3%nat with Ok s => comments s | Err _ => [] end) =
    ["part - Feedrate: 80 - Unit: Unit.METRIC"; "part - Profile"; "part - Tool Change"; "part - Drill"]%string.
Proof. exact (conj two_user two_comments). Qed.

(** ** C115 *)
(** [vertical_edge] is true of exactly the straight edges that are cut straight up or down.  Full
    statement: of all edges.  Missing (false in the code): closed edges, which end where they start. *)
Theorem C115_lines_partial : forall K e prec arrow feed ms p, e_geom e = GLINE -> route_edge K e prec None None arrow feed = Ok (ms, p) ->
  exists m, ms = [m] /\ (vertical m <-> vertical_edge e = true).
Proof. exact vertical_lines. Qed.
Print Assumptions C115_lines_partial.
(** All edges: it tells whether the moves end above or below where they start, which moves straight
    up or down always do. *)
Theorem C115_ends_partial : forall K e prec arrow feed ms p, edge_sound e -> route_edge K e prec None None arrow feed = Ok (ms, p) ->
  exists m rest, ms = m :: rest /\
    (vertical_edge e = true <-> ax (after (m_start m) ms) = ax (m_start m) /\ ay (after (m_start m) ms) = ay (m_start m)).
Proof. exact vertical_ends. Qed.
Print Assumptions C115_ends_partial.
Theorem C115_all_vertical : forall K e prec arrow feed ms p, edge_sound e -> route_edge K e prec None None arrow feed = Ok (ms, p) ->
  (forall m, In m ms -> vertical m) -> vertical_edge e = true.
Proof. exact vertical_all. Qed.
Print Assumptions C115_all_vertical.
Theorem C115_circle_refuted : exists K e ms p m, edge_sound e /\ vertical_edge e = true /\ route_edge K e 3 None None true None = Ok (ms, p) /\ In m ms /\ ~ vertical m.
Proof. exact circle_vertical. Qed.
Print Assumptions C115_circle_refuted.
Example C115_example : e_geom standing = GLINE /\ vertical_edge standing = true /\ vertical_edge (line 1 true (zv 3 4 0) (zv 3 5 0)) = false /\
  exists ms p, route_edge K0 standing 3 None None true None = Ok (ms, p).
Proof. exact standing_example. Qed.

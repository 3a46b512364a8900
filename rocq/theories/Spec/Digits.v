(** Jobs that differ in their precision (C148). *)
From Verif Require Import Base.Str Base.Py Model.Geometry Model.Edges Model.Job Model.Routers.
Local Open Scope list_scope.

(** The same job, to another precision. *)
Definition at_precision (p : nat) (j : job) : job :=
  {| j_top := j_top j; j_feed := j_feed j; j_speed := j_speed j; j_tool_diameter := j_tool_diameter j; j_tool_number := j_tool_number j; j_name := j_name j;
     j_plunge_feed := j_plunge_feed j; j_rapid_height := j_rapid_height j; j_op_safe_height := j_op_safe_height j; j_precision := p; j_unit := j_unit j;
     j_plane := j_plane j; j_coordinate := j_coordinate j; j_distance := j_distance j; j_arc_distance := j_arc_distance j;
     j_controller_motion := j_controller_motion j; j_coolant := j_coolant j; j_max_stepdown_count := j_max_stepdown_count j;
     j_operations := j_operations j |}.
(** Two jobs that differ in precision alone. *)
Definition but_precision (j j' : job) : Prop := at_precision 0 j = at_precision 0 j'.

(** Edges a machine can follow exactly: lines, arcs and circles. *)
Definition no_curve (e : edge) : Prop := e_geom e = GLINE \/ e_geom e = GARC \/ e_geom e = GCIRCLE.

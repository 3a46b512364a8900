(** * Moves of the machine apart from the feed rate *)
From Verif Require Import Base.Str Base.Py Spec.Gcode Spec.Machine Spec.Alike Model.Groups Model.Geometry Model.Plane Model.Address Model.Job.
Local Open Scope list_scope.

Definition no_feed (st : mstate) : mstate :=
  MS (ms_x st) (ms_y st) (ms_z st) (ms_spindle st) (ms_speed st) (ms_mist st) (ms_flood st)
     (ms_selected st) (ms_tool st) (ms_length st) (ms_plane st) (ms_units st) (ms_radius st)
     (ms_wcs st) (ms_path st) (ms_dist st) (ms_feedmode st) None (ms_motion st) (ms_ended st).
(** The same move of the machine in the same state, at whatever feed rates. *)
Definition no_feed_event (e : event) : event := Ev (ev_kind e) (no_feed (ev_from e)) (no_feed (ev_to e)) (ev_i e) (ev_j e) (ev_k e).
Definition same_moves (a b : mstate * list event) : Prop :=
  no_feed (fst a) = no_feed (fst b) /\ map no_feed_event (snd a) = map no_feed_event (snd b).

(** Jobs with the same commands but for feed rates, however divided, that start and stop alike. *)
Definition same_paths (j j' : job) : Prop :=
  j_speed j = j_speed j' /\ j_coolant j = j_coolant j' /\
  map unfed (flat_map op_commands (j_operations j)) = map unfed (flat_map op_commands (j_operations j')).

(** ** Two users who differ in feed rates alone *)
(** A job without its feed rates and those of its commands. *)
Definition unrated_op (o : operation) : operation := Op (op_job o) (op_name o) (map unfed (op_commands o)).
Definition unrated (j : job) : job :=
  {| j_top := j_top j; j_feed := PInt 0; j_speed := j_speed j; j_tool_diameter := j_tool_diameter j; j_tool_number := j_tool_number j; j_name := j_name j;
     j_plunge_feed := PInt 0; j_rapid_height := j_rapid_height j; j_op_safe_height := j_op_safe_height j; j_precision := j_precision j; j_unit := j_unit j;
     j_plane := j_plane j; j_coordinate := j_coordinate j; j_distance := j_distance j; j_arc_distance := j_arc_distance j;
     j_controller_motion := j_controller_motion j; j_coolant := j_coolant j; j_max_stepdown_count := j_max_stepdown_count j;
     j_operations := map unrated_op (j_operations j) |}.
Definition unrated_tool (t : tool) : tool := Tool (t_diameter t) (t_number t) None (t_speed t).
(** Both make the same jobs and the same calls on them, but for feed rates of jobs and tools. *)
Inductive sessions : heap -> heap -> Prop :=
| sessions_start : sessions [] []
| sessions_job h h' j j' : sessions h h' -> unrated j = unrated j' -> sessions (h ++ [j]) (h' ++ [j'])
| sessions_call h h' r t t' name gen : sessions h h' -> path_settled gen -> option_map unrated_tool t = option_map unrated_tool t' ->
    sessions (fst (fluent_op h r t name gen)) (fst (fluent_op h' r t' name gen)).

(** * Programs that travel at different heights *)
From Verif Require Import Base.Str Base.Py Spec.Gcode Spec.Machine Spec.Alike Spec.Heights Model.Groups Model.Geometry Model.Plane Model.Address Model.Command Model.Job.
Local Open Scope list_scope.

(** For each cut of an operation where the command before it ends. *)
Fixpoint entries (p : option avec) (cs : list command) : list (option avec) :=
  match cs with
  | [] => []
  | Motion (MRapid _ _ e _) :: cs => entries (Some e) cs
  | Motion m :: cs => p :: entries (Some (m_end m)) cs
  | Config _ :: cs => entries None cs
  end.
(** The same cuts, entered from the same places, and rapid moves along the same lines of the plane; or
    the same error. *)
Definition same_but_travel (r r' : result (list command)) : Prop :=
  match r, r' with
  | Ok a, Ok b => map flat_rapids a = map flat_rapids b /\ entries None a = entries None b
  | Err x, Err y => x = y
  | _, _ => False
  end.
Definition rapid_settled (gen : job -> result (list command)) : Prop :=
  forall j j', alike_but_rapid j j' -> same_but_travel (gen j) (gen j').

(** ** Two users who differ in the height of rapid moves alone *)
Definition same_but_height (j j' : job) : Prop :=
  alike_but_rapid j j' /\ j_tool_number j = j_tool_number j' /\ j_speed j = j_speed j' /\ j_coolant j = j_coolant j'.
(** Both make the same jobs but for that height, and the same calls on them. *)
Inductive high_sessions : heap -> heap -> Prop :=
| high_start : high_sessions [] []
| high_job_made h h' j j' : high_sessions h h' -> same_but_height j j' -> j_operations j = [] -> j_operations j' = [] ->
    high_sessions (h ++ [j]) (h' ++ [j'])
| high_call h h' r t name gen : high_sessions h h' -> rapid_settled gen ->
    high_sessions (fst (fluent_op h r t name gen)) (fst (fluent_op h' r t name gen)).

(** ** On the machine *)
Definition no_z (st : mstate) : mstate :=
  MS (ms_x st) (ms_y st) None (ms_spindle st) (ms_speed st) (ms_mist st) (ms_flood st)
     (ms_selected st) (ms_tool st) (ms_length st) (ms_plane st) (ms_units st) (ms_radius st)
     (ms_wcs st) (ms_path st) (ms_dist st) (ms_feedmode st) (ms_feed st) (ms_motion st) (ms_ended st).
(** A move seen from above. *)
Definition no_z_event (e : event) : event := Ev (ev_kind e) (no_z (ev_from e)) (no_z (ev_to e)) (ev_i e) (ev_j e) (ev_k e).

(** * Moves of the machine apart from the spindle and the coolant *)
From Verif Require Import Base.Str Base.Py Spec.Gcode Spec.Machine Spec.Alike Model.Groups Model.Geometry Model.Plane Model.Address Model.Job.
Local Open Scope list_scope.

Definition no_spin (st : mstate) : mstate :=
  MS (ms_x st) (ms_y st) (ms_z st) SpOff None false false
     (ms_selected st) (ms_tool st) (ms_length st) (ms_plane st) (ms_units st) (ms_radius st)
     (ms_wcs st) (ms_path st) (ms_dist st) (ms_feedmode st) (ms_feed st) (ms_motion st) (ms_ended st).
(** The same move at the same feed rate with the same tool, however the spindle turns and the coolant
    flows. *)
Definition no_spin_event (e : event) : event := Ev (ev_kind e) (no_spin (ev_from e)) (no_spin (ev_to e)) (ev_i e) (ev_j e) (ev_k e).
Definition same_cuts (a b : mstate * list event) : Prop :=
  no_spin (fst a) = no_spin (fst b) /\ map no_spin_event (snd a) = map no_spin_event (snd b).

(** What a command does apart from spindle and coolant: a move, a change to a tool, or the
    safety block. *)
Inductive task := Move (m : motion) | Change (n : Z) | Safe.
Definition tasks_of (c : command) : list task :=
  match c with
  | Motion m => [Move m]
  | Config (CToolChange n _ _) => [Change n]
  | Config CSafety => [Safe]
  | Config _ => []
  end.
Definition tasks (j : job) : list task := flat_map tasks_of (flat_map op_commands (j_operations j)).

(** ** Two users who differ in speeds, coolant and names alone *)
Definition same_setup (j j' : job) : Prop := alike j j' /\ same_feeds j j' /\ j_tool_number j = j_tool_number j'.
Definition unspun_tool (t : tool) : tool := Tool (t_diameter t) (t_number t) (t_feed t) None.
(** Both make a job and call one operation after the other, each on the job the last one answered with.
    The jobs may stand in other places: a change of speed makes a job of its own. *)
Inductive chains : heap -> ref -> heap -> ref -> Prop :=
| chains_job h h' j j' : same_setup j j' -> j_operations j = [] -> j_operations j' = [] ->
    chains (h ++ [j]) (List.length h) (h' ++ [j']) (List.length h')
| chains_call h r h' r' t t' name name' gen h1 r1 h1' r1' : chains h r h' r' -> settled gen ->
    option_map unspun_tool t = option_map unspun_tool t' ->
    fluent_op h r t name gen = (h1, Ok r1) -> fluent_op h' r' t' name' gen = (h1', Ok r1') ->
    chains h1 r1 h1' r1'.

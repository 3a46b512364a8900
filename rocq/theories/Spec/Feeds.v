(** * Specification: the moves a program makes and the feed rates in force *)
From Verif Require Import Base.Str Spec.Gcode Spec.Blocks Spec.Machine Spec.Arcs Spec.Jobs Model.Job.
Local Open Scope list_scope.

(** The motions of a job, in order. *)
Definition command_moves (c : command) : list motion := match c with Motion m => [m] | Config _ => [] end.
Definition job_moves (j : job) : list motion :=
  flat_map (fun o => flat_map command_moves (op_commands o)) (j_operations j).

Definition move_kind (m : motion) : gmotion :=
  match m with
  | MRapid _ _ _ _ => GRapid | MCut _ _ _ _ _ => GLinear
  | MArc cw _ _ _ _ _ _ => if cw then GArcCW else GArcCCW
  end.

(** [traced f ms es f']: the machine, with feed rate [f] in force, makes the moves [es] for the
    motions [ms], one for each and in order: of the right kind, to the right place (within half of
    the last printed digit, in the axes given), at the feed rate of the motion or, if it has none, at
    the last one given before.  [f'] is in force at the end. *)
Inductive traced : option Qc -> list motion -> list event -> option Qc -> Prop :=
| traced_done f : traced f [] [] f
| traced_move f m ms e es f' :
    ev_kind e = move_kind m ->
    ms_feed (ev_from e) = first_some (option_map pyval (m_feed m)) f ->
    axis_near (ax (m_end m)) (ms_x (ev_from e)) (ms_x (ev_to e)) ->
    axis_near (ay (m_end m)) (ms_y (ev_from e)) (ms_y (ev_to e)) ->
    axis_near (az (m_end m)) (ms_z (ev_from e)) (ms_z (ev_to e)) ->
    traced (ms_feed (ev_from e)) ms es f' -> traced f (m :: ms) (e :: es) f'.

(** Every cutting motion says at which feed rate. *)
Definition fed (m : motion) : Prop := match m with MRapid _ _ _ _ => True | _ => m_feed m <> None end.
(** A generator of such motions only. *)
Definition fed_gen (gen : job -> result (list command)) : Prop :=
  forall j cmds, gen j = Ok cmds -> exists ms, cmds = map Motion ms /\ Forall fed ms.

(** Heaps a user can produce with such operations alone. *)
Inductive fed_reachable : heap -> Prop :=
| fed_empty : fed_reachable []
| fed_new h j : fed_reachable h -> j_operations j = [] -> fed_reachable (h ++ [j])
| fed_call h r t name gen : fed_reachable h -> fed_gen gen ->
    fed_reachable (fst (fluent_op h r t name gen)).

(** * Specification: coordinates in motion commands, and jobs made by the methods of Job alone *)
From Verif Require Import Base.Str Base.Py Spec.Gcode Spec.Blocks Spec.Machine Spec.Program Spec.Moves Spec.Jobs
  Model.Groups Model.Geometry Model.Plane Model.Edges Model.Job Model.Routers Model.Profile Model.Drill Model.Pocket Model.PocketOp
  Model.Strategy Model.Surface.
Local Open Scope list_scope.

(** X, Y and Z are all given. *)
Definition known (v : avec) : Prop := exists p, v = from_vector p.

(** A command says where it ends in X, Y and Z and, unless it is a rapid, starts from a known place;
    or it is the rapid from an unknown place straight to height [R]. *)
Definition placed (R : Qc) (m : motion) : Prop :=
  (rapid m /\ m_start m = av_none /\ m_end m = AV None None (Some R)) \/
  (known (m_end m) /\ (rapid m \/ known (m_start m))).
Definition placed_gen (height : job -> Qc) (gen : job -> result (list command)) : Prop :=
  forall j cmds, gen j = Ok cmds -> exists ms, cmds = map Motion ms /\ Forall (placed (height j)) ms.

(** Heaps made by the constructor and the methods of Job, in any order, successful or not, whatever
    the kernels answer. *)
Inductive user_heap : heap -> Prop :=
| user_empty : user_heap []
| user_new h j : user_heap h -> j_operations j = [] -> user_heap (h ++ [j])
| user_profile h K TK WK r shapes oo io sd t tl : user_heap h ->
    user_heap (fst (job_profile K TK WK h r shapes oo io sd t tl))
| user_wire_profile h K TK WK r ws o sd t tl : user_heap h ->
    user_heap (fst (job_wire_profile K TK WK h r ws o sd t tl))
| user_pocket h K WK F E fuel r areas avoids a tl : user_heap h ->
    user_heap (fst (job_pocket K WK F E fuel h r areas avoids a tl))
| user_drill h r o d t : user_heap h -> user_heap (fst (job_drill h r o d t))
| user_surface h K C r a objects : user_heap h -> user_heap (fst (job_surface3d h r K C a objects)).

(** All numbers print as plain decimals. *)
Definition numbers_ok (c : command) : Prop :=
  match c with Motion m => motion_ok m | Config c => config_ok c end.

(** The machine knows where the tool is. *)
Definition position_known (st : mstate) : Prop :=
  exists x y z, ms_x st = Some x /\ ms_y st = Some y /\ ms_z st = Some z.
(** A feed move starts where the tool is known to be; a move from an unknown height is straight. *)
Definition placed_move (e : event) : Prop :=
  (is_feed_move (ev_kind e) = true -> position_known (ev_from e)) /\
  (ms_z (ev_from e) = None -> ms_x (ev_to e) = ms_x (ev_from e) /\ ms_y (ev_to e) = ms_y (ev_from e)).

(** * Programs for work that lies somewhere else *)
From Verif Require Import Base.Str Base.Py Spec.Gcode Spec.Machine Spec.Alike Spec.Shift Model.Groups Model.Geometry Model.Plane Model.Command Model.Job.
Local Open Scope Qc_scope.
Local Open Scope list_scope.

(** ** Two users, the second of whom has moved the work *)
(** An operation on the moved work: for every job on the plane [top] it makes the commands of the other,
    moved, or the same error. *)
Definition moved_gen (top : plane) (d : pt) (gen gen' : job -> result (list command)) : Prop :=
  forall j, j_top j = top -> gen' j = rmap (map (move_command d)) (gen j).
(** Both make the same jobs, and the same calls but for the place of the work. *)
Inductive moved_sessions (top : plane) (d : pt) : heap -> heap -> Prop :=
| moved_start : moved_sessions top d [] []
| moved_made h h' j : moved_sessions top d h h' -> j_top j = top -> j_operations j = [] -> moved_sessions top d (h ++ [j]) (h' ++ [j])
| moved_call h h' r t name gen gen' : moved_sessions top d h h' -> settled gen -> moved_gen top d gen gen' ->
    moved_sessions top d (fst (fluent_op h r t name gen)) (fst (fluent_op h' r t name gen')).

(** ** On the machine *)
(** Positions along an axis of which the second is the first moved by [d], up to [e]; or both unknown. *)
Definition off (e d : Qc) (a b : option Qc) : Prop :=
  match a, b with
  | Some x, Some y => qabs (y - (x + d)) <= e
  | None, None => True
  | _, _ => False
  end.
Definition no_xy (st : mstate) : mstate :=
  MS None None (ms_z st) (ms_spindle st) (ms_speed st) (ms_mist st) (ms_flood st)
     (ms_selected st) (ms_tool st) (ms_length st) (ms_plane st) (ms_units st) (ms_radius st)
     (ms_wcs st) (ms_path st) (ms_dist st) (ms_feedmode st) (ms_feed st) (ms_motion st) (ms_ended st).
Definition moved_state (e : Qc) (d : pt) (s s' : mstate) : Prop :=
  no_xy s = no_xy s' /\ off e (fst d) (ms_x s) (ms_x s') /\ off e (snd d) (ms_y s) (ms_y s').
(** The same move somewhere else: the centre words, relative to its start, are the same. *)
Definition moved_event (e : Qc) (d : pt) (m m' : event) : Prop :=
  ev_kind m = ev_kind m' /\ moved_state e d (ev_from m) (ev_from m') /\ moved_state e d (ev_to m) (ev_to m') /\
  ev_i m = ev_i m' /\ ev_j m = ev_j m' /\ ev_k m = ev_k m'.
(** An even number of thousandths. *)
Definition even_step (x : Qc) : Prop := exists n, x = qz n * qq 1 500.

(** * The state a machine was left in *)
From Verif Require Import Base.Str Spec.Gcode Spec.Machine.
Local Open Scope list_scope.

(** An axis ends at the same place in both runs, or neither moved it. *)
Definition same_arrival (a b a' b' : option Qc) : Prop := b = b' \/ (b = a /\ b' = a').
Definition same_place (st st' : mstate) : Prop := ms_x st = ms_x st' /\ ms_y st = ms_y st' /\ ms_z st = ms_z st'.
(** Moves of the same kind, counted alike.  Feed moves go from the same place to the same place. *)
Definition same_move (e e' : event) : Prop :=
  ev_kind e = ev_kind e' /\ ev_i e = ev_i e' /\ ev_j e = ev_j e' /\ ev_k e = ev_k e' /\
  ms_units (ev_from e) = ms_units (ev_from e') /\ ms_plane (ev_from e) = ms_plane (ev_from e') /\ ms_wcs (ev_from e) = ms_wcs (ev_from e') /\
  ms_dist (ev_from e) = ms_dist (ev_from e') /\ ms_path (ev_from e) = ms_path (ev_from e') /\ ms_radius (ev_from e) = ms_radius (ev_from e') /\
  ms_feedmode (ev_from e) = ms_feedmode (ev_from e') /\
  same_arrival (ms_x (ev_from e)) (ms_x (ev_to e)) (ms_x (ev_from e')) (ms_x (ev_to e')) /\
  same_arrival (ms_y (ev_from e)) (ms_y (ev_to e)) (ms_y (ev_from e')) (ms_y (ev_to e')) /\
  same_arrival (ms_z (ev_from e)) (ms_z (ev_to e)) (ms_z (ev_from e')) (ms_z (ev_to e')) /\
  (is_feed_move (ev_kind e) = true -> same_place (ev_from e) (ev_from e') /\ same_place (ev_to e) (ev_to e')).
Definition same_rate (e e' : event) : Prop := is_feed_move (ev_kind e) = true -> ms_feed (ev_from e) = ms_feed (ev_from e').

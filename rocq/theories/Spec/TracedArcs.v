(** * Specification: arcs a machine can make *)
From Verif Require Import Base.Str Base.Py Spec.Gcode Spec.Machine Spec.Wires Spec.Traced Model.Geometry Model.Edges.
Local Open Scope Qc_scope.
Local Open Scope list_scope.

Definition circular (e : edge) : Prop := e_geom e = GARC \/ e_geom e = GCIRCLE.
Definition is_arc (ev : event) : Prop := ev_kind ev = GArcCW \/ ev_kind ev = GArcCCW.
(** The ends of an arc in the plane XY are equally far from its centre, and it stays level. *)
Definition proper_arc (ev : event) : Prop := ms_plane (ev_from ev) = Some 170%Z /\ radii_agree ev /\ ms_z (ev_from ev) = ms_z (ev_to ev).
(** The centre words are those of the active plane (RS274/NGC: I and J for G17). *)
Definition words_of_plane (ev : event) : Prop := ms_plane (ev_from ev) = Some 170%Z -> ev_k ev = None.
(** All points of an edge are on one circle about its centre, in the plane of its normal. *)
Definition round_edge (e : edge) : Prop :=
  exists radius2, forall t, 0 <= t -> t <= 1 -> let d := vsub (travel_param e t) (e_center e) in dot d d = radius2 /\ dot (e_normal e) d = 0.

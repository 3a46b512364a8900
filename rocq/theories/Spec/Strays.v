(** * Specification: what is cut besides the tool paths *)
From Verif Require Import Base.Str Base.Py Spec.Gcode Spec.Blocks Spec.Machine Spec.Wires Spec.Curves Spec.Rapids Spec.OnMachine Spec.Arcs Spec.Traced
  Model.Geometry Model.Plane Model.Edges Model.Job Model.Routers Model.Tabs Model.Profile.
Local Open Scope Qc_scope.
Local Open Scope list_scope.

(** A path below the safe height, whose first edge is straight if the kernel ever answers with a
    place inside an edge of the path. *)
Definition entered_straight (K : kernel) (safe : Qc) (w : list edge) : Prop :=
  (exists e rest, w = e :: rest /\ vz (travel_start e) < safe /\ forall u d id p, k_nearest K u (WWire w) = Some (d, TEdge id p) -> e_geom e = GLINE) /\
  connected w /\ (forall e, In e w -> edge_sound e).
(** The places cut to after the path [w]: none, or one, namely the answer of the kernel for some
    edge of [w] taken as a parameter of the first edge. *)
Definition stray (K : kernel) (w : list edge) (places : list vec) : Prop :=
  places = [] \/
  exists e rest u d id p, w = e :: rest /\ k_nearest K u (WWire w) = Some (d, TEdge id p) /\ p <> 0 /\ places = [e_param e p].
(** The path is traced, then straight cuts are made to further places. *)
Definition traced_and (K : kernel) (safe : Qc) (plunge_feed feed : pynum) (w : list edge) (es : list event) : Prop :=
  exists main more places, es = main ++ more /\ wire_traced K safe plunge_feed feed w main /\ stray K w places /\
    Forall2 (fun v ev => ev_kind ev = GLinear /\ feeds_at feed ev /\ stands_at v (ev_to ev)) places more.

(** [v] is a point of the path. *)
Definition on_path (w : list edge) (v : vec) : Prop := exists e t, In e w /\ 0 <= t /\ t <= 1 /\ v = travel_param e t.
Definition apart2 (a b : vec) : Qc := (vx a - vx b) * (vx a - vx b) + (vy a - vy b) * (vy a - vy b) + (vz a - vz b) * (vz a - vz b).
(** The answer is a nearest point of the path, given with the edge it is on, the parameter there and
    the distance. *)
Definition nearest_inside (w : list edge) (u : vec) (d : Qc) (id : nat) (p : Qc) : Prop :=
  exists e, In e w /\ e_id e = id /\ e_param0 e < p /\ p < e_param1 e /\ 0 <= d /\ apart2 u (e_param e p) = d * d /\
    forall v, on_path w v -> d * d <= apart2 u v.
(** The kernel only answers with places inside the first edge. *)
Definition inside_first (K : kernel) (w : list edge) : Prop :=
  forall u d id p, k_nearest K u (WWire w) = Some (d, TEdge id p) -> exists e rest, w = e :: rest /\ e_param0 e <= p /\ p <= e_param1 e.
(** The tool is lowered once; every cut after that is straight and ends on the path. *)
Definition kept_to (safe : Qc) (plunge_feed feed : pynum) (w : list edge) (es : list event) : Prop :=
  exists entry down cuts, es = entry ++ cuts /\ feed_moves entry = [down] /\ same_xy down /\ ms_z (ev_from down) = Some (rounded 3 safe) /\
    ms_feed (ev_from down) = Some (pyval plunge_feed) /\
    Forall (fun ev => ev_kind ev = GLinear /\ feeds_at feed ev /\ exists v, on_path w v /\ stands_at v (ev_to ev)) cuts.

(** * Specification: wires traced by the machine *)
From Verif Require Import Base.Str Base.Py Spec.Gcode Spec.Blocks Spec.Machine Spec.Program Spec.Wires Spec.Curves Spec.Rapids Spec.OnMachine Spec.Arcs
  Model.Geometry Model.Plane Model.Edges Model.Job Model.Routers Model.Tabs Model.Profile.
Local Open Scope Qc_scope.
Local Open Scope list_scope.

(** The machine stands at [p], coordinates as printed. *)
Definition stands_at (p : vec) (st : mstate) : Prop :=
  ms_x st = Some (rounded 3 (vx p)) /\ ms_y st = Some (rounded 3 (vy p)) /\ ms_z st = Some (rounded 3 (vz p)).
Definition feeds_at (feed : pynum) (e : event) : Prop := is_feed_move (ev_kind e) = true /\ ms_feed (ev_from e) = Some (pyval feed).
(** The words for the centre of an arc, from where the machine is, say [c] up to rounding. *)
Definition centre_word (c : Qc) (at_ word : option Qc) : Prop :=
  exists x i, at_ = Some x /\ word = Some i /\ qabs (x + i - c) <= qq 1 1000.
(** The edge is part of a circle in a level plane. *)
Definition level_circle (e : edge) : Prop :=
  exists radius2 z, forall t, 0 <= t -> t <= 1 ->
    sq2 (vx (travel_param e t) - vx (e_center e)) (vy (travel_param e t) - vy (e_center e)) = radius2 /\ vz (travel_param e t) = z.
(** The machine is as far from the centre after the move as before, to within 0.003. *)
Definition radii_agree (ev : event) : Prop :=
  exists x0 y0 x1 y1 i j, ms_x (ev_from ev) = Some x0 /\ ms_y (ev_from ev) = Some y0 /\ ms_x (ev_to ev) = Some x1 /\ ms_y (ev_to ev) = Some y1 /\
    ev_i ev = Some i /\ ev_j ev = Some j /\
    root_le_plus (sq2 i j) (sq2 (x1 - (x0 + i)) (y1 - (y0 + j))) (qq 3 1000) /\ root_le_plus (sq2 (x1 - (x0 + i)) (y1 - (y0 + j))) (sq2 i j) (qq 3 1000).
(** A circular move in the plane XY about the centre of the edge, in the direction the edge turns. *)
Definition arc_made (e : edge) (ev : event) : Prop :=
  ms_plane (ev_from ev) = Some 170%Z /\ (ev_kind ev = GArcCW \/ ev_kind ev = GArcCCW) /\
  (forall p, dot (e_normal e) (vsub p (e_center e)) = 0 -> vsub p (e_center e) <> V3 0 0 0 ->
     (ev_kind ev = GArcCW <-> turns_clockwise (e_normal e) (e_center e) p (e_reversed e))) /\
  centre_word (vx (e_center e)) (ms_x (ev_from ev)) (ev_i ev) /\ centre_word (vy (e_center e)) (ms_y (ev_from ev)) (ev_j ev) /\
  centre_word (vz (e_center e)) (ms_z (ev_from ev)) (ev_k ev) /\
  (level_circle e -> radii_agree ev /\ ms_z (ev_from ev) = ms_z (ev_to ev)).
(** The moves of an edge: a line is one straight move; a circle two arcs, an arc one (a straight move
    if the kernel takes its ends for the same point); other curves straight moves to points spaced
    evenly along the curve. *)
Definition edge_shape_made (K : kernel) (e : edge) (es : list event) : Prop :=
  match e_geom e with
  | GLINE => exists ev, es = [ev] /\ ev_kind ev = GLinear
  | GARC | GCIRCLE =>
      if e_closed e then exists a b, es = [a; b] /\ arc_made e a /\ arc_made e b /\ stands_at (travel_param e (qq 1 2)) (ev_to a)
      else if k_veq K (travel_start e) (travel_end e) then exists ev, es = [ev] /\ ev_kind ev = GLinear
      else exists a, es = [a] /\ arc_made e a
  | GBSPLINE | GSPLINE | GOFFSET =>
      exists n vs, sampled_in e n vs /\ Forall2 (fun v ev => ev_kind ev = GLinear /\ stands_at v (ev_to ev)) vs es
  | GOTHER => False
  end.
(** The moves go from the start to the end of an edge, at one feed rate. *)
Definition edge_traced (K : kernel) (feed : pynum) (e : edge) (es : list event) : Prop :=
  Forall (feeds_at feed) es /\
  (exists first rest, es = first :: rest /\ stands_at (travel_start e) (ev_from first)) /\
  (exists front final, es = front ++ [final] /\ stands_at (travel_end e) (ev_to final)) /\
  edge_shape_made K e es.
(** The tool is lowered once, straight down from the safe height, then taken along every edge in order. *)
Definition wire_traced (K : kernel) (safe : Qc) (plunge_feed feed : pynum) (w : list edge) (es : list event) : Prop :=
  exists entry down bodies, es = entry ++ concat bodies /\ feed_moves entry = [down] /\
    ev_kind down = GLinear /\ same_xy down /\ ms_z (ev_from down) = Some (rounded 3 safe) /\ ms_feed (ev_from down) = Some (pyval plunge_feed) /\
    Forall2 (edge_traced K feed) w bodies.

(** The tool paths of the wires of a profile: offset, then a layer for every pass, with tabs. *)
Definition toolpaths_of (K : kernel) (TK : tab_kernel) (WK : wire_kernel) (j : job) (radius : Qc) (ws : list (list edge)) (o : option Qc)
  (sd : option Qc) (t : option tabs) (paths : list (list edge)) : Prop :=
  exists bases pss, offsets_of K WK (j_top j) radius ws o bases /\
    Forall2 (fun b ps => profile_toolpaths TK WK j sd t b = Ok ps) bases pss /\ paths = concat pss.

(** A path the router follows: connected edges that start below the safe height, and the kernel
    never answers with a place inside one of its edges (C30_parameter_refuted). *)
Definition traceable (K : kernel) (safe : Qc) (w : list edge) : Prop :=
  (exists e rest, w = e :: rest /\ vz (travel_start e) < safe) /\ connected w /\ (forall e, In e w -> edge_sound e) /\
  forall u d id p, k_nearest K u (WWire w) <> Some (d, TEdge id p).

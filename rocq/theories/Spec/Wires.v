(** * Specification: edges and wires *)
From Verif Require Import Base.Str Base.Py Spec.Paths Spec.Moves Model.Geometry Model.Edges Model.Routers.
Local Open Scope Qc_scope.
Local Open Scope list_scope.

(** What is assumed of the CAD kernel about one edge: parameters and normalised lengths agree
    with the end points. *)
Definition edge_sound (e : edge) : Prop :=
  e_param e (e_param0 e) = e_startPoint e /\ e_param e (e_param1 e) = e_endPoint e /\
  e_pos e 0 = e_startPoint e /\ e_pos e 1 = e_endPoint e /\
  (e_closed e = true -> e_startPoint e = e_endPoint e).

(** Travelling along an edge in the direction of its orientation. *)
Definition travel_start (e : edge) : vec := if e_reversed e then e_endPoint e else e_startPoint e.
Definition travel_end (e : edge) : vec := if e_reversed e then e_startPoint e else e_endPoint e.
(** The point a fraction [t] of the parameter range along the way. *)
Definition travel_param (e : edge) (t : Qc) : vec :=
  if e_reversed e then e_param e ((1 - t) * e_param1 e + t * e_param0 e)
  else e_param e ((1 - t) * e_param0 e + t * e_param1 e).
Definition travel_pos (e : edge) (t : Qc) : vec := if e_reversed e then e_pos e (1 - t) else e_pos e t.

Definition is_arc_geom (g : geom) : bool := match g with GARC | GCIRCLE => true | _ => false end.
Definition is_spline_geom (g : geom) : bool := match g with GBSPLINE | GSPLINE | GOFFSET => true | _ => false end.

(** An arc command with centre [c], passing [mid] on its way from [a] to [b]. *)
Definition arc_command (cw : bool) (c a mid b : vec) (f : option pynum) (m : motion) : Prop :=
  exists arrow, m = MArc cw (from_vector a) (from_vector b) (from_vector c) (from_vector mid) arrow f.
Definition line_command (a b : vec) (f : option pynum) (m : motion) : Prop :=
  exists arrow, m = MCut KCut (from_vector a) (from_vector b) arrow f.

(** ** Turning direction, from the geometry: at the point [p] of a circle with centre [c] and
    axis [n] the oriented curve runs along [n x (p - c)] (against it if the edge is reversed); the
    turn is clockwise seen from +Z if (p - c) x direction points down. *)
Definition cross (a b : vec) : vec :=
  V3 (vy a * vz b - vz a * vy b) (vz a * vx b - vx a * vz b) (vx a * vy b - vy a * vx b).
Definition direction (n c p : vec) (reversed : bool) : vec :=
  let t := cross n (vsub p c) in if reversed then vscale (- 1%Qc) t else t.
Definition turns_clockwise (n c p : vec) (reversed : bool) : Prop :=
  vz (cross (vsub p c) (direction n c p reversed)) < 0.

(** ** Wires *)
Fixpoint connected (es : list edge) : Prop :=
  match es with
  | e :: (e' :: _) as rest => travel_end e = travel_start e' /\ connected rest
  | _ => True
  end.
Definition loop (es : list edge) : Prop :=
  connected es /\ match es with [] => True | e :: _ => travel_end (last es e) = travel_start e end.

(** [es'] is [es] started at another edge. *)
Definition rotation {A} (es es' : list A) : Prop := exists l r, es = l ++ r /\ es' = r ++ l.

(** The commands take the tool along the edge. *)
Definition travels (e : edge) (ms : list motion) : Prop :=
  ms <> [] /\ Forall (fun m => ~ rapid m) ms /\ continuous (from_vector (travel_start e)) ms /\
  after (from_vector (travel_start e)) ms = from_vector (travel_end e).

(** Nearest-point answers the router copes with: a vertex; or an edge (not a spline), with a
    non-zero parameter, when the gap is small enough to link. *)
Definition good_answer (so : option Qc) (w : wire) (a : option (Qc * target)) : Prop :=
  match a with
  | Some (d, TEdge id p) =>
      (exists s, so = Some s /\ s <> 0 /\ d <> 0 /\ d <= s) /\ p <> 0 /\
      (forall e, In e (wire_edges w) -> e_id e = id -> is_spline_geom (e_geom e) = false)
  | _ => True
  end.

(** A cutting command at the job feed, or a plunge at the plunge feed. *)
Definition feed_ok (S : Qc) (pf feed : pynum) (m : motion) : Prop :=
  m_feed m = Some feed \/ exists d, plunge S d pf m.

(** The commands [g] for a wire cut every edge, in the order of the wire started at some edge. *)
Definition covers (feed : pynum) (w : wire) (g : list motion) : Prop :=
  exists access es' bodies closing, g = access ++ concat bodies ++ closing /\
    rotation (wire_edges w) es' /\
    Forall2 (fun (e : edge) c => c <> [] /\ Forall (fun m => ~ rapid m /\ m_feed m = Some feed) c) es' bodies.

(** ... and every edge is travelled from its start to its end. *)
Definition travelled (so : option Qc) (w : wire) (g : list motion) : Prop :=
  exists access es' bodies, g = access ++ concat bodies /\ rotation (wire_edges w) es' /\ Forall2 travels es' bodies /\
    (so = None -> es' = wire_edges w).

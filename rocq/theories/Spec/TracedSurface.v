(** * Specification: surfaces scanned by the machine *)
From Verif Require Import Base.Str Base.Py Spec.Gcode Spec.Blocks Spec.Machine Spec.Program Spec.Rapids Spec.Zigzag Spec.Surfaces Spec.OnMachine Spec.Traced
  Model.Geometry Model.Plane Model.Edges Model.Job Model.Strategy Model.Surface.
Local Open Scope Qc_scope.
Local Open Scope list_scope.

(** A straight feed move to the point [p], at the depth of the pass or at the surface, whichever is
    higher; coordinates as printed. *)
Definition point_made (depth : Qc) (p : vec) (e : event) : Prop :=
  ev_kind e = GLinear /\
  exists z, (z = depth \/ z = vz p) /\ depth <= z /\ vz p <= z /\ stands_at (V3 (vx p) (vy p) z) (ev_to e).
(** One run of points: up, across at the rapid height to the first point, down to the safe height
    above it, then a cut to every other point in order. *)
Definition run_made (R S depth : Qc) (run : list vec) (es : list event) : Prop :=
  exists up across down cuts p points, es = up :: across :: down :: cuts /\ run = p :: points /\
    ev_kind up = GRapid /\ same_xy up /\ ms_z (ev_to up) = Some (rounded 3 R) /\
    ev_kind across = GRapid /\ ms_z (ev_from across) = Some (rounded 3 R) /\ stands_at (V3 (vx p) (vy p) R) (ev_to across) /\
    ev_kind down = GRapid /\ same_xy down /\ stands_at (V3 (vx p) (vy p) S) (ev_to down) /\
    Forall2 (point_made depth) points cuts.
(** One pass: the runs of the scanned points that are not above the limit. *)
Definition level_made (R S : Qc) (seqs : list (list vec)) (limit depth : Qc) (es : list event) : Prop :=
  exists runs groups, chopped_all limit seqs runs /\ es = concat groups /\ Forall2 (run_made R S depth) runs groups.
(** The surface above one boundary. *)
Definition surface_made (K : surface_kernel) (C : zig_clipper) (a : surface_args) (j : job) (faces : list (sk_face K)) (zmin : Qc)
  (b : sk_face K) (es : list event) : Prop :=
  exists seqs depths levels, scanned K C a (j_top j) faces zmin b seqs /\ descent (sa_top_height a) zmin (sa_stepdown a) depths /\
    es = concat levels /\
    Forall2 (fun ld p => level_made (j_rapid_height j) (j_op_safe_height j) seqs (fst ld) (snd ld) p) (combine (pass_limits depths) depths) levels.
(** The boundaries: the selected faces projected, their wires offset. *)
Definition boundaries (K : surface_kernel) (a : surface_args) (top : plane) (objects : list (face_object K))
  (faces : list (sk_face K)) (bs : list (sk_face K)) : Prop :=
  exists base parts, objects <> [] /\ selected objects faces /\ sk_project K top faces = Ok base /\ bs = concat parts /\
    Forall2 (fun b fs => sk_planar K b = true /\ exists outer inner,
      offset_distance (sa_tool_diameter a) (sa_outer a) outer /\ offset_distance (sa_tool_diameter a) (sa_inner a) inner /\
      sk_offset K b outer inner = Ok fs) base parts.

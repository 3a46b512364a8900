(** * Specification: surface operations *)
From Verif Require Import Base.Str Base.Py Spec.Paths Spec.Moves Spec.Pockets Spec.Zigzag Model.Geometry Model.Command Model.Edges Model.Strategy Model.Surface.
Local Open Scope Qc_scope.
Local Open Scope list_scope.

(** ** Interpolation *)
(** The points after [p1] up to and including [p2]: on the segment, going away from [p1], never more
    than [step] from one to the next. *)
Definition fine_segment (step : Qc) (p1 p2 : pt) (points : path) : Prop :=
  exists added, points = added ++ [p2] /\ Forall (fun q => on_segment q p1 p2) added /\ by_distance p1 points /\
    forall a b, In (a, b) (steps (p1 :: points)) -> sqd a b <= step * step.
(** [fine] is [coarse] with each segment filled in. *)
Definition fine_sequence (step : Qc) (coarse fine : path) : Prop :=
  exists p rest parts, coarse = p :: rest /\ fine = p :: concat parts /\
    Forall2 (fun s part => fine_segment step (fst s) (snd s) part) (steps coarse) parts.

(** ** Chopping by depth *)
Definition above (limit : Qc) (p : vec) : Prop := limit < vz p.
Definition within (limit : Qc) (p : vec) : Prop := vz p <= limit.
(** The maximal runs of reachable points of a sequence, in order: each is not empty and stands
    between points above the limit or the ends of the sequence. *)
Inductive chopped (limit : Qc) : list vec -> list (list vec) -> Prop :=
| chopped_rest gap : Forall (above limit) gap -> chopped limit gap []
| chopped_run gap run rest runs : Forall (above limit) gap -> run <> [] -> Forall (within limit) run ->
    match rest with [] => True | p :: _ => above limit p end ->
    chopped limit rest runs -> chopped limit (gap ++ run ++ rest) (run :: runs).
Definition chopped_all (limit : Qc) (seqs : list (list vec)) (runs : list (list vec)) : Prop :=
  exists parts, Forall2 (chopped limit) seqs parts /\ runs = concat parts.

(** ** Moves *)
(** A cut to the point [p], no lower than the surface there and no lower than [depth]; at one of the two. *)
Definition surface_cut (depth : Qc) (p : vec) (m : motion) : Prop :=
  straight_cut m /\ xy (m_end m) = Some (vx p, vy p) /\
  exists z, az (m_end m) = Some z /\ depth <= z /\ vz p <= z /\ (z = depth \/ z = vz p).
(** One run: up to the rapid height, across at that height, down to the safe height above the first
    point, then cuts to the other points in order. *)
Definition milled (R S depth : Qc) (run : list vec) (g : list motion) : Prop :=
  exists up across down cuts p points, g = up :: across :: down :: cuts /\ run = p :: points /\
    (rapid up /\ vertical up /\ az (m_end up) = Some R) /\
    (rapid across /\ at_height across R /\ xy (m_end across) = Some (vx p, vy p)) /\
    (rapid down /\ vertical down /\ az (m_start down) = Some R /\ az (m_end down) = Some S /\
     xy (m_end down) = Some (vx p, vy p)) /\
    Forall2 (surface_cut depth) points cuts.

(** The depths of the passes.  (No claim for positive stepdowns, C58.) *)
Definition descent (top bottom : Qc) (stepdown : option Qc) (depths : list Qc) : Prop :=
  match stepdown with
  | None => depths = [bottom]
  | Some s => (s = 0 -> depths = [bottom]) /\
      (s < 0 -> exists ds, depths = ds ++ [bottom] /\ ds <> [] /\ steps_by (- s) top bottom ds)
  end.
(** The limits of the passes: zero for the first two, then the depth two passes before. *)
Definition pass_limits (depths : list Qc) : list Qc := firstn (List.length depths) (0 :: 0 :: depths).
(** One pass: the runs of points below the limit. *)
Definition pass (R S : Qc) (seqs : list (list vec)) (limit depth : Qc) (ms : list motion) : Prop :=
  exists runs groups, chopped_all limit seqs runs /\ ms = concat groups /\ Forall2 (milled R S depth) runs groups.
(** All passes over one boundary. *)
Definition surfaced (R S : Qc) (seqs : list (list vec)) (depths : list Qc) (ms : list motion) : Prop :=
  exists passes, ms = concat passes /\
    Forall2 (fun ld p => pass R S seqs (fst ld) (snd ld) p) (combine (pass_limits depths) depths) passes.

(** ** Drop cutter *)
(** The points of the sequences [fine], lifted to the heights answered for them, in order. *)
Definition lifted (fine : list path) (heights : list Qc) (seqs : list (list vec)) : Prop :=
  Forall2 (fun p vs => p = map (fun v => (vx v, vy v)) vs) fine seqs /\
  exists more, heights = map vz (concat seqs) ++ more.
(** The points the operation works on: the zig-zag over the boundary, interpolated, each point with
    the height the drop cutter answers for it (asked from below the part). *)
Definition scanned (K : surface_kernel) (C : zig_clipper) (a : surface_args) (top : plane) (faces : list (sk_face K))
  (zmin : Qc) (b : sk_face K) (seqs : list (list vec)) : Prop :=
  exists coarse fine heights,
    zig_zag C (sa_tool_diameter a) (sa_stepover a) [BWire (fst (sk_outer K b)) (snd (sk_outer K b))] [] = Ok coarse /\
    Forall2 (fun c f => interpolate_cut_sequence (sk_length K) (sa_interpolation_step a) c = Ok f) coarse fine /\
    sk_drop K top faces (map (fun q => V3 (fst q) (snd q) zmin) (concat fine)) = Ok heights /\
    lifted fine heights seqs.
(** Two consecutive points of one of the sequences. *)
Definition neighbours (seqs : list (list vec)) (a b : vec) : Prop :=
  exists l1 l2, In (l1 ++ a :: b :: l2) seqs.

(** ** The area *)
(** The faces an operation works on: those selected, and those made of selected wires. *)
Definition selected {K : surface_kernel} (objects : list (face_object K)) (faces : list (sk_face K)) : Prop :=
  Forall2 (fun o f => o = OFace f \/ exists w, o = OWire w /\ sk_make K w = Ok f) objects faces.
(** An offset: a multiple of the tool diameter, or a multiple and a distance. *)
Definition offset_distance (diameter : Qc) (a : option offset_arg) (d : Qc) : Prop :=
  (exists n, a = Some (OffNum n) /\ d = n * diameter) \/ (exists n e, a = Some (OffPair n e) /\ d = n * diameter + e).

(** * Specification: a list of contours, cut one after the other *)
From Verif Require Import Base.Py Spec.Paths Spec.Moves Spec.Wires Model.Geometry Model.Command Model.Edges Model.Routers.
Local Open Scope Qc_scope.
Local Open Scope list_scope.

(** No point of the path is nearer to [q] than its point [c]. *)
Definition nearest_on (p : path) (q c : pt) : Prop := on_path c p /\ forall b, on_path b p -> sqd q c <= sqd q b.
(** The contour is gone to without lifting the tool: the square of a distance that is not zero is
    compared with the stepover. *)
Definition linked_to (so : option Qc) (q c : pt) : Prop := exists s, so = Some s /\ 0 < sqd q c /\ sqd q c <= s.
(** Once round the path, from its point [c] and back to it. *)
Definition round_from (p : path) (c : pt) (es : list (pt * pt)) : Prop :=
  exists before a b after, steps p = before ++ (a, b) :: after /\ on_segment c a b /\ es = (c, b) :: after ++ before ++ [(a, c)].
(** The tool is lifted and comes down at [p], then cuts along [es]. *)
Definition lifted_over (p : pt) (es : list (pt * pt)) (g : list motion) : Prop :=
  exists m access cuts, g = m :: access ++ cuts /\ is_retract m = true /\ xy (after (m_end m) access) = Some p /\ moves_along cuts es.
(** The tool goes straight from [q] to [c], cutting, then along [es]. *)
Definition fed_over (q c : pt) (es : list (pt * pt)) (g : list motion) : Prop :=
  exists m cuts, g = m :: cuts /\ straight_cut m /\ segment_of m q c /\ moves_along cuts es.

(** The first contour is gone round from its first point.  Another one, after a contour left at [q],
    is left at its point nearest to [q].  If that is near enough, the tool goes there and round;
    otherwise it goes round from the first point, and then along the chord to that point. *)
Definition visit (so : option Qc) (from : option pt) (p : path) (g : list motion) (c : pt) : Prop :=
  exists p0, hd_error p = Some p0 /\
  match from with
  | None => lifted_over p0 (steps p) g /\ c = p0
  | Some q => nearest_on p q c /\
      ((linked_to so q c /\ exists es, fed_over q c es g /\ round_from p c es) \/
       (~ linked_to so q c /\ lifted_over p0 (steps p ++ [(p0, c)]) g))
  end.
Inductive visits (so : option Qc) : option pt -> list path -> list (list motion) -> Prop :=
| visits_nil from : visits so from [] []
| visits_cons from p ps g gs c : visit so from p g c -> visits so (Some c) ps gs -> visits so from (p :: ps) (g :: gs).

(** ** Wires *)
(** The kernel's distance from where the previous wire was left is not zero and within the stepover. *)
Definition near_enough (K : kernel) (so : option Qc) (from : option vec) (w : wire) : Prop :=
  exists q s d t, from = Some q /\ so = Some s /\ s <> 0 /\ k_nearest K q w = Some (d, t) /\ d <> 0 /\ d <= s.
(** A wire is entered by a cut if and only if it is near enough to where the one before was left. *)
Inductive joined (K : kernel) (so : option Qc) : option vec -> list wire -> list (list motion) -> Prop :=
| joined_nil from : joined K so from [] []
| joined_cons from w ws m rest gs u : (near_enough K so from w -> straight_cut m) -> (~ near_enough K so from w -> is_retract m = true) ->
    after (m_end m) rest = from_vector u -> joined K so (Some u) ws gs -> joined K so from (w :: ws) ((m :: rest) :: gs).

(** Edges there are moves for: known curves, and arcs that are not upright. *)
Definition routable (e : edge) : Prop := e_geom e <> GOTHER /\ (is_arc_geom (e_geom e) = true -> vz (e_normal e) <> 0).
(** The kernel's answer is a part of the wire. *)
Definition part_of (K : kernel) (w : wire) (t : target) : Prop :=
  exists e, In e (wire_edges w) /\ match t with TEdge id _ => e_id e = id | TVertex v => k_veq K (travel_start e) v = true end.

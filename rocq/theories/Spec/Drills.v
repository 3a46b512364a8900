(** * Specification: drilling *)
From Verif Require Import Base.Str Base.Py Spec.Paths Spec.Moves Model.Geometry Model.Plane Model.Drill.
Local Open Scope Qc_scope.
Local Open Scope list_scope.

(** The centres of the holes an object asks for, moved by [tr]: a vector itself, the centre of a
    wire, of each hole of a face, or of the face if it has none. *)
Definition hole_centers (tr : vec -> vec) (o : drill_object) (vs : list vec) : Prop :=
  match o with
  | DVector v => vs = [tr v]
  | DWire c => exists v, c = Ok v /\ vs = [tr v]
  | DFace outer inners =>
      (inners = [] /\ exists v, outer = Ok v /\ vs = [tr v]) \/
      (inners <> [] /\ Forall2 (fun c w => exists v, c = Ok v /\ w = tr v) inners vs)
  | DOther => False
  end.
Definition wanted_holes (tr : vec -> vec) (os : list drill_object) (ps : path) : Prop :=
  exists vss, Forall2 (hole_centers tr) os vss /\ ps = map (fun v => (vx v, vy v)) (concat vss).

(** From [here], always to a nearest of the points left; among equals to the first one. *)
Inductive nearest_first : pt -> path -> path -> Prop :=
| nearest_done here : nearest_first here [] []
| nearest_next here before p after order :
    (forall q, In q before -> sqd here p < sqd here q) ->
    (forall q, In q after -> sqd here p <= sqd here q) ->
    nearest_first p (before ++ after) order ->
    nearest_first here (before ++ p :: after) (p :: order).

(** One hole at [p]: rapid straight up or down to the safe height, across at that height, straight
    down to the surface, and a vertical cut from there to [bottom] with the feed. *)
Definition drilled (safe bottom : Qc) (feed : pynum) (p : pt) (g : list motion) : Prop :=
  exists up across down cut, g = [up; across; down; cut] /\
    (rapid up /\ vertical up /\ az (m_end up) = Some safe) /\
    (rapid across /\ at_height across safe /\ xy (m_end across) = Some p) /\
    (rapid down /\ vertical down /\ az (m_start down) = Some safe /\ az (m_end down) = Some 0) /\
    (straight_cut cut /\ vertical cut /\ az (m_start cut) = Some 0 /\ az (m_end cut) = Some bottom /\
     m_feed cut = Some feed /\ xy (m_end cut) = Some p).

(** The kernel finds the centres the operation asks for. *)
Definition kernel_fine (o : drill_object) : Prop :=
  match o with
  | DWire c => exists v, c = Ok v
  | DFace outer [] => exists v, outer = Ok v
  | DFace _ inners => Forall (fun c => exists v, c = Ok v) inners
  | _ => True
  end.

(** Seen from above, the plane's own coordinates of a point are obtained by the map to the world's as well:
    the frame is symmetric, and the map takes the origin's opposite to itself. *)
Definition own_inverse (p : plane) : Prop :=
  vy (p_xdir p) = vx (p_ydir p) /\ vz (p_xdir p) = vx (p_zdir p) /\ vz (p_ydir p) = vy (p_zdir p) /\
  vx (p_origin p) + dot (p_origin p) (p_xdir p) = 0 /\ vy (p_origin p) + dot (p_origin p) (p_ydir p) = 0.

(** * Specification: the surface between the scanned points *)
From Verif Require Import Base.Str Base.Py Spec.Paths Model.Geometry Model.Plane Model.Surface.
Local Open Scope Qc_scope.
Local Open Scope list_scope.

(** The drop cutter answers the heights of one surface, [f]. *)
Definition drops_to (K : surface_kernel) (top : plane) (faces : list (sk_face K)) (f : Qc -> Qc -> Qc) : Prop :=
  forall points heights, sk_drop K top faces points = Ok heights -> heights = map (fun p => f (vx p) (vy p)) points.
(** The surface is nowhere steeper than [L]; distances are |dx| + |dy|. *)
Definition no_steeper (L : Qc) (f : Qc -> Qc -> Qc) : Prop :=
  forall x y x' y', f x y <= f x' y' + L * (qabs (x - x') + qabs (y - y')).
(** Lengths answered by the kernel are not too short. *)
Definition true_length (K : surface_kernel) : Prop :=
  forall a b, 0 <= sk_length K a b /\ sqd a b <= sk_length K a b * sk_length K a b.

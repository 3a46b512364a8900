(** * Specification: contours that keep their distance *)
From Verif Require Import Base.Py Spec.Paths Spec.Moves Spec.Visits Model.Geometry Model.Command.
Local Open Scope Qc_scope.
Local Open Scope list_scope.

(** Every contour is at least [s] away from the one before, as contours offset by [s] are. *)
Fixpoint spaced (s : Qc) (ps : list path) : Prop :=
  match ps with
  | p :: (q :: _) as rest => (forall a b, on_path a p -> on_path b q -> s * s <= sqd a b) /\ spaced s rest
  | _ => True
  end.
(** The tool is lifted, goes once round the contour from its first point and then straight to another
    point of it. *)
Definition round_and_chord (p : path) (g : list motion) : Prop :=
  exists p0 c, hd_error p = Some p0 /\ on_path c p /\ lifted_over p0 (steps p ++ [(p0, c)]) g.

(** * Specification: the same areas at another depth *)
From Verif Require Import Base.Py Model.Geometry Model.Pocket.
Local Open Scope Qc_scope.
Local Open Scope list_scope.

Definition with_depth (d : Qc) (f : pathface) : pathface := PF (pf_outer f) (pf_inners f) d.
(** Whether a polygon contains another one does not depend on their depths. *)
Definition contains_flat (E : engine) : Prop := forall f g d, en_contains E (with_depth d f) (with_depth d g) = en_contains E f g.
(** A sequence of contours with one above [d]. *)
Definition over (d : Qc) (s : list pathface) : bool := existsb (fun f => qltb d (pf_depth f)) s.

(** * Specification: where the runs of a surface operation begin *)
From Verif Require Import Base.Str Spec.Paths Spec.Moves Spec.Surfaces Model.Geometry Model.Edges Model.Plane.
Local Open Scope Qc_scope.
Local Open Scope list_scope.

(** A point within the limit that is the first of its sequence or comes after one above the limit. *)
Definition starts_run (limit : Qc) (seqs : list (list vec)) (p : vec) : Prop :=
  vz p <= limit /\ exists l1 l2, In (l1 ++ p :: l2) seqs /\ (l1 = [] \/ exists l0 q, l1 = l0 ++ [q] /\ limit < vz q).

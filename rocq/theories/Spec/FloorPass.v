(** * Specification: passes that are copies of another one *)
From Verif Require Import Base.Py Model.Geometry Spec.Deeper.
Local Open Scope Qc_scope.
Local Open Scope list_scope.

(** [q] is one of the sequences [ss] at some height above it. *)
Definition raised (ss : list (list pathface)) (q : list pathface) : Prop :=
  exists q0 z, In q0 ss /\ q = map (with_depth z) q0 /\ forall f, In f q0 -> pf_depth f < z.

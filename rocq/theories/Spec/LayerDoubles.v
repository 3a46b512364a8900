(** * Bounding boxes in doubles *)
From Verif Require Import Base.Py Model.Float Spec.Doubles.
From Coq Require Import ZArith QArith Qabs.
Local Open Scope Q_scope.

(** Boxes of wires up to 2^21 from the plane are exact to 10^-4. *)
Definition good_box (zmin : f64 -> f64) : Prop :=
  forall x X, stands x X -> Qabs X <= pw 21 -> exists Y, stands (zmin x) Y /\ Qabs (Y - X) <= 1 # 10000.

(** * Orders of holes up to rounding *)
From Verif Require Import Base.Py Model.Geometry Model.Float Model.SegmentFloat Spec.Paths Spec.Doubles.
From Coq Require Import ZArith QArith Qcanon.
Local Open Scope Q_scope.
Local Open Scope list_scope.

(** A point given by numbers, and doubles that stand for it. *)
Definition qp (P : pt) : Q * Q := (this (fst P), this (snd P)).
Definition pt_stands (p : pt64) (P : pt) : Prop := pstands p (qp P).
(** Squared distances that are told apart by doubles for sure: by a 2^49th part. *)
Definition surely_nearer (A B C : pt) : Prop := (1 + pw (-49)) * sqdist (qp A) (qp B) + pw (-800) < sqdist (qp A) (qp C).
(** From every point, any two others are at surely different distances. *)
Definition well_apart (L : list pt) : Prop :=
  forall A B C, In A L -> In B L -> In C L -> B <> C -> surely_nearer A B C \/ surely_nearer A C B.
(** From [here], always to a point of those left that none of the others is surely nearer than. *)
Inductive nearly_first : pt -> path -> path -> Prop :=
| nearly_done here : nearly_first here [] []
| nearly_next here before p after order :
    ~ In p before ->
    (forall q, In q (before ++ after) -> ~ surely_nearer here q p) ->
    nearly_first p (before ++ after) order ->
    nearly_first here (before ++ p :: after) (p :: order).

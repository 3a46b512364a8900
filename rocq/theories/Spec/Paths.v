(** * Specification: plane paths *)
From Verif Require Import Base.Py Model.Geometry.
Local Open Scope Qc_scope.

(** The points of the segment from [a] to [b]. *)
Definition on_segment (c a b : pt) : Prop :=
  exists t : Qc, 0 <= t /\ t <= 1 /\
    c = ((1 - t) * fst a + t * fst b, (1 - t) * snd a + t * snd b).

(** Squared Euclidean distance. *)
Definition sqd (p q : pt) : Qc :=
  (fst q - fst p) * (fst q - fst p) + (snd q - snd p) * (snd q - snd p).

(** The directed edges of a path. *)
Fixpoint steps (p : path) : list (pt * pt) :=
  match p with
  | a :: (b :: _) as rest => (a, b) :: steps rest
  | _ => []
  end.

Definition on_path (c : pt) (p : path) : Prop := exists a b, In (a, b) (steps p) /\ on_segment c a b.
Definition proper (p : path) : Prop := forall a b, In (a, b) (steps p) -> a <> b.

(** A closed path ends where it starts. *)
Definition closed_path (p : path) : Prop := exists a l, p = a :: l /\ last p a = a.

(** [es] goes once round the path [p]: its edges in order from the start, or from an inner point
    [c] of one edge through all others back to [c]. *)
Definition tour (p : path) (es : list (pt * pt)) : Prop :=
  es = steps p \/
  exists before a b after c,
    steps p = before ++ (a, b) :: after /\ on_segment c a b /\
    es = (c, b) :: after ++ before ++ [(a, c)].

(** * Doubles as numbers *)
From Verif Require Import Model.Float Model.SegmentFloat.
From Coq Require Import ZArith QArith Qabs List.
Local Open Scope Q_scope.

(** [x] is a finite double standing for [X]. *)
Definition stands (x : f64) (X : Q) : Prop := exists q, f64_value x = Some q /\ q == X.
(** Powers of two, as numbers. *)
Definition pw (e : Z) : Q := (2 ^ e)%Q.

(** A [x ** 2] that is within one unit in the last place. *)
Definition good_square (sq : f64 -> f64) : Prop :=
  forall x X, stands x X -> Qabs X <= pw 400 ->
    exists Y, stands (sq x) Y /\ Qabs (Y - X * X) <= pw (-52) * (X * X) + pw (-1075).

(** Points of the plane. *)
Definition pstands (p : pt64) (P : Q * Q) : Prop := stands (fst p) (fst P) /\ stands (snd p) (snd P).
Definition box (M : Q) (P : Q * Q) : Prop := Qabs (fst P) <= M /\ Qabs (snd P) <= M.
(** Squared distance, and the points of the segment from [V] (t = 0) to [W] (t = 1). *)
Definition sqdist (P P' : Q * Q) : Q :=
  (fst P - fst P') * (fst P - fst P') + (snd P - snd P') * (snd P - snd P').
Definition along (V W : Q * Q) (t : Q) : Q * Q :=
  (fst V + t * (fst W - fst V), snd V + t * (snd W - snd V)).

(** [V] and [W] are the ends of segment [k] of a path. *)
Definition segment_of (L : list (Q * Q)) (k : nat) (V W : Q * Q) : Prop :=
  nth_error L k = Some V /\ nth_error L (S k) = Some W.

(** A count, as a number. *)
Definition kq (i : nat) : Q := inject_Z (Z.of_nat i).
(** A start depth: none is the surface. *)
Definition start_is (start_depth : option f64) (D : Q) : Prop :=
  match start_depth with None => D == 0 | Some d => stands d D end.

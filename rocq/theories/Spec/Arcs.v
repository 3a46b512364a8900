(** * Specification: comparing distances without square roots

    [root_le_plus a b tol] says sqrt a <= sqrt b + tol: every rational upper bound of sqrt b, plus
    [tol], is an upper bound of sqrt a. *)
From Verif Require Import Base.Num.
Local Open Scope Qc_scope.

Definition root_le_plus (a b tol : Qc) : Prop :=
  forall t : Qc, 0 <= t -> b <= t * t -> a <= (t + tol) * (t + tol).

Definition sq2 (x y : Qc) : Qc := x * x + y * y.

(** After a line, an axis is within 0.0005 of the value asked for, or untouched. *)
Definition axis_near (want : option Qc) (before after : option Qc) : Prop :=
  match want with
  | Some x => exists v, after = Some v /\ (qabs (v - x) <= qq 1 2000)%Qc
  | None => after = before
  end.


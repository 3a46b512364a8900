(** * Specification: Python's [repr] of a double *)
From Verif Require Import Base.Str Model.Address Model.Float Model.PrintFloat Spec.Doubles.
From Coq Require Import ZArith QArith Qabs.
Local Open Scope Q_scope.

(** The decimal [k / 10^p]; it has at most [n] significant digits. *)
Definition decimal (k : Z) (p : nat) : Q := inject_Z k / inject_Z (10 ^ Z.of_nat p).
Definition fits (k : Z) (n : nat) : Prop :=
  exists m j, k = (m * 10 ^ Z.of_nat j)%Z /\ (Z.abs m < 10 ^ Z.of_nat n)%Z.
(** The decimal (of a size below 2^971) is read as the double [y]. *)
Definition reads_as (k : Z) (p : nat) (y : f64) : Prop :=
  Qabs (decimal k p) < pw 971 /\ exists s Y, stands (decimal64 s k p) Y /\ stands y Y.
(** No decimal that is read as [y] has fewer digits. *)
Definition shortest (k : Z) (p : nat) (y : f64) : Prop :=
  reads_as k p y /\ forall k' p' n, reads_as k' p' y -> fits k' n -> fits k n.
(** [repr] of a double: a shortest decimal, in Python's notation.  (If there are several Python takes
    the nearest one; the theorems hold for any.) *)
Definition repr_is (y : f64) (s : string) : Prop := exists k p, shortest k p y /\ s = repr_float k p.

(** The text of a coordinate, address.py:131-135. *)
Definition coordinate_text (x : f64) (p : nat) (s : string) : Prop :=
  exists y, round64 x p = Some y /\
    match optimize64 y with Some iv => s = print_Z iv | None => repr_is y s end.

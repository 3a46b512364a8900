(** * Printing doubles: [round], [int], comparison and [str] behind address.py:131-135 *)
From Verif Require Import Base.Str Model.Address Model.Float Model.FloatSteps.
From Coq Require Import ZArith QArith SpecFloat.
Local Open Scope Z_scope.

(** The double nearest to [k / 10^p] (CPython's strtod is correctly rounded); a zero keeps the sign. *)
Definition decimal64 (sign : bool) (k : Z) (p : nat) : f64 :=
  match k with
  | Z0 => S754_zero sign
  | Zpos m => f64_div (S754_finite false m 0) (S754_finite false (Z.to_pos (pow10 p)) 0)
  | Zneg m => f64_div (S754_finite true m 0) (S754_finite false (Z.to_pos (pow10 p)) 0)
  end.
Definition f64_sign (x : f64) : bool :=
  match x with S754_zero s | S754_infinity s | S754_finite s _ _ => s | S754_nan => false end.

(** Python's [round(x, p)] (Objects/floatobject.c double_round): the exact value is rounded to [p]
    decimals, half to even, and the result is read back as a double.  None for infinities and nan
    (which [round] returns unchanged). *)
Definition round64 (x : f64) (p : nat) : option f64 :=
  match f64_value x with
  | Some q => Some (decimal64 (f64_sign x) (round_units (Q2Qc q) p) p)
  | None => None
  end.
(** utils/utils.py:392-395 [optimize_float]: the integer, if the double is one. *)
Definition optimize64 (y : f64) : option Z :=
  match f64_trunc y, f64_value y with
  | Some iv, Some q => if Qeq_bool q (inject_Z iv) then Some iv else None
  | _, _ => None
  end.

(** * Double precision: numpy.arange as used in /repo/src/cq_cam/operations/pocket.py:130-148

    IEEE 754 binary64 arithmetic is the executable specification of the standard library
    (Coq.Floats.SpecFloat), round to nearest even. *)
From Coq Require Import ZArith QArith Qround SpecFloat List.
Import ListNotations.
Local Open Scope Z_scope.

Definition f64 := spec_float.
Definition f64_opp : f64 -> f64 := SFopp.
Definition f64_add : f64 -> f64 -> f64 := SFadd 53 1024.
Definition f64_sub : f64 -> f64 -> f64 := SFsub 53 1024.
Definition f64_mul : f64 -> f64 -> f64 := SFmul 53 1024.
Definition f64_div : f64 -> f64 -> f64 := SFdiv 53 1024.

(** The number a finite double stands for. *)
Definition f64_value (x : f64) : option Q :=
  match x with
  | S754_zero _ => Some 0%Q
  | S754_finite s m e =>
      let v := if 0 <=? e then inject_Z (Zpos m * 2 ^ e) else Qmake (Zpos m) (Z.to_pos (2 ^ (- e))) in
      Some (if s then Qopp v else v)
  | _ => None
  end.

(** An integer that is exactly a double: the loop counter [i] of numpy's fill function. *)
Definition f64_of_nat (n : nat) : f64 :=
  match Z.of_nat n with
  | Zpos p => SpecFloat.binary_normalize 53 1024 (Zpos p) 0 false
  | _ => S754_zero false
  end.

(** numpy.arange: ceil((stop - start) / step) values; the first two are [start] and
    [start + step], the others [start + i * delta] with [delta = (start + step) - start]
    (numpy/core/src/multiarray/ctors.c PyArray_Arange, arraytypes.c DOUBLE_fill).
    Not a number and infinities give no values here (numpy raises ValueError). *)
Definition arange64 (start stop step : f64) : list f64 :=
  match f64_value (f64_div (f64_sub stop start) step) with
  | None => []
  | Some q =>
      let next := f64_add start step in
      let delta := f64_sub next start in
      map (fun i => match i with
                    | O => start
                    | 1%nat => next
                    | _ => f64_add start (f64_mul (f64_of_nat i) delta)
                    end) (seq 0 (Z.to_nat (Qceiling q)))
  end.

(** pocket.py:130-139: the depths of the intermediate passes. *)
Definition step_depths64 (start_depth : option f64) (stepdown end_depth : f64) : list f64 :=
  let start := match start_depth with None => f64_opp stepdown | Some d => f64_sub d stepdown end in
  arange64 start end_depth (f64_opp stepdown).

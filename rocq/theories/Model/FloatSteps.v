(** * Further progressions and counts in double precision *)
From Verif Require Import Base.Py Model.Float Model.SegmentFloat.
From Coq Require Import ZArith QArith Qround SpecFloat List.
Import ListNotations.
Local Open Scope list_scope.

(** op3d.py:114-124 with a stepdown that is not zero: cf. [surface_depths] of Model/Surface.v. *)
Definition surface_depths64 (top_height bottom stepdown : f64) : result (list f64) :=
  let depths := arange64 (f64_add top_height stepdown) bottom stepdown in
  match depths with
  | [] => Err IndexError
  | d :: ds => Ok (if SFeqb (last ds d) bottom then depths else depths ++ [bottom])
  end.

(** strategy.py:82-89: the heights of the scanlines; cf. [templates] of Model/Strategy.v.  The bounds are
    integers, which numpy converts. *)
Definition scan_heights64 (bottom top tool_diameter stepover : f64) : list f64 :=
  arange64 bottom top (f64_mul tool_diameter stepover).

(** strategy.py:142: [d < 0.0000001] for the squared distance of a scan point from a boundary segment. *)
Definition f64_1e_7 : f64 := S754_finite false 7555786372591432 (-76).
Definition on_boundary64 (sq : f64 -> f64) (p v w : pt64) : result bool :=
  do (d, _) <- dist_to_segment64 sq p v w; Ok (f64_ltb d f64_1e_7).

(** An integer as a double. *)
Definition f64_of_Z (z : Z) : f64 := SpecFloat.binary_normalize 53 1024 z 0 false.
(** Python's [int] of a finite double. *)
Definition f64_trunc (x : f64) : option Z :=
  match f64_value x with
  | Some q => Some (if Qle_bool 0 q then Qfloor q else Qceiling q)
  | None => None
  end.
(** interpolation.py:91-92 [edge_interpolation_count] of an edge of that length, for a precision that is
    not negative.  Infinities and nan (OverflowError, ValueError) give None. *)
Definition interpolation_count64 (length : f64) (precision : nat) : option Z :=
  option_map (fun n => Z.max n 2) (f64_trunc (f64_mul length (f64_of_Z (10 ^ Z.of_nat precision)))).

(** numpy.linspace(0, 1, n + 1)[i] for i < n, and linspace(0, 1, n, endpoint=False)[i]:
    [i * step + 0] with [step = 1 / n] (numpy/core/function_base.py). *)
Definition linspace64_at (n i : nat) : f64 :=
  f64_add (f64_mul (f64_of_nat i) (f64_div f64_one (f64_of_nat n))) f64_zero.
(** tabs.py:47-64: the ranges of the tabs of an edge with [count] tabs. *)
Definition f64_two : f64 := S754_finite false 4503599627370496 (-51).
Definition half_d64 (length width : f64) : f64 := f64_mul (f64_div f64_one length) (f64_div width f64_two).
Definition edge_tab_ranges64 (length width : f64) (count : nat) : list (f64 * f64) :=
  map (fun i => let d := linspace64_at (count + 1) i in
                (f64_sub d (half_d64 length width), f64_add d (half_d64 length width))) (seq 1 count).

(** tabs.py:85-101 [WireTabs.load_wire]: the ranges of the tabs of a wire, with the extra ranges of tabs
    across its ends; cf. [wire_tab_ds] of Model/Tabs.v. *)
Definition wire_tab_ranges64 (length width : f64) (count : nat) : list (f64 * f64) :=
  flat_map (fun i => let d := linspace64_at count i in
                     let lo := f64_sub d (half_d64 length width) in
                     let hi := f64_add d (half_d64 length width) in
                     (lo, hi) :: (if f64_ltb lo f64_zero then [(f64_add lo f64_one, f64_add hi f64_one)] else [])
                       ++ (if f64_ltb f64_one hi then [(f64_sub lo f64_one, f64_sub hi f64_one)] else [])) (seq 0 count).

(** op3d.py:71: the distances of the points put on a segment of length [l]. *)
Definition interpolation_steps64 (l step : f64) : list f64 := arange64 f64_zero l step.

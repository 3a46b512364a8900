(** * The order of holes in double precision: drill.py:57-69, strategy.py:21-30

    The same functions as in Model/Drill.v, with binary64 arithmetic.  [sq] is [x ** 2] as in
    Model/SegmentFloat.v. *)
From Verif Require Import Base.Py Model.Float Model.SegmentFloat.
From Coq Require Import ZArith QArith SpecFloat.
Local Open Scope list_scope.

(** Python's [==] on finite floats (0.0 == -0.0) and on pairs of them. *)
Definition f64_eqb (x y : f64) : bool :=
  match f64_value x, f64_value y with
  | Some a, Some b => Qeq_bool a b
  | _, _ => false
  end.
Definition pt64_eqb (p q : pt64) : bool := f64_eqb (fst p) (fst q) && f64_eqb (snd p) (snd q).

(** strategy.py:21-30 [_pick_nearest]; [cached_dist2] (utils.py:279-281) is [dist2]
    (the cache may answer for 0.0 when asked for -0.0: squares of differences do not tell them apart). *)
Fixpoint pick_from64 (sq : f64 -> f64) (point : pt64) (best : f64 * pt64) (options : list pt64) : pt64 :=
  match options with
  | [] => snd best
  | o :: options =>
      let d := dist2_64 sq point o in
      pick_from64 sq point (if f64_ltb d (fst best) then (d, o) else best) options
  end.
Definition pick_nearest64 (sq : f64 -> f64) (point : pt64) (options : list pt64) : result pt64 :=
  match options with
  | [] => Err IndexError
  | o :: options => Ok (pick_from64 sq point (dist2_64 sq point o, o) options)
  end.

(** drill.py:68: [drill_points.pop(drill_points.index(drill_point))] *)
Fixpoint find64 (p : pt64) (l : list pt64) : option nat :=
  match l with
  | [] => None
  | a :: l => if pt64_eqb a p then Some O else option_map S (find64 p l)
  end.
Definition remove64 (p : pt64) (l : list pt64) : result (list pt64) :=
  match find64 p l with Some i => Ok (firstn i l ++ skipn (S i) l) | None => Err ValueError end.

(** drill.py:60-69 *)
Fixpoint order_points64 (sq : f64 -> f64) (fuel : nat) (last_ : option pt64) (points : list pt64) : result (list pt64) :=
  match points with
  | [] => Ok []
  | p0 :: _ =>
      match fuel with
      | O => Err OutOfFuel
      | S fuel =>
          do p <- match last_ with Some l => pick_nearest64 sq l points | None => Ok p0 end;
          do rest <- remove64 p points;
          do order <- order_points64 sq fuel (Some p) rest;
          Ok (p :: order)
      end
  end.

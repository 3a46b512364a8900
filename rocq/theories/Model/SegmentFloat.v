(** * Nearest points in double precision: utils.py:275-295, geometry_op.py:264-283

    The same functions as in Model/Geometry.v, with binary64 arithmetic in the order in which Python
    evaluates them.  [sq] is [x ** 2], which is the C library's [pow]; unlike the basic operations it
    need not be correctly rounded. *)
From Verif Require Import Base.Py Model.Float.
From Coq Require Import ZArith QArith SpecFloat.
Local Open Scope list_scope.

(** Python's [<] and [== 0.0] on finite floats. *)
Definition f64_ltb (x y : f64) : bool :=
  match f64_value x, f64_value y with
  | Some a, Some b => negb (Qle_bool b a)
  | _, _ => false
  end.
Definition f64_is_zero (x : f64) : bool := match x with S754_zero _ => true | _ => false end.
Definition f64_zero : f64 := S754_zero false.
Definition f64_one : f64 := S754_finite false 4503599627370496 (-52).
Definition f64_min (x y : f64) : f64 := if f64_ltb y x then y else x.   (* Python min(x, y) *)
Definition f64_max (x y : f64) : f64 := if f64_ltb x y then y else x.   (* Python max(x, y) *)

Definition pt64 := (f64 * f64)%type.
(** utils.py:275-276 [dist2] *)
Definition dist2_64 (sq : f64 -> f64) (v w : pt64) : f64 :=
  f64_add (sq (f64_sub (fst v) (fst w))) (sq (f64_sub (snd v) (snd w))).
(** utils.py:284-295 [dist_to_segment_squared] *)
Definition dist_to_segment64 (sq : f64 -> f64) (p v w : pt64) : result (f64 * pt64) :=
  let l2 := dist2_64 sq v w in
  let n := f64_add (f64_mul (f64_sub (fst p) (fst v)) (f64_sub (fst w) (fst v)))
                   (f64_mul (f64_sub (snd p) (snd v)) (f64_sub (snd w) (snd v))) in
  if f64_is_zero l2 then Err ZeroDivisionError
  else
    let t := f64_div n l2 in
    let t := f64_max f64_zero (f64_min f64_one t) in
    let closest := (f64_add (fst v) (f64_mul t (f64_sub (fst w) (fst v))),
                    f64_add (snd v) (f64_mul t (f64_sub (snd w) (snd v)))) in
    Ok (dist2_64 sq p closest, closest).
(** geometry_op.py:264-283 [distance_to_path], without the parameter on the segment (nothing reads it). *)
Fixpoint distance_to_path64_from (sq : f64 -> f64) (i : nat) (p : pt64) (path : list pt64)
  (best : option (f64 * pt64 * nat)) : result (option (f64 * pt64 * nat)) :=
  match path with
  | a :: (b :: _) as rest =>
      do (sd, sc) <- dist_to_segment64 sq p a b;
      let better := match best with None => true | Some (d, _, _) => f64_ltb sd d end in
      distance_to_path64_from sq (S i) p rest (if better then Some (sd, sc, i) else best)
  | _ => Ok best
  end.
Definition distance_to_path64 (sq : f64 -> f64) (p : pt64) (path : list pt64) := distance_to_path64_from sq 0 p path None.

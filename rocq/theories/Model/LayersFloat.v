(** * Layers of a profile in double precision: profile.py:59-78

    For a flat wire at the height [z], all of it below the plane the code cuts with (line 71 then
    leaves it whole).  [zmin] is the lower end of the kernel's bounding box, which may add a tolerance. *)
From Verif Require Import Base.Py Model.Float Model.SegmentFloat Model.FloatSteps.
From Coq Require Import ZArith QArith SpecFloat.
Local Open Scope list_scope.

(** profile.py:70: [bb.zmin >= -0.001] *)
Definition f64_m0001 : f64 := S754_finite true 4611686018427388 (-62).
(** profile.py:59, 65: the height of layer [i]; the kernel adds the vector [step * (i + 1)] to every point. *)
Definition layer_z64 (z s : f64) (i : nat) : f64 := f64_add z (f64_mul s (f64_of_nat (S i))).
(** profile.py:61-78, cf. [layers_above] of Model/Profile.v. *)
Fixpoint layers64 (zmin : f64 -> f64) (max_count : Z) (z s : f64) (fuel i : nat) : result (list f64) :=
  match fuel with
  | O => Err OutOfFuel
  | S fuel =>
      if (max_count <? Z.of_nat i)%Z then Err RuntimeError
      else
        let layer := layer_z64 z s i in
        if negb (f64_ltb (zmin layer) f64_m0001) then Ok []
        else do more <- layers64 zmin max_count z s fuel (S i); Ok (layer :: more)
  end.
Definition profile_layers64 (zmin : f64 -> f64) (max_count : Z) (z s : f64) : result (list f64) :=
  layers64 zmin max_count z s (S (S (Z.to_nat max_count))) 0.

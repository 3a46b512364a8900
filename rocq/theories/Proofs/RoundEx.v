(** * Concrete doubles for the theorems on rounding *)
From Verif Require Import Base.Py Model.Float Model.SegmentFloat Model.FloatSteps Spec.Doubles.
From Coq Require Import ZArith QArith Qabs SpecFloat List.
Import ListNotations.
Local Open Scope Q_scope.
Local Open Scope list_scope.

(** 0.405, -0.405, -2.43 *)
Definition d0405 : f64 := (S754_finite false 7295831396340204 (-54)).
Definition d_0405 : f64 := (S754_finite true 7295831396340204 (-54)).
Definition d_243 : f64 := (S754_finite true 5471873547255153 (-51)).
Definition v0405 : Q := (1823957849085051 # 4503599627370496).
Definition v_243 : Q := (-5471873547255153 # 2251799813685248).
Lemma s0405 : stands d0405 v0405. Proof. eexists. split; [reflexivity|]. reflexivity. Qed.
Lemma s_0405 : stands d_0405 (- v0405). Proof. eexists. split; [reflexivity|]. reflexivity. Qed.
Lemma s_243 : stands d_243 v_243. Proof. eexists. split; [reflexivity|]. reflexivity. Qed.

(** The point (0.3, 0.1) and the segment from (-20, 2.5) to (10, 3.7) *)
Definition xp : pt64 := ((S754_finite false 5404319552844595 (-54)), (S754_finite false 7205759403792794 (-56))).
Definition xv : pt64 := ((S754_finite true 5629499534213120 (-48)), (S754_finite false 5629499534213120 (-51))).
Definition xw : pt64 := ((S754_finite false 5629499534213120 (-49)), (S754_finite false 8331659310635418 (-51))).
Definition XP : Q * Q := ((5404319552844595 # 18014398509481984), (3602879701896397 # 36028797018963968)).
Definition XV : Q * Q := ((-20 # 1), (5 # 2)).
Definition XW : Q * Q := ((10 # 1), (4165829655317709 # 1125899906842624)).
Lemma sxp : pstands xp XP. Proof. split; (eexists; split; [reflexivity|reflexivity]). Qed.
Lemma sxv : pstands xv XV. Proof. split; (eexists; split; [reflexivity|reflexivity]). Qed.
Lemma sxw : pstands xw XW. Proof. split; (eexists; split; [reflexivity|reflexivity]). Qed.
Definition by_mul (x : f64) : f64 := f64_mul x x.
(** The squared distance is 10.30046325878594, the nearest point (0.17172523961661312, 3.3068690095846645). *)
Definition xd : f64 := (S754_finite false 5798645311751481 (-49)).
Definition xc : pt64 := ((S754_finite false 6187053801179904 (-55)), (S754_finite false 7446407019664268 (-51))).
(** A point of that segment, rounded: (-11.0, 2.86). *)
Definition xm : pt64 := ((S754_finite true 6192449487634432 (-49)), (S754_finite false 6440147467139809 (-51))).
Definition XM : Q * Q := ((-11 # 1), (6440147467139809 # 2251799813685248)).
Lemma sxm : pstands xm XM. Proof. split; (eexists; split; [reflexivity|reflexivity]). Qed.
Definition three : f64 := (S754_finite false 6755399441055744 (-51)).
Definition vthree : Q := (3 # 1).
Lemma sthree : stands three vthree. Proof. eexists. split; [reflexivity|]. reflexivity. Qed.
Definition d08 : f64 := (S754_finite false 7205759403792794 (-53)).
Definition vd08 : Q := (3602879701896397 # 4503599627370496).
Lemma sd08 : stands d08 vd08. Proof. eexists. split; [reflexivity|]. reflexivity. Qed.
Definition d01 : f64 := (S754_finite false 7205759403792794 (-56)).
Definition vd01 : Q := (3602879701896397 # 36028797018963968).
Lemma sd01 : stands d01 vd01. Proof. eexists. split; [reflexivity|]. reflexivity. Qed.
Definition d254 : f64 := (S754_finite false 7149464408450662 (-48)).
Definition vd254 : Q := (3574732204225331 # 140737488355328).
Lemma sd254 : stands d254 vd254. Proof. eexists. split; [reflexivity|]. reflexivity. Qed.
Definition d100 : f64 := (S754_finite false 7036874417766400 (-46)).
Definition vd100 : Q := (100 # 1).
Lemma sd100 : stands d100 vd100. Proof. eexists. split; [reflexivity|]. reflexivity. Qed.
Definition d_20 : f64 := (S754_finite true 5629499534213120 (-48)).
Definition vd_20 : Q := (-20 # 1).
Lemma sd_20 : stands d_20 vd_20. Proof. eexists. split; [reflexivity|]. reflexivity. Qed.
Definition d333 : f64 := (S754_finite false 4686558362232422 (-47)).
Definition vd333 : Q := (2343279181116211 # 70368744177664).
Lemma sd333 : stands d333 vd333. Proof. eexists. split; [reflexivity|]. reflexivity. Qed.

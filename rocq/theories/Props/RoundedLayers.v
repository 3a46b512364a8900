(** * Layers of a profile in double precision: C137

    [stands x X]: the double [x] stands for the number [X]; [pw e] is 2^e, [kq] a count. *)
From Verif Require Import Base.Py Model.Float Model.SegmentFloat Model.FloatSteps Model.LayersFloat Spec.Doubles Spec.LayerDoubles
  Proofs.RoundEx Proofs.LayersFloatP.
From Coq Require Import ZArith QArith Qabs SpecFloat List.
Import ListNotations.
Local Open Scope Q_scope.
Local Open Scope list_scope.

(** ** C137: a stepdown that goes n times into the depth (up to half a thousandth) makes n layers: the wire
    itself and n - 1 above it, each where it belongs up to 2^-30; or more of them than allowed are refused. *)
Theorem C137_rounded_layers : forall zmin max z s Z0 S0 n,
  good_box zmin -> stands z Z0 -> stands s S0 -> 1 # 500 <= S0 -> Qabs Z0 <= pw 20 ->
  (1 <= n)%nat -> Qabs (Z0 + kq n * S0) <= 1 # 2000 ->
  ((Z.of_nat n <= max + 1)%Z -> exists l, profile_layers64 zmin max z s = Ok l /\ S (length l) = n /\
     forall i x, nth_error l i = Some x -> exists X, stands x X /\ Qabs (X - (Z0 + kq (S i) * S0)) <= pw (-30)) /\
  ((max + 1 < Z.of_nat n)%Z -> profile_layers64 zmin max z s = Err RuntimeError).
Proof. exact layers_divide. Qed.
Print Assumptions C137_rounded_layers.

(** 2.43 in steps of 0.405: six layers, where a pocket of that depth has a pass too many (C37_float_example). *)
Example C137_example : good_box (fun x => f64_sub x gap64) /\ stands d_243 v_243 /\ stands d0405 v0405 /\ 1 # 500 <= v0405 /\ Qabs v_243 <= pw 20 /\
  Qabs (v_243 + kq 6 * v0405) <= 1 # 2000 /\
  match profile_layers64 (fun x => f64_sub x gap64) 100 d_243 d0405 with Ok l => length l = 5%nat | Err _ => False end /\
  profile_layers64 (fun x => f64_sub x gap64) 4 d_243 d0405 = Err RuntimeError.
Proof. split; [exact gap_box|]. split; [exact s_243|]. split; [exact s0405|]. vm_compute; repeat split; discriminate. Qed.

(** * C100: the text of doubles

    [stands x X]: the double [x] stands for the number [X]; [decimal k p] is k/10^p. *)
From Verif Require Import Base.Str Spec.Gcode Spec.Blocks Model.Address Model.Float Model.PrintFloat Spec.Doubles Spec.Decimals
  Proofs.PrintFloatP.
From Coq Require Import ZArith QArith Qabs SpecFloat.
Local Open Scope string_scope.
Local Open Scope Q_scope.

(** [round], [optimize_float] and [str] on doubles print the text that [print_rounded] gives for the
    exact value, and nothing else, as long as it has at most 15 digits. *)
Theorem C100_coordinate_text : forall x X p s, stands x X -> (p <= 200)%nat -> (Z.abs (round_units (Q2Qc X) p) <= 10 ^ 15)%Z ->
  (coordinate_text x p s <-> s = print_rounded (Q2Qc X) p).
Proof. exact coordinate_text_ok. Qed.
Print Assumptions C100_coordinate_text.

(** The word printed for a double is read as a number at most half a unit of the last decimal away. *)
Theorem C100_accurate : forall c x X p s, letter_of c = Some c -> (p <= 4)%nat -> stands x X -> coord_in_range (Q2Qc X) p ->
  coordinate_text x p s ->
  exists v k, parse_line (String c s) = Some [W c v] /\
    (this v == decimal k p /\ Qabs (X - decimal k p) * inject_Z (10 ^ Z.of_nat p) <= 1#2)%Q.
Proof. exact double_accurate. Qed.
Print Assumptions C100_accurate.

(** Different decimals with at most 15 digits are read as different doubles. *)
Theorem C100_decimals_differ : forall k p k' p' y, k <> 0%Z -> (p <= 200)%nat -> fits k 15 -> fits k' 15 ->
  reads_as k p y -> reads_as k' p' y -> decimal k p == decimal k' p'.
Proof. exact decimals_differ. Qed.
Print Assumptions C100_decimals_differ.

(** round(2.675, 2) prints 2.67, since the double 2.675 is below that number; 0.1 + 0.2 prints 0.3,
    although it is another double than 0.3. *)
Example C100_example : exists X Y,
  stands x2675 X /\ X < 2675 # 1000 /\ coordinate_text x2675 2 "2.67" /\ (Z.abs (round_units (Q2Qc X) 2) <= 10 ^ 15)%Z /\
  stands x03 Y /\ ~ stands (decimal64 false 3 1) Y /\ coordinate_text x03 3 "0.3" /\ (Z.abs (round_units (Q2Qc Y) 3) <= 10 ^ 15)%Z.
Proof. exact print_examples. Qed.

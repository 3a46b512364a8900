(** * Concrete holes given by doubles *)
From Verif Require Import Base.Py Model.Geometry Model.Float Model.SegmentFloat Model.Drill Model.DrillFloat Spec.Paths Spec.Doubles Spec.HoleOrder Proofs.FloatStepsP Proofs.SegmentFloatP Proofs.RoundEx.
From Coq Require Import ZArith QArith Qcanon SpecFloat List.
Import ListNotations.
Local Open Scope Q_scope.
Local Open Scope list_scope.

Definition qcp (P : Q * Q) : pt := (Q2Qc (fst P), Q2Qc (snd P)).
(** (0.3, 0.1), (100, 25.4), (-20, 2.5), (10, 3.7), (-20, 2.5) again *)
Definition far_hole : pt64 := (d100, d254).
Definition hs : list pt64 := [xp; far_hole; xv; xw; xv].
Definition HS : path := [qcp XP; qcp (vd100, vd254); qcp XV; qcp XW; qcp XV].
Lemma hs_stand : Forall2 pt_stands hs HS.
Proof. repeat constructor; (eexists; split; [vm_compute; reflexivity|vm_compute; reflexivity]). Qed.
Lemma HS_box : Forall (fun X => box 100 (qp X)) HS.
Proof. repeat constructor; vm_compute; discriminate. Qed.
Lemma HS_apart : well_apart HS.
Proof.
  intros A B C HA HB HC N. unfold HS in HA, HB, HC. cbn [In] in HA, HB, HC.
  repeat match goal with H : _ \/ _ |- _ => destruct H as [H|H] end; try contradiction; rewrite <- HA, <- HB, <- HC in *; clear HA HB HC;
  first [exfalso; apply N; reflexivity|left; vm_compute; reflexivity|right; vm_compute; reflexivity].
Qed.
(** Holes at (0, 0), (1, 2^-30) and (1, 0): 1 + 2^-60 is rounded to 1. *)
Definition one64 : f64 := S754_finite false 4503599627370496 (-52).
Definition tiny64 : f64 := S754_finite false 4503599627370496 (-82).
Definition ties : list pt64 := [(f64_zero, f64_zero); (one64, tiny64); (one64, f64_zero)].
Definition TIES : path := [qcp (0, 0); qcp (1, pw (-30)); qcp (1, 0)].
Lemma ties_stand : Forall2 pt_stands ties TIES.
Proof. repeat constructor; (eexists; split; [vm_compute; reflexivity|vm_compute; reflexivity]). Qed.
Lemma TIES_box : Forall (fun X => box 1 (qp X)) TIES.
Proof. repeat constructor; vm_compute; discriminate. Qed.
Lemma ties_differ : exists sq M l L o O,
  good_square sq /\ M <= pw 100 /\ Forall2 pt_stands l L /\ Forall (fun X => box M (qp X)) L /\
  order_points64 sq (length l) None l = Ok o /\ order_points (length L) None L = Ok O /\ ~ Forall2 pt_stands o O.
Proof.
  exists by_mul, 1, ties, TIES, ties, [qcp (0, 0); qcp (1, 0); qcp (1, pw (-30))].
  split; [exact square_by_mul|]. split; [vm_compute; discriminate|]. split; [exact ties_stand|]. split; [exact TIES_box|]. split; [vm_compute; reflexivity|]. split; [vm_compute; reflexivity|].
  intros F. inversion F as [|? ? ? ? _ F2]; subst. inversion F2 as [|? ? ? ? [_ (X & E & Q)] _]; subst. cbn in E. assert (X == pw (-30)) by (assert (K : Some X = Some (4503599627370496 # 4835703278458516698824704)) by (rewrite <- E; vm_compute; reflexivity); injection K as ->; vm_compute; reflexivity).
  rewrite Q in H. vm_compute in H. discriminate.
Qed.

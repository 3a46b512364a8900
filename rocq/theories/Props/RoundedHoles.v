(** * Orders of holes in double precision: C136

    [pt_stands p P]: the pair of doubles [p] stands for the point [P]; [surely_nearer A B C]: as seen from [A],
    the point [B] is nearer than [C] by more than a 2^49th part. *)
From Verif Require Import Base.Py Model.Geometry Model.Float Model.SegmentFloat Model.Drill Model.DrillFloat
  Spec.Paths Spec.Doubles Spec.HoleOrder Proofs.FloatStepsP Proofs.RoundEx Proofs.HoleOrderP Proofs.HoleOrderEx.
From Coq Require Import ZArith QArith Qcanon SpecFloat List Permutation.
Import ListNotations.
Local Open Scope Q_scope.
Local Open Scope list_scope.

(** ** C136: each hole is visited once, and no hole left over is surely nearer than the one visited next. *)
Theorem C136_rounded_order : forall sq M p P l L,
  good_square sq -> M <= pw 100 -> Forall2 pt_stands (p :: l) (P :: L) -> Forall (fun X => box M (qp X)) (P :: L) ->
  exists o O, order_points64 sq (length (p :: l)) None (p :: l) = Ok o /\ Forall2 pt_stands o (P :: O) /\ Permutation O L /\ nearly_first P L O.
Proof. exact holes_nearly. Qed.
Print Assumptions C136_rounded_order.

(** Holes at surely different distances are visited in the order of exact arithmetic. *)
Theorem C136_same_order : forall sq M p P l L,
  good_square sq -> M <= pw 100 -> Forall2 pt_stands (p :: l) (P :: L) -> Forall (fun X => box M (qp X)) (P :: L) -> well_apart (P :: L) ->
  exists o O, order_points64 sq (length (p :: l)) None (p :: l) = Ok o /\ Forall2 pt_stands o O /\ order_points (length (P :: L)) None (P :: L) = Ok O.
Proof. exact holes_same. Qed.
Print Assumptions C136_same_order.

Example C136_example : good_square by_mul /\ Forall2 pt_stands hs HS /\ Forall (fun X => box 100 (qp X)) HS /\ 100 <= pw 100 /\ well_apart HS /\
  order_points64 by_mul 5 None hs = Ok [xp; xw; xv; xv; far_hole] /\
  order_points 5 None HS = Ok [qcp XP; qcp XW; qcp XV; qcp XV; qcp (vd100, vd254)].
Proof. split; [exact square_by_mul|]. split; [exact hs_stand|]. split; [exact HS_box|]. split; [vm_compute; discriminate|]. split; [exact HS_apart|]. split; vm_compute; reflexivity. Qed.

(** Without the last hypothesis the order may be another one: the second of two holes is nearer, but not in doubles. *)
Theorem C136_same_order_refuted : exists sq M l L o O,
  good_square sq /\ M <= pw 100 /\ Forall2 pt_stands l L /\ Forall (fun X => box M (qp X)) L /\
  order_points64 sq (length l) None l = Ok o /\ order_points (length L) None L = Ok O /\ ~ Forall2 pt_stands o O.
Proof. exact ties_differ. Qed.
Print Assumptions C136_same_order_refuted.

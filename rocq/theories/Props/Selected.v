(** * Property C147: the order in which areas are selected *)
From Verif Require Import Base.Str Base.Py Model.Geometry Model.Pocket Spec.Paths Spec.Moves Spec.Pockets Spec.Selected
  Proofs.RouteEx Proofs.PocketEx Proofs.TwiceP Proofs.SelectedP.
Import Model.Pocket.
From Coq Require Import Permutation.
Local Open Scope Qc_scope.
Local Open Scope list_scope.

(** ** C147 *)
(** Full statement: for all engines.  Missing (false, C147_order_refuted): engines that answer in the order
    they are asked. *)
Theorem C147_levels_partial : forall E, order_blind E -> forall ops ops' avoids avoids', Permutation ops ops' -> Permutation avoids avoids' ->
  build_pocket_ops E ops avoids = build_pocket_ops E ops' avoids'.
Proof. exact build_order. Qed.
Print Assumptions C147_levels_partial.
Theorem C147_program_partial : forall E, order_blind E -> forall fuel j areas areas' avoids avoids' oo io ao ai so sd cmds,
  Permutation areas areas' -> Permutation avoids avoids' ->
  pocket_clipper E fuel j areas avoids oo io ao ai so sd = Ok cmds -> pocket_clipper E fuel j areas' avoids' oo io ao ai so sd = Ok cmds.
Proof. exact pocket_order. Qed.
Print Assumptions C147_program_partial.
(** Whatever the order of the answers, the same points are machined (conditions on holes: C35). *)
Theorem C147_points_partial : forall E q ops ops' avoids avoids' r r', right_at E q ->
  (forall ss t, en_union E ss [] = Ok t -> tree_at q t /\ forall n m, In n t -> In m (children n) -> inside q (contour m) = false) ->
  (forall ss cs t, en_difference E ss cs = Ok t -> tree_at q t /\ two_levels t) ->
  Permutation ops ops' -> Permutation avoids avoids' -> build_pocket_ops E ops avoids = Ok r -> build_pocket_ops E ops' avoids' = Ok r' ->
  forall d, machined q (at_depth d r) <-> machined q (at_depth d r').
Proof. exact points_order. Qed.
Print Assumptions C147_points_partial.

Theorem C147_order_refuted : exists E ops ops' r r', (forall q, right_at E q) /\ Permutation ops ops' /\
  build_pocket_ops E ops [] = Ok r /\ build_pocket_ops E ops' [] = Ok r' /\ r <> r'.
Proof. exact order_matters. Qed.
Print Assumptions C147_order_refuted.

(** Two areas and two areas to avoid. *)
Example C147_example : order_blind blind_engine /\
  match pocket_clipper blind_engine 4 ex_job [twice_area; other_area] [first_avoid; twice_avoid] 0 0 0 0 1 None with
  | Ok cmds => Nat.ltb 10 (length cmds) | Err _ => false end = true.
Proof. split; [exact blind_blind|exact blind_pocket]. Qed.

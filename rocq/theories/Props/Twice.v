(** * Property C146: areas given more than once *)
From Verif Require Import Base.Str Base.Py Model.Geometry Model.Pocket Spec.Paths Spec.Moves Spec.Pockets Spec.Selected
  Proofs.RouteEx Proofs.PocketEx Proofs.TwiceP.
Import Model.Pocket.
Local Open Scope Qc_scope.
Local Open Scope list_scope.

(** ** C146 *)
(** Full statement: giving areas (or areas to avoid) again, any number of times, makes no difference.
    Missing (false in the code, see the refutations): an even number of times. *)
Theorem C146_odd_partial : forall E q, right_at E q ->
  (forall ss t, en_union E ss [] = Ok t -> tree_at q t /\ forall n m, In n t -> In m (children n) -> inside q (contour m) = false) ->
  (forall ss cs t, en_difference E ss cs = Ok t -> tree_at q t /\ two_levels t) ->
  forall k k' ops avoids more amore r r', Nat.Odd k -> Nat.Odd k' -> build_pocket_ops E (ops ++ more) (avoids ++ amore) = Ok r ->
  build_pocket_ops E (ops ++ concat (repeat more k)) (avoids ++ concat (repeat amore k')) = Ok r' ->
  forall d, machined q (at_depth d r') <-> machined q (at_depth d r).
Proof. exact odd_times_built. Qed.
Print Assumptions C146_odd_partial.
(** What the code does instead: areas given an even number of times count as not given, as do areas to
    avoid. *)
Theorem C146_even_partial : forall E q, right_at E q ->
  (forall ss t, en_union E ss [] = Ok t -> tree_at q t /\ forall n m, In n t -> In m (children n) -> inside q (contour m) = false) ->
  (forall ss cs t, en_difference E ss cs = Ok t -> tree_at q t /\ two_levels t) ->
  forall k k' ops avoids more amore r r', Nat.Even k -> Nat.Even k' -> build_pocket_ops E ops avoids = Ok r ->
  build_pocket_ops E (ops ++ concat (repeat more k)) (avoids ++ concat (repeat amore k')) = Ok r' ->
  forall f, In f ops -> (machined q (at_depth (pf_depth f) r') <-> machined q (at_depth (pf_depth f) r)).
Proof. exact even_times_built. Qed.
Print Assumptions C146_even_partial.

(** An area given twice beside another one is not machined. *)
Theorem C146_area_refuted : exists E f g q r r', (forall q', right_at E q') /\ inside q (pf_outer f) = true /\
  build_pocket_ops E [g; f] [] = Ok r /\ machined q r /\ build_pocket_ops E [g; f; f] [] = Ok r' /\ ~ machined q r'.
Proof. exact area_twice. Qed.
Print Assumptions C146_area_refuted.
(** An area to avoid given twice is machined. *)
Theorem C146_avoid_refuted : exists E f a q r r', (forall q', right_at E q') /\ inside q (pf_outer a) = true /\ pf_depth f <= pf_depth a /\
  build_pocket_ops E [f] [a] = Ok r /\ ~ machined q r /\ build_pocket_ops E [f] [a; a] = Ok r' /\ machined q r'.
Proof. exact avoid_twice. Qed.
Print Assumptions C146_avoid_refuted.

Example C146_example : (forall q, right_at twice_engine q /\
    (forall ss t, en_union twice_engine ss [] = Ok t -> tree_at q t /\ forall n m, In n t -> In m (children n) -> inside q (contour m) = false) /\
    (forall ss cs t, en_difference twice_engine ss cs = Ok t -> tree_at q t /\ two_levels t)) /\
  exists r, build_pocket_ops twice_engine [other_area; twice_area] [] = Ok r /\
    build_pocket_ops twice_engine [other_area; twice_area; twice_area; twice_area] [] = Ok r /\ machinedb (zp 3 3) r = true.
Proof. split; [intros q; split; [apply twice_right|apply twice_trees]|exact area_thrice]. Qed.

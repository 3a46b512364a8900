(** * Profiles of turned and mirrored work (C143) *)
From Verif Require Import Base.Str Base.Py Model.Groups Model.Geometry Model.Plane Model.Edges Model.Command Model.Job Model.Routers Model.Tabs Model.Profile
  Spec.Turn Spec.TurnWire Proofs.TurnWireP Proofs.RouteEx Proofs.ShiftKernelEx Proofs.TurnEx Proofs.TurnWireEx.
Local Open Scope Qc_scope.
Local Open Scope list_scope.

(** ** C143 *)
(** Wires turned about or mirrored are routed in the same order, linked at the same corners, with
    turned moves; mirrored arcs go the other way round. *)
Theorem C143_wires : forall T o, turns T o -> forall K, kernel_turns T o K -> forall j ws so pp,
  route_wires K j (map (turn_wire T o) ws) so (option_map (turn_avec T) pp) = rmap (map (turn_move T o)) (route_wires K j ws so pp).
Proof. exact wires_turned. Qed.
Print Assumptions C143_wires.
(** Profiles, with layers and tabs. *)
Theorem C143_profile : forall T o, turns T o -> forall K TK WK j given, kernel_turns T o K -> tab_kernel_turns T o TK -> wire_kernel_turns T o WK (j_top j) given ->
  forall outers inners oo io sd t,
  profile_gen K TK WK (map given outers) (map given inners) oo io sd t j = rmap (map (turn_order T o)) (profile_gen K TK WK outers inners oo io sd t j).
Proof. exact profile_gen_turned. Qed.
Print Assumptions C143_profile.
Theorem C143_wire_profile : forall T o, turns T o -> forall K TK WK j given, kernel_turns T o K -> tab_kernel_turns T o TK -> wire_kernel_turns T o WK (j_top j) given ->
  forall ws r sd t,
  wire_profile_gen K TK WK (map given ws) r sd t j = rmap (map (turn_order T o)) (wire_profile_gen K TK WK ws r sd t j).
Proof. exact wire_profile_turned. Qed.
Print Assumptions C143_wire_profile.
(** The direction found for an arc: the other one in a mirror, and no direction if there was none. *)
Theorem C143_clockwise : forall T o, turns T o -> forall e, is_arc_clockwise2 (turn_edge T o e) = rmap (xorb (mirrored o)) (is_arc_clockwise2 e).
Proof. exact clockwise_turned. Qed.
Print Assumptions C143_clockwise.
Example C143_example : turns turn345 1 /\ turns flipped (-(1)) /\ (forall T o, turns T o -> kernel_turns T o near_kernel) /\
  (forall T o, tab_kernel_turns T o chord_kernel) /\ (forall T o top, wire_kernel_turns T o stay_wk top (map (turn_edge T o))) /\
  count_of (turned_profile half_disc) = Some 38%nat /\
  arc_ways (turned_profile half_disc) = [false; false; false] /\
  arc_ways (turned_profile (map (turn_edge flipped (-(1))) half_disc)) = [true; true; true].
Proof. exact ex_mirror. Qed.

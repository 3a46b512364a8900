(** Examples for Props/Comments.v. *)
From Verif Require Import Base.Str Base.Py Spec.Gcode Spec.Program Spec.Axes Spec.Paths Spec.Wires Spec.Moves Spec.Comments
  Model.Groups Model.Geometry Model.Plane Model.Command Model.Edges Model.Job Model.Routers Proofs.RouteEx Proofs.AxesEx.
Local Open Scope Qc_scope.
Local Open Scope list_scope.

Lemma two_comments : (exists j, hget two_heap 3%nat = Some j /\ job_printable two_heap j) /\
  (match to_gcode two_heap 3%nat with Ok s => comments s | Err _ => [] end) =
    ["part - Feedrate: 80 - Unit: Unit.METRIC"; "part - Profile"; "part - Tool Change"; "part - Drill"]%string.
Proof. split; [destruct two_printable as (j & A & B & _); eauto|vm_compute; reflexivity]. Qed.

Lemma circle_vertical : exists K e ms p m, edge_sound e /\ vertical_edge e = true /\ route_edge K e 3 None None true None = Ok (ms, p) /\ In m ms /\ ~ vertical m.
Proof.
  exists K0, (circle 1 true 3 4 (-1)).
  destruct (route_edge K0 (circle 1 true 3 4 (-1)) 3 None None true None) as [[ms p]|] eqn:E; [|exfalso; vm_compute in E; discriminate].
  assert (X : match route_edge K0 (circle 1 true 3 4 (-1)) 3 None None true None with
              | Ok (ms, _) => existsb (fun m => match ay (m_end m), ay (m_start m) with Some a, Some b => negb (qeqb a b) | _, _ => false end) ms
              | Err _ => false end = true) by (vm_compute; reflexivity).
  rewrite E in X. apply existsb_exists in X as (m & Hm & X). exists ms, p, m. split; [exact circle_sound|]. split; [vm_compute; reflexivity|]. split; [reflexivity|]. split; [exact Hm|].
  intros [_ C]. rewrite C in X. destruct (ay (m_start m)) as [a|]; [|discriminate]. apply negb_true_iff, qeqb_neq in X. apply X. reflexivity.
Qed.
Definition standing : edge := line 1 true (zv 3 4 0) (zv 3 4 (-2)).
Lemma standing_example : e_geom standing = GLINE /\ vertical_edge standing = true /\ vertical_edge (line 1 true (zv 3 4 0) (zv 3 5 0)) = false /\
  exists ms p, route_edge K0 standing 3 None None true None = Ok (ms, p).
Proof. split; [reflexivity|]. split; [vm_compute; reflexivity|]. split; [vm_compute; reflexivity|]. eexists _, _. reflexivity. Qed.

(** The polygons of wires (C70). *)
From Verif Require Import Base.Py Spec.Paths Spec.Wires Spec.Clippers Model.Geometry Model.Edges Model.Strategy Model.Contour Proofs.RouteEx Proofs.TracedEx Proofs.ClipperEx.
Local Open Scope Qc_scope.
Local Open Scope list_scope.

Lemma wire_polygon es : (forall x, flatten_edges es = Err x -> forall closed, add_wire es closed = Err x) /\
  (forall vs, flatten_edges es = Ok vs -> add_wire es true = Ok (map (fun v => (vx v, vy v)) vs) /\
     (vs = [] -> add_wire es false = Err IndexError) /\
     (forall v rest, vs = v :: rest -> add_wire es false = Ok (map (fun v => (vx v, vy v)) vs ++ [(vx v, vy v)]))).
Proof.
  unfold add_wire. split.
  - intros x E closed. rewrite E. reflexivity.
  - intros vs E. rewrite E. split; [reflexivity|]. split; [intros ->; reflexivity|]. intros v rest ->. reflexivity.
Qed.
Lemma open_start_lost : exists a b p, edge_sound a /\ edge_sound b /\ e_geom a = GLINE /\ e_geom b = GLINE /\ travel_end a = travel_start b /\ travel_start a <> travel_end b /\
  add_wire [a; b] false = Ok p /\ ~ In (vx (travel_start a), vy (travel_start a)) p.
Proof.
  exists (line 1 false (zv 0 0 0) (zv 5 0 0)), (line 2 false (zv 5 0 0) (zv 5 5 0)), [(qz 5, qz 0); (qz 5, qz 5); (qz 5, qz 0)].
  split; [apply line_sound|]. split; [apply line_sound|]. do 3 (split; [reflexivity|]).
  split; [intros E; apply (f_equal vx) in E; discriminate E|]. split; [reflexivity|]. cbn [In]. intros [E|[E|[E|[]]]]; apply (f_equal fst) in E; discriminate E.
Qed.

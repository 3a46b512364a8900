(** * Theorems about sampling curves and wires (C60, C61) *)
From Verif Require Import Base.Str Base.Py Model.Geometry Model.Interp Spec.Paths Spec.Wires Spec.Curves Proofs.RouteEx Proofs.InterpP.
Local Open Scope Qc_scope.
Local Open Scope list_scope.

(** ** C60 *)
(** The samples lie at equal steps of arc length, in travel direction, from one end to the other. *)
Theorem C60_evenly_sampled : forall e p,
  sampled_in e (edge_interpolation_count e p - 1) (interpolate_edge_to_vectors e p).
Proof. exact interpolate_sampled. Qed.
Print Assumptions C60_evenly_sampled.

(** The step is below three times the resolution; it respects the resolution itself only for
    curves shorter than that. *)
Theorem C60_spacing : forall e p, 0 <= e_length e ->
  let n := (edge_interpolation_count e p - 1)%nat in
  (1 <= n)%nat /\ e_length e / qz (Z.of_nat n) < qz 3 * resolution p /\
  (e_length e / qz (Z.of_nat n) <= resolution p <-> e_length e <= resolution p).
Proof. exact spacing_bound. Qed.
Print Assumptions C60_spacing.

Example C60_example :
  let e := parabola 3 true in
  length (interpolate_edge_to_vectors e 1) = edge_interpolation_count e 1 /\
  map (fun v => qfloor (qz 100 * vx v)) (firstn 3 (interpolate_edge_to_vectors e 1)) =
  map (fun v => qfloor (qz 100 * vx v)) [travel_pos e 0; travel_pos e (/ qz (Z.of_nat (edge_interpolation_count e 1 - 1)));
     travel_pos e (qz 2 / qz (Z.of_nat (edge_interpolation_count e 1 - 1)))] /\
  0 <= e_length e /\ (3 < edge_interpolation_count e 1)%nat.
Proof. vm_compute. repeat split; try discriminate; repeat constructor. Qed.

(** ** C61 *)
Theorem C61_edge_samples : forall basis e p vs,
  edge_to_vectors basis e p = Ok vs -> edge_points basis p e vs.
Proof. exact edge_vectors_spec. Qed.
Print Assumptions C61_edge_samples.

(** Closed outlines: the segments are those of the samples of the edges, one edge after the other,
    and a closing segment exactly when the two ends differ. *)
Theorem C61_closed_outline : forall veq basis es p vs,
  wire_to_vectors veq basis es p true = Ok vs -> es <> [] ->
  (forall e, In e es -> edge_sound e) -> connected es ->
  exists samples closing, Forall2 (edge_points basis p) es samples /\
    pairs vs = concat (map pairs samples) ++ closing /\
    (forall e, veq (travel_start (hd e es)) (travel_end (last es e)) = true -> closing = []) /\
    (forall e, veq (travel_start (hd e es)) (travel_end (last es e)) = false ->
       closing = [(travel_end (last es e), travel_start (hd e es))]).
Proof. exact wire_closed. Qed.
Print Assumptions C61_closed_outline.

Theorem C61_outline_closed : forall veq basis es p vs v, (forall x, veq x x = true) ->
  wire_to_vectors veq basis es p true = Ok vs -> es <> [] ->
  exists v0, hd_error vs = Some v0 /\ veq v0 (last vs v) = true.
Proof. exact wire_is_closed. Qed.
Print Assumptions C61_outline_closed.

(** Open outlines: the same segments, without the last one when the wire is a loop. *)
Theorem C61_open_outline : forall veq basis es p vs,
  wire_to_vectors veq basis es p false = Ok vs -> es <> [] ->
  (forall e, In e es -> edge_sound e) -> connected es ->
  exists samples closing, Forall2 (edge_points basis p) es samples /\
    pairs vs ++ closing = concat (map pairs samples) /\
    (forall e, veq (travel_start (hd e es)) (travel_end (last es e)) = false -> closing = []) /\
    (forall e, veq (travel_start (hd e es)) (travel_end (last es e)) = true ->
       closing = [(last vs (travel_start (hd e es)), travel_end (last es e))]).
Proof. exact wire_open. Qed.
Print Assumptions C61_open_outline.

(** The only failure is an offset curve over a curve of unknown type. *)
Theorem C61_errors : forall veq basis es p close x,
  wire_to_vectors veq basis es p close = Err x ->
  exists e, In e es /\ e_geom e = GOFFSET /\ basis e = Err x.
Proof. exact wire_vectors_err. Qed.
Print Assumptions C61_errors.

Theorem C61_path : forall veq basis es p q,
  wire_to_path veq basis es p = Ok q <->
  exists vs, wire_to_vectors veq basis es p true = Ok vs /\ q = map (fun v => (vx v, vy v)) vs.
Proof. exact wire_path_spec. Qed.
Print Assumptions C61_path.

(** Two lines, one of them reversed, around a corner; closing them adds the diagonal. *)
Definition corner : list edge := [line 1 false (zv 0 0 0) (zv 3 0 0); line 2 true (zv 3 3 0) (zv 3 0 0)].
Definition floors (r : result (list vec)) : list (Z * Z) :=
  match r with Ok vs => map (fun v => (qfloor (vx v), qfloor (vy v))) vs | Err _ => [] end.
Example C61_example :
  floors (wire_to_vectors vec_eqb (fun _ => Err KeyError) corner 1 true) = [(0, 0); (3, 0); (3, 3); (0, 0)]%Z /\
  floors (wire_to_vectors vec_eqb (fun _ => Err KeyError) corner 1 false) = [(0, 0); (3, 0); (3, 3)]%Z /\
  connected corner /\ (forall e, In e corner -> edge_sound e).
Proof.
  split; [vm_compute; reflexivity|]. split; [vm_compute; reflexivity|]. split; [split; [reflexivity|exact I]|].
  intros e [<-|[<-|[]]]; (repeat split; try discriminate); cbn; unfold mix; cbn; f_equal; apply Qc_is_canon; reflexivity.
Qed.

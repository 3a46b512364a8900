(** * Specification: wires linked by short cuts, on the machine *)
From Verif Require Import Base.Str Base.Py Spec.Gcode Spec.Blocks Spec.Machine Spec.Wires Spec.Curves Spec.Arcs Spec.Traced
  Model.Geometry Model.Edges Model.Job Model.Routers.
Local Open Scope Qc_scope.
Local Open Scope list_scope.

(** The parameters where the way along an edge starts and ends. *)
Definition first_param (e : edge) : Qc := if e_reversed e then e_param1 e else e_param0 e.
Definition last_param (e : edge) : Qc := if e_reversed e then e_param0 e else e_param1 e.
(** Part of a straight or circular edge, from one parameter to another. *)
Definition part_shape (K : kernel) (e : edge) (a b : Qc) (es : list event) : Prop :=
  match e_geom e with
  | GLINE => exists ev, es = [ev] /\ ev_kind ev = GLinear
  | GARC | GCIRCLE =>
      if e_closed e then exists x y, es = [x; y] /\ arc_made e x /\ arc_made e y /\ stands_at (e_param e ((a + b) / qz 2)) (ev_to x)
      else if k_veq K (e_param e a) (e_param e b) then exists ev, es = [ev] /\ ev_kind ev = GLinear
      else exists x, es = [x] /\ arc_made e x
  | _ => False
  end.
Definition part_traced (K : kernel) (feed : pynum) (e : edge) (a b : Qc) (es : list event) : Prop :=
  Forall (feeds_at feed) es /\
  (exists first rest, es = first :: rest /\ stands_at (e_param e a) (ev_from first)) /\
  (exists front final, es = front ++ [final] /\ stands_at (e_param e b) (ev_to final)) /\
  part_shape K e a b es.

(** The moves of a wire.  Either the tool comes down from the safe height and goes along every edge;
    or it is fed straight over from where the last wire ended, [u], to the place the kernel answered:
    to the start of an edge, and along all edges from there; or into an edge, along the rest of that
    edge, all others in order, and the first part of that edge. *)
Definition wire_visited (K : kernel) (so : option Qc) (safe : Qc) (plunge_feed feed : pynum) (w : wire) (es : list event) : Prop :=
  wire_traced K safe plunge_feed feed (wire_edges w) es \/
  exists s u d t link e rest, so = Some s /\ d <> 0 /\ d <= s /\ k_nearest K u w = Some (d, t) /\
    ev_kind link = GLinear /\ feeds_at feed link /\ stands_at u (ev_from link) /\ rotation (wire_edges w) (e :: rest) /\
    match t with
    | TVertex v => k_veq K (travel_start e) v = true /\ stands_at (travel_start e) (ev_to link) /\
        exists bodies, es = link :: concat bodies /\ Forall2 (edge_traced K feed) (e :: rest) bodies
    | TEdge id p => e_id e = id /\ stands_at (e_param e p) (ev_to link) /\
        exists head bodies tail, es = link :: head ++ concat bodies ++ tail /\
          part_traced K feed e p (last_param e) head /\ Forall2 (edge_traced K feed) rest bodies /\ part_traced K feed e (first_param e) p tail
    end.
(** Answers inside an edge are in the range of that edge. *)
Definition answers_in_range (K : kernel) (w : wire) : Prop :=
  forall u d id p e, k_nearest K u w = Some (d, TEdge id p) -> In e (wire_edges w) -> e_id e = id -> e_param0 e <= p /\ p <= e_param1 e.
(** Closed wires below the safe height for which the kernel answers as the code expects. *)
Definition linkable (K : kernel) (so : option Qc) (safe : Qc) (w : wire) : Prop :=
  wire_edges w <> [] /\ (forall e, In e (wire_edges w) -> edge_sound e) /\ loop (wire_edges w) /\ (forall e rest, wire_edges w = e :: rest -> vz (travel_start e) < safe) /\
  (forall u, good_answer so w (k_nearest K u w)) /\ answers_in_range K w.

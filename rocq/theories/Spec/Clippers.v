(** * Specification: the clipper, scanlines and shrinking contours *)
From Verif Require Import Base.Py Spec.Paths Spec.Wires Model.Geometry Model.Edges Model.Strategy Model.Contour.
Local Open Scope Qc_scope.
Local Open Scope list_scope.

(** ** Flattened wires *)
(** [n] points at equal distances along the way, the last one at its end. *)
Definition evenly (e : edge) (n : nat) (vs : list vec) : Prop :=
  vs = map (fun k => travel_pos e (qz (Z.of_nat k) / qz (Z.of_nat n))) (seq 1 n).
(** The edge types the flattening knows. *)
Definition flat_type (e : edge) : Prop :=
  e_geom e = GLINE \/ e_geom e = GARC \/ e_geom e = GCIRCLE \/ e_geom e = GOFFSET.
(** An edge and its points: the end of a line; points at most [d] of arc length apart on a curve. *)
Definition flattened (d : Qc) (e : edge) (vs : list vec) : Prop :=
  (e_geom e = GLINE /\ vs = [travel_end e]) \/
  (e_geom e <> GLINE /\ exists n, evenly e (S n) vs /\ e_length e / qz (Z.of_nat (S n)) <= d).
Definition curved (e : edge) : Prop := e_geom e = GARC \/ e_geom e = GCIRCLE \/ e_geom e = GOFFSET.
(** A line, or a curve that is not reversed and not short. *)
Definition plain (e : edge) : Prop := e_geom e = GLINE \/ (curved e /\ e_reversed e = false /\ qq 1 10 < e_length e).

(** ** A history of one clipper *)
Inductive clip_op := OAdd (p : cpath) (cache : bool) | OReset.
Fixpoint run_ops (X : clip_engine) (c : wire_clipper) (ops : list clip_op) : result wire_clipper :=
  match ops with
  | [] => Ok c
  | OAdd p cache :: ops => do c <- add_path X c p cache; run_ops X c ops
  | OReset :: ops => do c <- reset X c; run_ops X c ops
  end.
Definition added (ops : list clip_op) : list cpath :=
  flat_map (fun o => match o with OAdd p _ => [p] | OReset => [] end) ops.
(** Clips added with [cache]. *)
Definition kept (ops : list clip_op) : list cpath :=
  flat_map (fun o => match o with OAdd (CP p PT_CLIP c) true => [CP p PT_CLIP c] | _ => [] end) ops.

(** ** Bounds *)
(** The engine's bounds contain every point it was given. *)
Definition bounds_contain (X : clip_engine) : Prop := forall ps l t r b, ce_bounds X ps = (l, t, r, b) ->
  forall p q, In p ps -> In q (cp_points p) ->
    (l <= fst q <= r)%Z /\ ((t <= snd q <= b)%Z \/ (b <= snd q <= t)%Z).
(** Lengths are not too short. *)
Definition long_enough (len : Qc -> Qc -> Qc) : Prop := forall x y, 0 <= len x y /\ x * x + y * y <= len x y * len x y.
(** The point [q] turned about [o]; [c] and [s] are cosine and sine. *)
Definition turned (c s : Qc) (o q : pt) : pt :=
  (fst o + (c * (fst q - fst o) - s * (snd q - snd o)), snd o + (s * (fst q - fst o) + c * (snd q - snd o))).
Definition in_box (x0 y0 x1 y1 : Qc) (q : pt) : Prop := x0 <= fst q /\ fst q <= x1 /\ y0 <= snd q /\ snd q <= y1.
Definition middle (b : Qc * Qc * Qc * Qc) : pt :=
  let '(l, t, r, b) := b in ((l + r) / qz 2, (t + b) / qz 2).

(** ** Shrinking *)
(** All wires made from [ws] by repeated shrinking, the larger ones first. *)
Inductive shrinks {W} (off : W -> list W -> Prop) : list W -> list W -> Prop :=
| shrinks_end : shrinks off [] []
| shrinks_on ws kids rest : Forall2 off ws kids -> shrinks off (concat kids) rest -> shrinks off ws (concat kids ++ rest).
(** One step; a wire that cannot be offset gives nothing. *)
Definition offset_once (K : contour_kernel) (step : Qc) (w : ck_wire K) (ws : list (ck_wire K)) : Prop :=
  ck_offset2D K w step = Ok ws \/ (ck_offset2D K w step = Err ValueError /\ ws = []).
(** The path a wire is given to the engine as. *)
Definition wire_path (K : contour_kernel) (t : path_type) (w : ck_wire K) (p : cpath) : Prop :=
  exists polygon, add_wire (ck_edges K w) (ck_closed K w) = Ok polygon /\ p = CP (to_clipper polygon) t (ck_closed K w).
(** A loop of the engine, with its first point repeated. *)
Definition looped (z : zpath) (p : path) : Prop := exists a l, from_clipper z = a :: l /\ p = (a :: l) ++ [a].

(** ** The WireClipper as the clipper argument of [zig_zag] (Model/Strategy.v) *)
Definition clip_of (p : path) : cpath := CP (to_clipper p) PT_CLIP true.
Definition scan_of (p : path) : cpath := CP (to_clipper p) PT_SUBJECT false.
Definition clipper_for (X : clip_engine) (len : Qc -> Qc -> Qc) : zig_clipper :=
  ZC (fun ps => if forallb (ce_valid X) (map clip_of ps) then Ok (max_bounds X len (WC (map clip_of ps) [])) else Err KernelError)
     (fun ps ts => if forallb (ce_valid X) (map clip_of ps ++ map scan_of ts)
                   then execute X (WC (map clip_of ps ++ map scan_of ts) []) CT_INTERSECTION else Err KernelError).
Definition closed_boundary (b : boundary) : Prop := match b with BWire _ closed => closed = true | BPolygon _ => True end.

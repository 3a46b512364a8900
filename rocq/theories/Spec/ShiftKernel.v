(** * Kernels whose answers about moved things are moved *)
From Verif Require Import Base.Py Model.Geometry Model.Plane Model.Edges Model.Tabs Model.Profile Model.Strategy Model.Surface Spec.Shift.
Local Open Scope Qc_scope.
Local Open Scope list_scope.

Notation move_edges d := (map (move_edge d)).

(** Wires: offsetting, raising, cutting and measuring.  [given] is how the wires handed in are moved:
    in the coordinates of the job they are moved by [d]. *)
Definition wire_kernel_moves (WK : wire_kernel) (top : plane) (given : list edge -> list edge) (d : pt) : Prop :=
  (forall w, wk_transform WK top (given w) = move_edges d (wk_transform WK top w)) /\
  (forall w o, wk_offset WK (move_edges d w) o = rmap (map (move_edges d)) (wk_offset WK w o)) /\
  (forall w, wk_area WK (move_edges d w) = wk_area WK w) /\
  (forall s t, wk_relocate WK (move_edges d s) (move_edges d t) = move_edges d (wk_relocate WK s t)) /\
  (forall w z, wk_moved WK (move_edges d w) z = move_edges d (wk_moved WK w z)) /\
  (forall w, wk_below WK top (move_edges d w) = wk_below WK top w).

(** Pieces of edges. *)
Definition tab_kernel_moves (TK : tab_kernel) (d : pt) : Prop :=
  (forall e q, tk_param_at TK (move_edge d e) q = tk_param_at TK e q) /\
  (forall e, tk_curve TK (move_edge d e) = fun p => move_vec d (tk_curve TK e p)) /\
  (forall e (c : Qc -> vec), (fun p => tk_location TK (move_edge d e) (move_vec d (c p))) = fun p => move_vec d (tk_location TK e (c p))) /\
  (forall c p q r, tk_make TK (fun x => move_vec d (c x)) p q r = rmap (move_edge d) (tk_make TK c p q r)) /\
  (forall a b, tk_line TK (move_vec d a) (move_vec d b) = rmap (move_edge d) (tk_line TK a b)) /\
  (forall es, tk_assemble TK (move_edges d es) = option_map (move_edges d) (tk_assemble TK es)) /\
  (forall es, tk_zmin TK (move_edges d es) = tk_zmin TK es) /\
  (forall es, tk_length TK (move_edges d es) = tk_length TK es).

(** The polygon library as zig-zag uses it: bounds, and lines clipped to the boundaries. *)
Definition move_bounds (d : pt) (b : Qc * Qc * Qc * Qc) : Qc * Qc * Qc * Qc :=
  let '(x0, y0, x1, y1) := b in (x0 + fst d, y0 + snd d, x1 + fst d, y1 + snd d).
Definition clipper_moves (C : zig_clipper) (d : pt) : Prop :=
  (forall ps, zc_bounds C (map (move_path d) ps) = rmap (move_bounds d) (zc_bounds C ps)) /\
  (forall ps ls, zc_execute C (map (move_path d) ps) (map (move_path d) ls) = rmap (map (move_path d)) (zc_execute C ps ls)).
Definition move_boundary (d : pt) (b : boundary) : boundary :=
  match b with BWire es c => BWire (move_edges d es) c | BPolygon p => BPolygon (move_path d p) end.

(** Faces to be scanned: [given] and [given_w] move the faces and wires handed in, [shadow] moves
    faces in the plane of the job. *)
Definition surface_kernel_moves (K : surface_kernel) (top : plane) (given : sk_face K -> sk_face K) (given_w : sk_wire K -> sk_wire K)
  (shadow : sk_face K -> sk_face K) (d : pt) : Prop :=
  (forall w, sk_make K (given_w w) = rmap given (sk_make K w)) /\
  (forall fs, sk_zmin K top (map given fs) = sk_zmin K top fs) /\
  (forall fs, sk_project K top (map given fs) = rmap (map shadow) (sk_project K top fs)) /\
  (forall f, sk_planar K (shadow f) = sk_planar K f) /\
  (forall f o i, sk_offset K (shadow f) o i = rmap (map shadow) (sk_offset K f o i)) /\
  (forall f, sk_outer K (shadow f) = (move_edges d (fst (sk_outer K f)), snd (sk_outer K f))) /\
  (forall p q, sk_length K (move_pt d p) (move_pt d q) = sk_length K p q) /\
  (forall fs ps, sk_drop K top (map given fs) (map (move_vec d) ps) = sk_drop K top fs ps).
Definition move_selected {K : surface_kernel} (given : sk_face K -> sk_face K) (given_w : sk_wire K -> sk_wire K) (o : face_object K) : face_object K :=
  match o with OFace f => OFace (given f) | OWire w => OWire (given_w w) | OOther => OOther end.

(** * Properties C70, C85-C89, C93: flattened wires, the clipper, the contour strategy *)
From Verif Require Import Base.Py Spec.Paths Spec.Zigzag Spec.Wires Spec.Clippers Model.Geometry Model.Edges Model.Strategy Model.Contour
  Proofs.RouteEx Proofs.ZigzagEx Proofs.FlattenP Proofs.ClipperP Proofs.ContourP Proofs.ClipperEx Proofs.OpenWireP.
Local Open Scope Qc_scope.
Local Open Scope list_scope.

(** ** C70 *)
(** Full statement: for every wire of lines, arcs, circles and offset curves the points follow the
    wire, at most 0.1 apart on curves, and contain the end of every edge.  Missing (false in the
    code): reversed curves, curves no longer than 0.1, and the distance, which reaches 0.2. *)
Theorem C70_flatten_partial : forall es, Forall edge_sound es -> Forall plain es ->
  exists pieces, flatten_edges es = Ok (concat pieces) /\ Forall2 (flattened (qq 1 5)) es pieces /\
    Forall2 (fun e vs => last vs (V3 0 0 0) = travel_end e /\ vs <> []) es pieces.
Proof. exact flatten_plain. Qed.
Print Assumptions C70_flatten_partial.
Theorem C70_types : forall es, (exists vs, flatten_edges es = Ok vs) <-> Forall flat_type es.
Proof. exact flatten_types. Qed.
Print Assumptions C70_types.
Theorem C70_other_types : forall es e, flatten_edges es = Err e -> e = ValueError.
Proof. exact flatten_value_error. Qed.
Print Assumptions C70_other_types.
Theorem C70_short_curves : forall e, curved e -> 0 < e_length e -> e_length e <= qq 1 10 -> flatten_edge e = Ok [].
Proof. exact flatten_short. Qed.
Print Assumptions C70_short_curves.
Theorem C70_reversed_curves : forall e vs, curved e -> e_reversed e = true -> edge_sound e -> qq 1 10 < e_length e ->
  flatten_edge e = Ok vs -> last vs (V3 0 0 0) = travel_start e.
Proof. exact flatten_reversed. Qed.
Print Assumptions C70_reversed_curves.

(** A closed wire with a reversed arc: a corner is missing and a line runs across the face. *)
Theorem C70_reversed_refuted : exists es p, closed_wire es /\ Forall edge_sound es /\ Forall flat_type es /\ Forall (fun e => qq 1 10 < e_length e) es /\
  add_wire es true = Ok p /\ (exists e, In e es /\ ~ In (vx (travel_end e), vy (travel_end e)) p) /\ In (zp 0 1, zp (-2) (-1)) (steps p).
Proof. exact plate_reversed. Qed.
Print Assumptions C70_reversed_refuted.
Theorem C70_spacing_refuted : exists e n vs, edge_sound e /\ curved e /\ e_reversed e = false /\ flatten_edge e = Ok vs /\ evenly e (S n) vs /\
  qq 1 10 < e_length e / qz (Z.of_nat (S n)).
Proof. exact coarse_curve. Qed.
Print Assumptions C70_spacing_refuted.
Theorem C70_ends_refuted : exists e, edge_sound e /\ curved e /\ travel_start e <> travel_end e /\ flatten_edge e = Ok [].
Proof. exact tiny_curve. Qed.
Print Assumptions C70_ends_refuted.

(** The polygon of a wire: its points seen from above, and the first again if the wire is open. *)
Theorem C70_polygon : forall es, (forall x, flatten_edges es = Err x -> forall closed, add_wire es closed = Err x) /\
  (forall vs, flatten_edges es = Ok vs -> add_wire es true = Ok (map (fun v => (vx v, vy v)) vs) /\
     (vs = [] -> add_wire es false = Err IndexError) /\
     (forall v rest, vs = v :: rest -> add_wire es false = Ok (map (fun v => (vx v, vy v)) vs ++ [(vx v, vy v)]))).
Proof. exact wire_polygon. Qed.
Print Assumptions C70_polygon.
(** The first point is the end of the first edge: the start of an open wire is lost. *)
Theorem C70_open_refuted : exists a b p, edge_sound a /\ edge_sound b /\ e_geom a = GLINE /\ e_geom b = GLINE /\ travel_end a = travel_start b /\ travel_start a <> travel_end b /\
  add_wire [a; b] false = Ok p /\ ~ In (vx (travel_start a), vy (travel_start a)) p.
Proof. exact open_start_lost. Qed.
Print Assumptions C70_open_refuted.

Example C70_example : Forall edge_sound (plate false) /\ Forall plain (plate false) /\ closed_wire (plate false) /\
  exists p, add_wire (plate false) true = Ok p /\ length p = 32%nat /\ In (zp 0 1) p /\ In (zp 0 (-1)) p.
Proof. split; [apply plate_sound|]. split; [exact plate_plain|]. split; [apply plate_closed|exact plate_forward]. Qed.

(** ** C85 *)
Theorem C85_paths : forall X ops c, (forall o, In o ops -> o <> OReset) -> run_ops X new_clipper ops = Ok c -> wc_paths c = added ops.
Proof. exact history_plain. Qed.
Print Assumptions C85_paths.
Theorem C85_reset : forall X before after c, (forall o, In o after -> o <> OReset) ->
  run_ops X new_clipper (before ++ OReset :: after) = Ok c -> wc_paths c = kept before ++ added after.
Proof. exact history_reset. Qed.
Print Assumptions C85_reset.
Theorem C85_reset_works : forall X ops c, run_ops X new_clipper ops = Ok c -> exists c', reset X c = Ok c'.
Proof. exact history_reset_works. Qed.
Print Assumptions C85_reset_works.
(** Open clips are never accepted. *)
Theorem C85_open_polygon : forall X c p cache, add_clip_polygon X c p false cache = Err KernelError.
Proof. exact open_clip_refused. Qed.
Print Assumptions C85_open_polygon.
Theorem C85_open_wire : forall X c es p, add_wire es false = Ok p -> add_clip_wire X c es false = Err KernelError.
Proof. exact open_wire_refused. Qed.
Print Assumptions C85_open_wire.

Example C85_example : exists c, run_ops keeping new_clipper
  ([OAdd (CP (z_tri 0) PT_CLIP true) true; OAdd (CP (z_tri 1) PT_SUBJECT true) true; OAdd (CP (z_tri 2) PT_CLIP true) false] ++ OReset :: [OAdd (CP (z_tri 3) PT_SUBJECT false) false]) = Ok c /\
  wc_paths c = [CP (z_tri 0) PT_CLIP true; CP (z_tri 3) PT_SUBJECT false].
Proof. exact history_example. Qed.

(** ** C86 *)
Theorem C86_execute : forall X c t paths, execute X c t = Ok paths <-> exists open closed loops,
  ce_execute X t (wc_paths c) = Ok (open, closed) /\ Forall2 looped closed loops /\ paths = loops ++ map from_clipper open.
Proof. exact execute_spec. Qed.
Print Assumptions C86_execute.
Theorem C86_loops_closed : forall z p, looped z p -> closed_path p /\ (2 <= length p)%nat.
Proof. exact looped_closed. Qed.
Print Assumptions C86_loops_closed.
(** Each coordinate moves by less than one unit of the integer grid on the way to the engine and back. *)
Theorem C86_scaling : forall p, Forall2 (fun a b => qabs (fst a - fst b) * clipper_scale < 1 /\ qabs (snd a - snd b) * clipper_scale < 1)
  p (from_clipper (to_clipper p)).
Proof. exact scaled_near. Qed.
Print Assumptions C86_scaling.

Example C86_example : exists paths, execute keeping (WC [CP (z_tri 0) PT_CLIP true; CP (z_tri 3) PT_SUBJECT false; CP (z_tri 5) PT_SUBJECT true] []) CT_INTERSECTION = Ok paths /\
  map (@length pt) paths = [4; 3]%nat.
Proof. exact execute_example. Qed.

(** ** C87 *)
(** The square contains every path, turned by any angle about the middle of the bounds. *)
Theorem C87_max_bounds : forall X len c x0 y0 x1 y1, bounds_contain X -> long_enough len -> max_bounds X len c = (x0, y0, x1, y1) ->
  forall p q co si, In p (wc_paths c) -> In q (from_clipper (cp_points p)) -> co * co + si * si = 1 ->
    Clippers.in_box x0 y0 x1 y1 (turned co si (middle (bounds X c)) q).
Proof. exact max_bounds_contain. Qed.
Print Assumptions C87_max_bounds.
Theorem C87_not_too_large : forall X len c x0 y0 x1 y1, max_bounds X len c = (x0, y0, x1, y1) ->
  let '(l, t, r, b) := bounds X c in let h := len (l - r) (t - b) in
  (exists a b' c' d, x0 = qz a /\ y0 = qz b' /\ x1 = qz c' /\ y1 = qz d) /\
  (l + r) / qz 2 - h / qz 2 - 1 < x0 /\ (t + b) / qz 2 - h / qz 2 - 1 < y0 /\
  x1 < (l + r) / qz 2 + h / qz 2 + 1 /\ y1 < (t + b) / qz 2 + h / qz 2 + 1.
Proof. exact max_bounds_tight. Qed.
Print Assumptions C87_not_too_large.

Example C87_example : bounds_contain keeping /\ long_enough taxi /\
  max_bounds keeping taxi (WC [CP (to_clipper (square_path 5)) PT_CLIP true] []) = (qz (-10), qz (-10), qz 10, qz 10).
Proof. split; [exact keeping_bounds|]. split; [exact taxi_long|exact bounds_example]. Qed.

(** ** C88 *)
Theorem C88_contours : forall X K fuel d st outer inner paths, contour X K fuel d st outer inner = Ok paths ->
  exists subss clips subjects open closed loops first rest rest',
    Forall2 (fun w subs => shrinks (offset_once K (- qabs (d * st))) [w] subs) outer subss /\
    Forall2 (wire_path K PT_CLIP) (outer ++ inner) clips /\ Forall (fun p => cp_closed p = true) clips /\
    Forall2 (wire_path K PT_SUBJECT) (concat subss) subjects /\
    ce_execute X CT_INTERSECTION (clips ++ subjects) = Ok (open, closed) /\ Forall2 looped closed loops /\
    loops ++ map from_clipper open = first :: rest /\ paths = first :: rest' /\
    Forall2 (fun p q : path => length q = length p /\ (forall u, In u q <-> In u p) /\ (closed_path p -> restarted p q)) rest rest'.
Proof. exact contour_spec. Qed.
Print Assumptions C88_contours.
Theorem C88_ends : forall X K fuel d st outer inner subss clips subjects open closed loops first rest,
  Forall2 (fun w subs => shrinks (offset_once K (- qabs (d * st))) [w] subs) outer subss ->
  Forall2 (wire_path K PT_CLIP) (outer ++ inner) clips -> Forall (fun p => cp_closed p = true) clips ->
  Forall2 (wire_path K PT_SUBJECT) (concat subss) subjects ->
  Forall (fun p => ce_valid X p = true) (clips ++ subjects) ->
  ce_execute X CT_INTERSECTION (clips ++ subjects) = Ok (open, closed) -> Forall2 looped closed loops ->
  loops ++ map from_clipper open = first :: rest -> first <> [] -> Forall (fun p : path => (2 <= length p)%nat) rest ->
  Forall (fun subs => (length subs < fuel)%nat) subss ->
  exists paths, contour X K fuel d st outer inner = Ok paths.
Proof. exact contour_complete. Qed.
Print Assumptions C88_ends.
(** A region too small for one step: IndexError. *)
Theorem C88_too_small : forall X K fuel d st outer inner clips, (0 < fuel)%nat ->
  Forall (fun w => ck_offset2D K w (- qabs (d * st)) = Err ValueError) outer ->
  Forall2 (wire_path K PT_CLIP) (outer ++ inner) clips -> Forall (fun p => cp_closed p = true) clips ->
  Forall (fun p => ce_valid X p = true) clips -> ce_execute X CT_INTERSECTION clips = Ok ([], []) ->
  contour X K fuel d st outer inner = Err IndexError.
Proof. exact contour_nothing. Qed.
Print Assumptions C88_too_small.
(** Without stepover the loop never ends. *)
Theorem C88_endless : forall X K fuel d w clips, ck_offset2D K w (- qabs (d * 0)) = Ok [w] ->
  Forall2 (wire_path K PT_CLIP) [w] clips -> Forall (fun p => cp_closed p = true /\ ce_valid X p = true) clips ->
  (forall p, wire_path K PT_SUBJECT w p -> ce_valid X p = true) ->
  contour X K fuel d 0 [w] [] = Err OutOfFuel.
Proof. exact contour_endless. Qed.
Print Assumptions C88_endless.
(** The outline of the boundary is not cut: a corner stays further than the radius of the tool from
    every path. *)
Theorem C88_outline_refuted : exists X K fuel d st (w : ck_wire K) paths o q, 0 < d /\ 0 < st /\ st <= 1 /\ contour X K fuel d st [w] [] = Ok paths /\
  add_wire (ck_edges K w) (ck_closed K w) = Ok o /\ In q o /\
  forall p c, In p paths -> on_path c p -> (d / qz 2) * (d / qz 2) < sqd q c.
Proof. exact outline_left. Qed.
Print Assumptions C88_outline_refuted.

Example C88_example : shrinks (offset_once squares (- qabs (qz 5 * qq 4 5))) [qz 10] [qz 6; qz 2] /\
  contour keeping squares 10 (qz 5) (qq 4 5) [qz 10] [] =
    Ok [[zp 6 (-6); zp 6 6; zp (-6) 6; zp (-6) (-6); zp 6 (-6)]; [zp 2 (-2); zp 2 2; zp (-2) 2; zp (-2) (-2); zp 2 (-2)]] /\
  contour keeping squares 10 (qz 5) (qq 4 5) [qz 3] [] = Err IndexError /\
  exists clips, ck_offset2D squares (qz 10) (- qabs (qz 5 * 0)) = Ok [qz 10] /\
    Forall2 (wire_path squares PT_CLIP) [qz 10] clips /\ Forall (fun p => cp_closed p = true /\ ce_valid keeping p = true) clips /\
    (forall p, wire_path squares PT_SUBJECT (qz 10) p -> ce_valid keeping p = true).
Proof. split; [exact contour_stops|]. split; [exact contour_example|]. split; [exact too_small|exact endless_example]. Qed.

(** ** C89 *)
(** The strategy with the real clipper is the one of C52-C55 with the clipper argument [clipper_for]. *)
Theorem C89_refines : forall X len d st outer inner seqs, zig_zag_clipper X len d st outer inner = Ok seqs <->
  Forall closed_boundary (outer ++ inner) /\ zig_zag (clipper_for X len) d st outer inner = Ok seqs.
Proof. exact zig_zag_clipper_iff. Qed.
Print Assumptions C89_refines.
Theorem C89_scanlines : forall X len d st outer inner seqs, bounds_contain X -> long_enough len -> 0 < d * st ->
  zig_zag_clipper X len d st outer inner = Ok seqs ->
  exists ps ts scanlines, Forall2 (fun b p => boundary_polygon b = Ok p) (outer ++ inner) ps /\
    Forall closed_boundary (outer ++ inner) /\
    (exists open closed loops, ce_execute X CT_INTERSECTION (map clip_of ps ++ map scan_of ts) = Ok (open, closed) /\
       Forall2 looped closed loops /\ scanlines = loops ++ map from_clipper open) /\
    (forall t, In t ts -> exists xa xb y, t = [(xa, y); (xb, y)]) /\
    ((exists p1 p2 z1 z2, In p1 ps /\ In p2 ps /\ In z1 (to_clipper p1) /\ In z2 (to_clipper p2) /\ z1 <> z2) ->
     forall p q, In p ps -> In q (from_clipper (to_clipper p)) ->
       exists xa xb y, In [(xa, y); (xb, y)] ts /\ xa <= fst q /\ fst q <= xb /\ y <= snd q /\ snd q <= y + d * st) /\
    (Forall (fun s : path => exists a b, s = [a; b]) scanlines -> exists polygons,
       Forall2 (inserted (concat scanlines)) ps polygons /\ cover_once polygons scanlines seqs).
Proof. exact zig_zag_clipper_covers. Qed.
Print Assumptions C89_scanlines.

Example C89_example : bounds_contain box_five /\ long_enough taxi /\ 0 < qz 4 * qq 3 4 /\
  zig_zag_clipper box_five taxi (qz 4) (qq 3 4) [BPolygon five_square] [] =
    Ok [[zp (-5) (-4); zp 5 (-4); zp 5 (-1); zp (-5) (-1); zp (-5) 2; zp 5 2]] /\
  exists p1 p2 z1 z2, In p1 [five_square] /\ In p2 [five_square] /\ In z1 (to_clipper p1) /\ In z2 (to_clipper p2) /\ z1 <> z2.
Proof.
  split; [exact box_five_bounds|]. split; [exact taxi_long|]. split; [vm_compute; reflexivity|].
  split; [exact zig_zag_clipper_example|exact five_square_open].
Qed.

(** ** C93 *)
(** All three true: clockwise; each change turns the direction round (utils.py:154-157). *)
Theorem C93_direction : cut_clockwise true true true = true /\
  forall a b c, cut_clockwise (negb a) b c = negb (cut_clockwise a b c) /\ cut_clockwise a (negb b) c = negb (cut_clockwise a b c) /\
    cut_clockwise a b (negb c) = negb (cut_clockwise a b c).
Proof. exact direction. Qed.
Print Assumptions C93_direction.
Example C93_example : cut_clockwise true true true = true /\ cut_clockwise false true true = false /\ cut_clockwise false false true = true.
Proof. repeat split. Qed.

(** * Theorems about zig-zag routing, linked polygons and contour sorting (C50-C55) *)
From Verif Require Import Base.Py Model.Edges Model.Strategy Spec.Paths Spec.Zigzag Proofs.RouteEx Proofs.LinkedP Proofs.ZigzagP Proofs.ZigzagMultiP
  Proofs.ZigzagEx Proofs.ZigzagThmP Proofs.OpenSortP Proofs.TwoRunsP Proofs.ZigzagErrP Proofs.ClosingP.
From Coq Require Import Permutation.
Local Open Scope Qc_scope.
Local Open Scope list_scope.

(** ** C50 *)
(** A single boundary: one route from the left end of the first scanline, along the boundary with
    the scanline ends inserted, traversing every scanline once. *)
Theorem C50_single_boundary : forall C d st b p bounds first rest, let scanlines := (first :: rest : list path) in
  boundary_polygon b = Ok p -> proper p -> d * st <> 0 ->
  zc_bounds C [p] = Ok bounds ->
  (let '(x0, y0, x1, y1) := bounds in zc_execute C [p] (templates x0 y0 x1 y1 (d * st)) = Ok scanlines) ->
  Forall (fun s : path => exists a b, s = [a; b]) scanlines -> NoDup (concat scanlines) ->
  (forall q, In q (concat scanlines) -> near_path (qq 1 10000000) q p) ->
  exists start cut more polygon, zig_zag C d st [b] [] = Ok [start :: cut :: more] /\
    from_left first start cut /\ inserted (concat scanlines) p polygon /\
    cover_once [polygon] scanlines [start :: cut :: more].
Proof. exact zig_zag_single. Qed.
Print Assumptions C50_single_boundary.

(** The routing step alone, for a polygon linked to the ends in any way. *)
Theorem C50_routing : forall lp first rest points ends pts, let scanlines := (first :: rest : list path) in
  Forall (fun s : path => exists a b, s = [a; b]) scanlines -> NoDup (concat scanlines) ->
  Permutation (lp_linked lp) (concat scanlines) -> incl (lp_linked lp) (lp_polygon lp) ->
  (forall q, In q (concat scanlines) -> dict_get q points = Ok O) ->
  scanline_end_map scanlines [] [] = Ok (ends, pts) ->
  exists start cut more, from_left first start cut /\
    route_zig_zag [lp] scanlines points ends = Ok [start :: cut :: more] /\
    cover_once [lp_polygon lp] scanlines [start :: cut :: more].
Proof. exact routing_single. Qed.
Print Assumptions C50_routing.

Example C50_example :
  (boundary_polygon (BPolygon ex_square) = Ok ex_square /\ proper ex_square /\ qz 4 * qq 3 4 <> 0 /\
   Forall (fun s : path => exists a b, s = [a; b]) (ex_first :: ex_rest) /\ NoDup (concat (ex_first :: ex_rest)) /\
   (forall q, In q (concat (ex_first :: ex_rest)) -> near_path (qq 1 10000000) q ex_square)) /\
  zig_zag (scan_answer (ex_first :: ex_rest)) (qz 4) (qq 3 4) [BPolygon ex_square] [] =
    Ok [[zp 0 2; zp 10 2; zp 10 5; zp 0 5; zp 0 8; zp 10 8]].
Proof. exact (conj ex_zigzag_meets ex_zigzag_route). Qed.

(** ** C51 *)
(** Full statement: under the hypotheses of [C51_value_error_partial], [zig_zag] ends with a route
    covering every scanline once.  Proved: it ends with [Ok] or [ValueError], and every [Ok] answer
    covers every scanline once.  The remaining [ValueError] does happen: [C51_two_boundaries_refuted]. *)
Theorem C51_covers_partial : forall C d st outer inner seqs, zig_zag C d st outer inner = Ok seqs ->
  exists ps bounds scanlines, Forall2 (fun b p => boundary_polygon b = Ok p) (outer ++ inner) ps /\
    d * st <> 0 /\ zc_bounds C ps = Ok bounds /\
    (let '(x0, y0, x1, y1) := bounds in zc_execute C ps (templates x0 y0 x1 y1 (d * st)) = Ok scanlines) /\
    (Forall (fun s : path => exists a b, s = [a; b]) scanlines -> exists polygons,
       Forall2 (inserted (concat scanlines)) ps polygons /\ cover_once polygons scanlines seqs).
Proof. exact zig_zag_covers. Qed.
Print Assumptions C51_covers_partial.
Theorem C51_value_error_partial : forall C d st outer inner ps bounds first rest, let scanlines := (first :: rest : list path) in
  Forall2 (fun b p => boundary_polygon b = Ok p) (outer ++ inner) ps -> Forall proper ps -> d * st <> 0 ->
  zc_bounds C ps = Ok bounds ->
  (let '(x0, y0, x1, y1) := bounds in zc_execute C ps (templates x0 y0 x1 y1 (d * st)) = Ok scanlines) ->
  Forall (fun s : path => exists a b, s = [a; b]) scanlines -> NoDup (concat scanlines) ->
  (forall q, In q (concat scanlines) -> exists p, In p ps /\ near_path (qq 1 10000000) q p) ->
  (exists seqs, zig_zag C d st outer inner = Ok seqs) \/ zig_zag C d st outer inner = Err ValueError.
Proof. exact zig_zag_multi. Qed.
Print Assumptions C51_value_error_partial.
(** The start of a later sequence is not dropped from its polygon and found again. *)
Theorem C51_two_boundaries_refuted : exists C d st outer inner ps bounds first rest, let scanlines := (first :: rest : list path) in
  Forall2 (fun b p => boundary_polygon b = Ok p) (outer ++ inner) ps /\ Forall proper ps /\ d * st <> 0 /\
  zc_bounds C ps = Ok bounds /\
  (let '(x0, y0, x1, y1) := bounds in zc_execute C ps (templates x0 y0 x1 y1 (d * st)) = Ok scanlines) /\
  Forall (fun s : path => exists a b, s = [a; b]) scanlines /\ NoDup (concat scanlines) /\
  (forall q, In q (concat scanlines) -> exists p, In p ps /\ near_path (qq 1 10000000) q p) /\
  zig_zag C d st outer inner = Err ValueError.
Proof. exact zig_zag_two_fails. Qed.
Print Assumptions C51_two_boundaries_refuted.

(** If every scanline joins two points of one boundary and of no other one, a route has at most two
    sequences: one for the boundary of the first scanline, the second one never leaves its boundary. *)
Theorem C51_two_sequences_partial : forall C d st outer inner ps bounds first rest seqs, let scanlines := (first :: rest : list path) in
  Forall2 (fun b p => boundary_polygon b = Ok p) (outer ++ inner) ps -> Forall proper ps -> d * st <> 0 ->
  zc_bounds C ps = Ok bounds ->
  (let '(x0, y0, x1, y1) := bounds in zc_execute C ps (templates x0 y0 x1 y1 (d * st)) = Ok scanlines) ->
  Forall (fun s : path => exists a b, s = [a; b]) scanlines -> NoDup (concat scanlines) ->
  (forall q, In q (concat scanlines) -> exists p, In p ps /\ near_path (qq 1 10000000) q p) ->
  (forall s, In s scanlines -> exists k, forall q i p, In q s -> nth_error ps i = Some p -> near_path (qq 1 10000000) q p -> i = k) ->
  zig_zag C d st outer inner = Ok seqs ->
  (length seqs <= 2)%nat /\ exists p1 p2, In p1 ps /\ In p2 ps /\
    forall q, In q (concat scanlines) -> near_path (qq 1 10000000) q p1 \/ near_path (qq 1 10000000) q p2.
Proof. exact zig_zag_runs. Qed.
Print Assumptions C51_two_sequences_partial.
(** So scanlines on three boundaries or more are always an error. *)
Theorem C51_three_boundaries : forall C d st outer inner ps bounds first rest, let scanlines := (first :: rest : list path) in
  Forall2 (fun b p => boundary_polygon b = Ok p) (outer ++ inner) ps -> Forall proper ps -> d * st <> 0 ->
  zc_bounds C ps = Ok bounds ->
  (let '(x0, y0, x1, y1) := bounds in zc_execute C ps (templates x0 y0 x1 y1 (d * st)) = Ok scanlines) ->
  Forall (fun s : path => exists a b, s = [a; b]) scanlines -> NoDup (concat scanlines) ->
  (forall q, In q (concat scanlines) -> exists p, In p ps /\ near_path (qq 1 10000000) q p) ->
  (forall s, In s scanlines -> exists k, forall q i p, In q s -> nth_error ps i = Some p -> near_path (qq 1 10000000) q p -> i = k) ->
  (forall p1 p2, In p1 ps -> In p2 ps -> exists q, In q (concat scanlines) /\
     ~ near_path (qq 1 10000000) q p1 /\ ~ near_path (qq 1 10000000) q p2) ->
  zig_zag C d st outer inner = Err ValueError.
Proof. exact zig_zag_three. Qed.
Print Assumptions C51_three_boundaries.
(** Three squares in a row, each with one scanline. *)
Example C51_three_example :
  Forall2 (fun b p => boundary_polygon b = Ok p) ([BPolygon (square 0 0 10)] ++ [BPolygon (square 20 0 10); BPolygon (square 40 0 10)]) row /\
  Forall proper row /\
  Forall (fun s : path => exists a b, s = [a; b]) (row_first :: row_rest) /\ NoDup (concat (row_first :: row_rest)) /\
  (forall q, In q (concat (row_first :: row_rest)) -> exists p, In p row /\ near_path (qq 1 10000000) q p) /\
  (forall s, In s (row_first :: row_rest) -> exists k, forall q i p, In q s -> nth_error row i = Some p -> near_path (qq 1 10000000) q p -> i = k) /\
  (forall p1 p2, In p1 row -> In p2 row -> exists q, In q (concat (row_first :: row_rest)) /\
     ~ near_path (qq 1 10000000) q p1 /\ ~ near_path (qq 1 10000000) q p2).
Proof. exact row_meets. Qed.

(** Routes that cannot be started: no stepover, no scanline, an empty scanline. *)
Theorem C51_no_step : forall C d st outer inner ps x0 y0 x1 y1,
  Forall2 (fun b p => boundary_polygon b = Ok p) (outer ++ inner) ps -> zc_bounds C ps = Ok (x0, y0, x1, y1) ->
  d * st = 0 -> zig_zag C d st outer inner = Err ZeroDivisionError.
Proof. exact zig_zag_no_step. Qed.
Print Assumptions C51_no_step.
Theorem C51_no_lines : forall C d st outer inner ps x0 y0 x1 y1,
  Forall2 (fun b p => boundary_polygon b = Ok p) (outer ++ inner) ps -> zc_bounds C ps = Ok (x0, y0, x1, y1) ->
  forall scanlines, d * st <> 0 -> zc_execute C ps (templates x0 y0 x1 y1 (d * st)) = Ok scanlines ->
  scanlines = [] \/ In [] scanlines -> zig_zag C d st outer inner = Err IndexError.
Proof. exact zig_zag_no_lines. Qed.
Print Assumptions C51_no_lines.
Example C51_no_lines_example : zig_zag (scan_answer []) (qz 4) (qq 3 4) [BPolygon sq_a] [] = Err IndexError /\ zig_zag (scan_answer [two_first]) (qz 4) 0 [BPolygon sq_a] [] = Err ZeroDivisionError.
Proof. split; reflexivity. Qed.

Example C51_example : zig_zag (scan_answer (two_first :: two_fewer)) (qz 4) (qq 3 4) [BPolygon sq_a] [BPolygon sq_b] =
  Ok [[zp 0 5; zp 10 5]; [zp 20 3; zp 30 3; zp 30 6; zp 20 6]].
Proof. exact two_works. Qed.

(** ** C52 *)
(** Full statement: every scanline end on a closed outline is linked to it.  Proved: exactly the ends
    near a segment between consecutive listed corners are linked.  The outline of a closed wire
    lacks the segment from its last to its first corner: [C52_closing_edge_refuted]. *)
Theorem C52_linked_partial : forall pts boundaries, NoDup pts -> Forall proper boundaries ->
  (forall q, In q pts -> exists b, In b boundaries /\ near_path (qq 1 10000000) q b) ->
  exists lps m news, link_scanpoints_to_boundaries pts boundaries = Ok (lps, m) /\
    length lps = length boundaries /\ length news = length boundaries /\ Permutation pts (concat news) /\
    (forall k b lp new, nth_error boundaries k = Some b -> nth_error lps k = Some lp -> nth_error news k = Some new ->
       lp_linked lp = new /\ inserted new b (lp_polygon lp) /\
       forall q, In q new -> In q (lp_polygon lp) /\ near_path (qq 1 10000000) q b /\ dict_get q m = Ok k).
Proof. exact link_all_thm. Qed.
Print Assumptions C52_linked_partial.
Theorem C52_unlinked : forall pts boundaries q, NoDup pts -> Forall proper boundaries -> In q pts ->
  (forall b, In b boundaries -> ~ near_path (qq 1 10000000) q b) ->
  link_scanpoints_to_boundaries pts boundaries = Err AssertionError.
Proof. exact link_fails. Qed.
Print Assumptions C52_unlinked.
Theorem C52_closing_edge_refuted : exists C d st es a b p, add_wire es true = Ok p /\
  closed_wire es /\ on_edge_line es a /\ on_edge_line es b /\ d * st <> 0 /\
  (forall bs ts, zc_execute C bs ts = Ok [[a; b]]) /\
  zig_zag C d st [BWire es true] [] = Err AssertionError.
Proof. exact closing_edge_fails. Qed.
Print Assumptions C52_closing_edge_refuted.

Example C52_example :
  zig_zag (scan_answer (ex_first :: ex_rest)) (qz 4) (qq 3 4) [BWire wire_square true] [] =
    Ok [[zp 0 2; zp 10 2; zp 10 5; zp 0 5; zp 0 8; zp 10 8]] /\
  exists lps m, link_scanpoints_to_boundaries (concat (ex_first :: ex_rest)) [ex_square] = Ok (lps, m) /\
    map lp_polygon lps = [[zp 0 0; zp 10 0; zp 10 2; zp 10 5; zp 10 8; zp 10 10; zp 0 10; zp 0 8; zp 0 5; zp 0 2; zp 0 0]].
Proof. exact (conj wire_square_works ex_linked_square). Qed.

(** ** C53 *)
(** One point: inserted on its segment, in the order of distance from the start of the segment. *)
Theorem C53_on_segment_partial : forall lp p s e pre mid post,
  lp_polygon lp = pre ++ s :: mid ++ e :: post -> ~ In s pre -> ~ In e (pre ++ s :: mid) ->
  by_distance s mid -> ~ In p (lp_linked lp) -> ~ In p mid ->
  exists m1 m2, mid = m1 ++ m2 /\
    link_point lp p s e = Ok (LP (pre ++ s :: (m1 ++ p :: m2) ++ e :: post) (lp_linked lp ++ [p]) (lp_free lp)) /\
    by_distance s (m1 ++ p :: m2).
Proof. exact link_point_segment. Qed.
Print Assumptions C53_on_segment_partial.
(** Any two corners: all previous points are kept in order. *)
Theorem C53_kept : forall lp p s e, In s (lp_polygon lp) -> In e (lp_polygon lp) -> ~ In p (lp_linked lp) ->
  exists l1 l2, lp_polygon lp = l1 ++ l2 /\
    link_point lp p s e = Ok (LP (l1 ++ p :: l2) (lp_linked lp ++ [p]) (lp_free lp)).
Proof. exact link_point_inserts. Qed.
Print Assumptions C53_kept.
Theorem C53_errors : forall lp p s e,
  (In p (lp_linked lp) -> link_point lp p s e = Err AssertionError) /\
  (~ In p (lp_linked lp) -> (~ In s (lp_polygon lp) \/ ~ In e (lp_polygon lp)) -> link_point lp p s e = Err ValueError).
Proof. exact link_point_errors. Qed.
Print Assumptions C53_errors.
(** All points of all boundaries: the boundaries are refined segment by segment. *)
Theorem C53_refined : forall pts boundaries lps m, link_scanpoints_to_boundaries pts boundaries = Ok (lps, m) ->
  Forall (@NoDup pt) boundaries -> (forall b q, In b boundaries -> In q b -> ~ In q pts) ->
  Forall2 refined boundaries (map lp_polygon lps).
Proof. exact link_refined. Qed.
Print Assumptions C53_refined.
(** Full statement: also on the closing segment of an explicitly closed polygon.  There the end is
    found at index 0 and every point goes right behind the start of the segment. *)
Theorem C53_closing_refuted : exists polygon s e p q lp1 lp2 pre far near_,
  closed_path polygon /\ NoDup (removelast polygon) /\ proper polygon /\
  polygon = pre ++ [s; e] /\ on_segment p s e /\ on_segment q s e /\
  link_point (LP polygon [] []) p s e = Ok lp1 /\ link_point lp1 q s e = Ok lp2 /\
  lp_polygon lp2 = pre ++ [s; far; near_; e] /\ sqd s near_ < sqd s far.
Proof. exact closing_segment_wrong. Qed.
Print Assumptions C53_closing_refuted.
(** Exactly, if the end of the segment is found before its start: every point goes right behind the
    start, so the points stand in the order opposite to the one they were linked in. *)
Theorem C53_closing_exactly : forall s e pre ps, ~ In s pre -> In e pre -> NoDup ps -> forall lp rest,
  lp_polygon lp = pre ++ s :: rest -> (forall p, In p ps -> ~ In p (lp_linked lp)) ->
  fold_left (fun r p => do lp <- r; link_point lp p s e) ps (Ok lp) = Ok (LP (pre ++ s :: rev ps ++ rest) (lp_linked lp ++ ps) (lp_free lp)).
Proof. exact closing_points. Qed.
Print Assumptions C53_closing_exactly.
Example C53_closing_example : ex_square = [zp 0 0; zp 10 0; zp 10 10] ++ zp 0 10 :: [zp 0 0] /\ ~ In (zp 0 10) [zp 0 0; zp 10 0; zp 10 10] /\
  In (zp 0 0) [zp 0 0; zp 10 0; zp 10 10] /\ NoDup [zp 0 8; zp 0 2].
Proof. exact closing_example. Qed.

Example C53_example : exists lp,
  link_all_in ex_lp [(zp 10 7, zp 10 0, zp 10 10); (zp 10 2, zp 10 0, zp 10 10); (zp 10 4, zp 10 0, zp 10 10)] = Ok lp /\
  lp_polygon lp = [zp 0 0; zp 10 0; zp 10 2; zp 10 4; zp 10 7; zp 10 10; zp 0 10].
Proof. exact ex_link. Qed.

(** ** C54 *)
(** Whenever it answers: the walk goes along the polygon to the next free point, which is consumed
    together with the entry. *)
Theorem C54_walk : forall lp p r lp', nearest_linked lp p = Ok (r, lp') ->
  lp_polygon lp' = lp_polygon lp /\ lp_linked lp' = lp_linked lp /\
  match r with
  | None => lp_free lp = [p] /\ lp_free lp' = []
  | Some l => exists w q free, l = w ++ [q] /\ Permutation (lp_free lp) (p :: free) /\
      Permutation free (q :: lp_free lp') /\ walk_to_free (lp_polygon lp) free p w q
  end.
Proof. exact nearest_walk. Qed.
Print Assumptions C54_walk.
(** It answers when the entry and another free point lie on the polygon, and takes the direction
    with the smaller sum of squared distances from the entry.  Full statement: with the shorter walk. *)
Theorem C54_direction_partial : forall lp p x y free,
  lp_polygon lp = x ++ p :: y -> ~ In p x -> Permutation (lp_free lp) (p :: free) -> ~ In p free ->
  (exists q, In q (x ++ y) /\ In q free) ->
  exists w q lp', nearest_linked lp p = Ok (Some (w ++ [q]), lp') /\
    (first_way (y ++ x) free w q \/ first_way (rev (y ++ x)) free w q) /\
    (forall w' q', first_way (y ++ x) free w' q' \/ first_way (rev (y ++ x)) free w' q' ->
       sum_sqd p (w ++ [q]) <= sum_sqd p (w' ++ [q'])).
Proof. exact nearest_direction. Qed.
Print Assumptions C54_direction_partial.
(** If both neighbours on the polygon are free, the walk is one step to the nearer of them. *)
Theorem C54_neighbours_partial : forall lp p x y free a m b,
  lp_polygon lp = x ++ p :: y -> ~ In p x -> Permutation (lp_free lp) (p :: free) -> ~ In p free ->
  y ++ x = a :: m ++ [b] -> In a free -> In b free ->
  exists q lp', nearest_linked lp p = Ok (Some [q], lp') /\ (q = a \/ q = b) /\ sqd p q <= sqd p a /\ sqd p q <= sqd p b.
Proof. exact nearest_neighbours. Qed.
Print Assumptions C54_neighbours_partial.
Theorem C54_last_and_missing : forall lp p,
  (lp_free lp = [p] -> nearest_linked lp p = Ok (None, LP (lp_polygon lp) (lp_linked lp) [])) /\
  (~ In p (lp_free lp) -> nearest_linked lp p = Err ValueError).
Proof. exact nearest_last. Qed.
Print Assumptions C54_last_and_missing.
Theorem C54_shorter_refuted : exists lp p w q w' q' lp',
  rectilinear (lp_polygon lp ++ firstn 1 (lp_polygon lp)) /\ NoDup (lp_polygon lp) /\
  nearest_linked lp p = Ok (Some (w ++ [q]), lp') /\
  (exists free, Permutation (lp_free lp) (p :: free) /\
    walk_to_free (lp_polygon lp) free p w q /\ walk_to_free (lp_polygon lp) free p w' q') /\
  taxi_length (p :: w' ++ [q']) < taxi_length (p :: w ++ [q]).
Proof. exact longer_way. Qed.
Print Assumptions C54_shorter_refuted.

Example C54_example : exists lp', nearest_linked ex_round (zp 0 0) = Ok (Some [(0, qq 11 5)], lp') /\ lp_free lp' = [zp 2 0].
Proof. exact ex_round_walk. Qed.

(** ** C55 *)
(** Number, length and points of all paths are kept; closed ones are only restarted; each starts
    nearest to the end of the FIRST path.  Full statement: also open paths keep their segments, and
    each starts nearest to the previous one. *)
Theorem C55_sorted_partial : forall a p rest, Forall (fun p : path => (2 <= length p)%nat) rest ->
  exists rest', sort_clipper_output ((a :: p) :: rest) = Ok ((a :: p) :: rest') /\
    Forall2 (fun p q : path => length q = length p /\ (forall u, In u q <-> In u p) /\ (closed_path p -> restarted p q)) rest rest' /\
    Forall2 (starts_nearest (last (a :: p) a)) rest rest'.
Proof. exact sort_output_spec. Qed.
Print Assumptions C55_sorted_partial.
(** An open path is cut in two and the parts are exchanged; it stays as it is exactly when no point
    of it is nearer to the end of the first path than its own first point. *)
Theorem C55_open_partial : forall a p rest rest', sort_clipper_output ((a :: p) :: rest) = Ok ((a :: p) :: rest') ->
  let target := last (a :: p) a in
  Forall2 (fun p q : path => ~ closed_path p ->
    (exists before after, p = before ++ after /\ q = after ++ before) /\
    (q = p <-> forall h t, p = h :: t -> forall b, In b p -> sqd target h <= sqd target b)) rest rest'.
Proof. exact sort_open. Qed.
Print Assumptions C55_open_partial.
Theorem C55_open_refuted : exists a p q, sort_clipper_output [a; p] = Ok [a; q] /\ (2 <= length p)%nat /\ ~ closed_path p /\
  exists s, In s (steps q) /\ ~ In s (steps p) /\ ~ In (snd s, fst s) (steps p).
Proof. exact open_broken. Qed.
Print Assumptions C55_open_refuted.
Theorem C55_previous_refuted : exists a b c, sort_clipper_output [a; b; c] = Ok [a; b; c] /\ closed_path b /\ closed_path c /\
  ~ starts_nearest (last b (0, 0)) c c.
Proof. exact not_previous. Qed.
Print Assumptions C55_previous_refuted.
Theorem C55_nothing_to_sort : sort_clipper_output [] = Err IndexError /\
  (forall rest, sort_clipper_output ([] :: rest) = Err IndexError) /\
  (forall a p b l1 l2, Forall (fun p : path => (2 <= length p)%nat) l1 -> sort_clipper_output ((a :: p) :: l1 ++ [b] :: l2) = Err IndexError).
Proof. exact sort_output_errors. Qed.
Print Assumptions C55_nothing_to_sort.

Example C55_example : sort_clipper_output [[zp 0 0; zp 9 9]; square 0 0 8; square 20 20 4] =
  Ok [[zp 0 0; zp 9 9]; [zp 8 8; zp 0 8; zp 0 0; zp 8 0; zp 8 8]; square 20 20 4].
Proof. exact ex_sort_closed. Qed.
(** Its second path is open and cut in two, the third one open and kept. *)
Example C55_open_example : sort_clipper_output ex_open_paths = Ok ex_open_sorted /\
  Forall (fun p => ~ closed_path p) ex_open_paths.
Proof. exact ex_open. Qed.
Example C54_neighbours_example : exists lp', nearest_linked ex_beside (zp 0 0) = Ok (Some [zp 1 0], lp').
Proof. exact ex_beside_walk. Qed.

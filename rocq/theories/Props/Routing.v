(** * Properties C19-C31: offsets, approach moves, nearest points, contour and wire routing *)
From Verif Require Import Base.Str Base.Py Model.Geometry Model.Edges Model.Routers
  Spec.Paths Spec.Moves Spec.Contours Spec.Wires Spec.Visits Spec.Spaced
  Proofs.GeomP Proofs.RouteP Proofs.EdgeP Proofs.WireP Proofs.RouteThmP Proofs.FollowP Proofs.RouteEx Proofs.VisitP Proofs.SubrangeP Proofs.SpacedP.
Local Open Scope Qc_scope.
Local Open Scope list_scope.

(** ** C19 *)
Theorem C19_offset_value : forall r m d def,
  calculate_offset (Some r) (Some (OMul m)) def = Ok (r * m) /\
  calculate_offset (Some r) (Some (OPair m d)) def = Ok (r * m + d).
Proof. exact offset_some. Qed.
Print Assumptions C19_offset_value.

Theorem C19_offset_default : forall r o,
  calculate_offset (Some r) None (Some o) = calculate_offset (Some r) (Some o) None /\
  calculate_offset (Some r) None None = Ok 0.
Proof. exact offset_default. Qed.
Print Assumptions C19_offset_default.

Theorem C19_offset_needs_radius : forall o def, calculate_offset None o def = Err TypeError.
Proof. exact offset_no_radius. Qed.
Print Assumptions C19_offset_needs_radius.

Example C19_example : calculate_offset (Some (qq 3 2)) (Some (OPair (qz (-1)) (qq 1 4))) None = Ok (qq (-5) 4).
Proof. unfold calculate_offset. f_equal. apply Qc_is_canon. reflexivity. Qed.

(** ** C20 *)
Theorem C20_approach_safe : forall start e R S pf,
  let ms := rapid_to start e R (Some S) (Some pf) in
  continuous start ms /\
  (exists m rest, ms = m :: rest /\ rapid m /\ vertical m /\ az (m_end m) = Some R) /\
  Forall (fun m => rapid m -> safe_rapid R S m) ms /\
  Forall (fun m => ~ rapid m -> plunge S (vz e) pf m) ms /\
  Forall (fun m => vertical m \/ (rapid m /\ at_height m R)) ms /\
  after start ms = from_vector (V3 (vx e) (vy e) (if qltb (vz e) S then vz e else S)) /\
  (Forall vertical ms <-> ax start = Some (vx e) /\ ay start = Some (vy e)).
Proof. exact rapid_to_safe. Qed.
Print Assumptions C20_approach_safe.

Example C20_example :
  text_of (Ok (rapid_to av_none (zv 1 2 (-3)) (qz 10) (Some (qz 1)) (Some (PInt 100)))) =
  ["G0 Z10"; "G0 X1 Y2 Z10"; "G0 X1 Y2 Z1"; "G1 X1 Y2 Z-3 F100"]%string.
Proof. vm_compute. reflexivity. Qed.

(** ** C21 *)
Theorem C21_nearest_on_segment : forall p v w d c, dist_to_segment_squared p v w = Ok (d, c) ->
  on_segment c v w /\ d = sqd p c /\ forall q, on_segment q v w -> d <= sqd p q.
Proof. exact dist_to_segment_spec. Qed.
Print Assumptions C21_nearest_on_segment.

Theorem C21_segment_errors : forall p v w e,
  dist_to_segment_squared p v w = Err e <-> v = w /\ e = ZeroDivisionError.
Proof. exact dist_to_segment_err. Qed.
Print Assumptions C21_segment_errors.

Example C21_example : exists d c, dist_to_segment_squared (zp 1 5) (zp 0 0) (zp 4 2) = Ok (d, c).
Proof. apply dist_to_segment_ok. discriminate. Qed.

(** ** C22 *)
Theorem C22_nearest_on_path : forall p l d c i r,
  distance_to_path p l = Ok (Some (d, c, (i, r))) ->
  exists a b, nth_error (steps l) i = Some (a, b) /\ on_segment c a b /\ d = sqd p c /\
    r * sqd a b = sqd a c /\
    (forall q, on_path q l -> d <= sqd p q) /\
    (forall k a' b' q, (k < i)%nat -> nth_error (steps l) k = Some (a', b') -> on_segment q a' b' -> d < sqd p q).
Proof. exact distance_to_path_spec. Qed.
Print Assumptions C22_nearest_on_path.

Theorem C22_path_total : forall p l, proper l ->
  (steps l = [] -> distance_to_path p l = Ok None) /\
  (steps l <> [] -> exists d c i r, distance_to_path p l = Ok (Some (d, c, (i, r)))).
Proof. exact distance_to_path_total. Qed.
Print Assumptions C22_path_total.

Theorem C22_path_errors : forall p l e, distance_to_path p l = Err e -> e = ZeroDivisionError /\ ~ proper l.
Proof. exact distance_to_path_err. Qed.
Print Assumptions C22_path_errors.

Example C22_example : exists d c r, distance_to_path (zp 3 2) (square 0 0 5) = Ok (Some (d, c, (0%nat, r))).
Proof. eexists _, _, _. vm_compute. reflexivity. Qed.

(** ** C23 *)
Theorem C23_restart_closed : forall p i, closed_path p -> (S i < length p)%nat ->
  hd_error (shift_polygon p i) = nth_error p i /\ closed_path (shift_polygon p i) /\
  steps (shift_polygon p i) = skipn i (steps p) ++ firstn i (steps p) /\
  length (shift_polygon p i) = length p.
Proof. exact shift_polygon_spec. Qed.
Print Assumptions C23_restart_closed.

Example C23_example : closed_path (square 0 0 5) /\
  shift_polygon (square 0 0 5) 2 = [zp 5 5; zp 0 5; zp 0 0; zp 5 0; zp 5 5].
Proof. split; [apply square_closed|reflexivity]. Qed.

(** ** C24 *)
Theorem C24_pocket_safe : forall j fs so pp cmds, route_polyface_outers j fs so pp = Ok cmds ->
  continuous (dflt pp av_none) cmds /\
  Forall (fun m => rapid m -> safe_rapid (j_rapid_height j) (j_op_safe_height j) m) cmds /\
  Forall (fun m => ~ rapid m -> exists f, In f fs /\
            ok_feed (j_op_safe_height j) (j_plunge_feed j) (j_feed j) (pf_depth f) m) cmds.
Proof. exact outers_safe. Qed.
Print Assumptions C24_pocket_safe.

Theorem C24_pocket_level : forall j fs so pp cmds d, route_polyface_outers j fs so pp = Ok cmds ->
  d < j_op_safe_height j -> (forall f, In f fs -> pf_depth f = d) ->
  Forall (fun m => ~ rapid m -> plunge (j_op_safe_height j) d (j_plunge_feed j) m \/
                                (at_height m d /\ m_feed m = Some (j_feed j))) cmds.
Proof. exact outers_level. Qed.
Print Assumptions C24_pocket_level.

(** Meets the hypotheses of C24-C27. *)
Example C24_example : exists cmds,
  route_polyface_outers ex_job nested (Some (qq 3 2)) None = Ok cmds /\
  (forall f, In f nested -> closed_path (pf_outer f) /\ proper (pf_outer f) /\ pf_depth f = qz (-2)) /\
  (retracts cmds <= 1)%nat /\ List.length cmds = 14%nat /\ qz (-2) < j_op_safe_height ex_job.
Proof. exact ex_nested. Qed.

(** ** C25 *)
(** Full statement: the cuts for each contour are one tour of it, ending where it began.  Missing
    (false in the code): a contour entered by a rapid after another contour gets one more cut from
    its start to the point nearest to the end of the previous one. *)
Theorem C25_traced_partial : forall j fs so pp cmds, route_polyface_outers j fs so pp = Ok cmds ->
  (forall f, In f fs -> closed_path (pf_outer f)) ->
  exists gs, cmds = concat gs /\ Forall2 group_ok fs gs.
Proof. exact outers_groups. Qed.
Print Assumptions C25_traced_partial.

Theorem C25_total : forall j fs so pp, (forall f, In f fs -> pf_outer f <> [] /\ proper (pf_outer f)) ->
  exists cmds, route_polyface_outers j fs so pp = Ok cmds.
Proof. exact outers_total. Qed.
Print Assumptions C25_total.

(** Exactly: how each contour is entered and left, one after the other.  The chord ends in the point
    nearest to where the previous contour was left, unless that point is near enough to be cut to. *)
Theorem C25_visits_partial : forall j fs so pp cmds, route_polyface_outers j fs so pp = Ok cmds ->
  (forall f, In f fs -> closed_path (pf_outer f) /\ steps (pf_outer f) <> []) ->
  exists gs, cmds = concat gs /\ visits so None (map pf_outer fs) gs.
Proof. exact outers_visits. Qed.
Print Assumptions C25_visits_partial.
Example C25_visits_example : exists c1 c2, route_polyface_outers ex_job nested (Some (qq 3 2)) None = Ok c1 /\
  route_polyface_outers ex_job nested (Some (qq 1 2)) None = Ok c2 /\ retracts c1 = 1%nat /\ retracts c2 = 2%nat /\
  forall f, In f nested -> closed_path (pf_outer f) /\ steps (pf_outer f) <> [].
Proof. exact nested_visits. Qed.

Theorem C25_chord_refuted : exists j f1 f2 s g1 g2 access cuts m,
  closed_path (pf_outer f1) /\ closed_path (pf_outer f2) /\ proper (pf_outer f1) /\ proper (pf_outer f2) /\ 1 <= s /\
  route_polyface_outers j [f1] (Some s) None = Ok g1 /\
  route_polyface_outers j [f1; f2] (Some s) None = Ok (g1 ++ g2) /\
  g2 = access ++ cuts ++ [m] /\
  moves_along cuts (steps (pf_outer f2)) /\
  straight_cut m /\ at_height m (pf_depth f2) /\
  exists a b, segment_of m a b /\ a <> b /\
    ~ along (pf_outer f1) a b /\ ~ along (pf_outer f2) a b /\ s * s < sqd a b.
Proof. exact chord_refuted. Qed.
Print Assumptions C25_chord_refuted.

(** ** C26 *)
(** Full statement: a link is at most the stepover long.  Missing (false in the code): stepovers
    below 1, where only the square of the length is bounded by the stepover. *)
Theorem C26_links_partial : forall j fs so pp cmds, route_polyface_outers j fs so pp = Ok cmds ->
  exists gs, cmds = concat gs /\ Forall2 (link_ok so) fs gs.
Proof. exact outers_links. Qed.
Print Assumptions C26_links_partial.

Theorem C26_gap_refuted : exists j fs s cmds m a b,
  (forall f, In f fs -> closed_path (pf_outer f) /\ proper (pf_outer f)) /\ 0 < s /\
  route_polyface_outers j fs (Some s) None = Ok cmds /\ retracts cmds = 1%nat /\
  In m cmds /\ straight_cut m /\ segment_of m a b /\ s * s < sqd a b /\
  (forall f, In f fs -> ~ along (pf_outer f) a b).
Proof. exact gap_refuted. Qed.
Print Assumptions C26_gap_refuted.
Example C26_example : exists cmds, route_polyface_outers ex_job nested (Some (qq 3 2)) None = Ok cmds /\ (retracts cmds <= 1)%nat /\ List.length cmds = 14%nat.
Proof. destruct ex_nested as (cmds & E & _ & R & L & _). exists cmds. repeat split; assumption. Qed.

(** The other way round: contours a stepover apart are meant to be linked, but if the stepover is more
    than 1 they never are, since its square is more than the stepover.  The tool is lifted before every
    contour, and all but the first end with a chord. *)
Theorem C26_never_linked : forall j f fs s pp cmds, route_polyface_outers j (f :: fs) (Some s) pp = Ok cmds ->
  (forall g, In g (f :: fs) -> closed_path (pf_outer g) /\ steps (pf_outer g) <> []) -> 1 < s -> spaced s (map pf_outer (f :: fs)) ->
  exists p0 g gs, cmds = g ++ concat gs /\ hd_error (pf_outer f) = Some p0 /\ lifted_over p0 (steps (pf_outer f)) g /\ Forall2 (fun f g => round_and_chord (pf_outer f) g) fs gs.
Proof. exact spaced_lifted. Qed.
Print Assumptions C26_never_linked.
Example C26_spaced_example : exists cmds, route_polyface_outers ex_job two_squares (Some (qz 2)) None = Ok cmds /\
  (forall g, In g two_squares -> closed_path (pf_outer g) /\ steps (pf_outer g) <> []) /\ 1 < qz 2 /\ spaced (qz 2) (map pf_outer two_squares) /\ retracts cmds = 2%nat.
Proof. exact ex_spaced. Qed.

(** ** C27 *)
(** Full statement: every feed move is vertical, along a contour or no longer than the stepover.
    Missing (false in the code): stepovers below 1 (C26) and contours entered by a second retract
    (C25). *)
Theorem C27_follows_partial : forall j fs so pp cmds, route_polyface_outers j fs so pp = Ok cmds ->
  (forall f, In f fs -> closed_path (pf_outer f)) ->
  (forall s, so = Some s -> 0 < s -> 1 <= s) -> (retracts cmds <= 1)%nat ->
  Forall (fun m => ~ rapid m -> vertical m \/ follows so fs m) cmds.
Proof. exact outers_follow. Qed.
Print Assumptions C27_follows_partial.

(** For any stepover and any number of retracts: vertical, along a contour, a link to the contour
    (its squared length at most the stepover), or the chord of C25. *)
Theorem C27_cuts_partial : forall j fs so pp cmds, route_polyface_outers j fs so pp = Ok cmds ->
  (forall f, In f fs -> closed_path (pf_outer f)) ->
  Forall (fun m => ~ rapid m -> vertical m \/ exists f a b, In f fs /\ segment_of m a b /\
    (along (pf_outer f) a b \/
     (exists s, so = Some s /\ on_path b (pf_outer f) /\ sqd a b <= s) \/
     (hd_error (pf_outer f) = Some a /\ on_path b (pf_outer f)))) cmds.
Proof. exact outers_cuts. Qed.
Print Assumptions C27_cuts_partial.

Theorem C27_chord_refuted : exists j fs s cmds m a b,
  (forall f, In f fs -> closed_path (pf_outer f) /\ proper (pf_outer f)) /\ 1 <= s /\
  route_polyface_outers j fs (Some s) None = Ok cmds /\ In m cmds /\ straight_cut m /\
  segment_of m a b /\ a <> b /\ s * s < sqd a b /\ (forall f, In f fs -> ~ along (pf_outer f) a b).
Proof. exact chord_refuted_27. Qed.
Print Assumptions C27_chord_refuted.
Example C27_example : exists cmds, route_polyface_outers ex_job nested (Some (qq 3 2)) None = Ok cmds /\
  (forall f, In f nested -> closed_path (pf_outer f)) /\ (1 <= qq 3 2)%Qc /\ (retracts cmds <= 1)%nat.
Proof. destruct ex_nested as (cmds & E & C & R & _). exists cmds. split; [exact E|]. split; [intros f F; apply C, F|]. split; [discriminate|exact R]. Qed.

(** ** C28 *)
Theorem C28_edge_chain : forall K e prec sp ep arrow feed cmds v,
  edge_sound e ->
  (is_spline_geom (e_geom e) = true -> sp = None /\ ep = None) ->
  route_edge K e prec sp ep arrow feed = Ok (cmds, v) ->
  let a := match sp with None => travel_start e | Some p => e_param e p end in
  let b := match ep with None => travel_end e | Some p => e_param e p end in
  v = b /\ cmds <> [] /\ Forall (fun m => ~ rapid m /\ m_feed m = feed) cmds /\
  continuous (from_vector a) cmds /\ after (from_vector a) cmds = from_vector b.
Proof. exact route_edge_chain. Qed.
Print Assumptions C28_edge_chain.

Theorem C28_edge_shape : forall K e prec arrow feed cmds v,
  edge_sound e -> route_edge K e prec None None arrow feed = Ok (cmds, v) ->
  match e_geom e with
  | GLINE => exists m, cmds = [m] /\ line_command (travel_start e) (travel_end e) feed m
  | GARC | GCIRCLE =>
      exists cw, is_arc_clockwise2 e = Ok cw /\
      if e_closed e then
        exists m1 m2, cmds = [m1; m2] /\
          arc_command cw (e_center e) (travel_start e) (travel_param e (qq 1 4)) (travel_param e (qq 1 2)) feed m1 /\
          arc_command cw (e_center e) (travel_param e (qq 1 2)) (travel_param e (qq 3 4)) (travel_end e) feed m2
      else if k_veq K (travel_start e) (travel_end e) then
        exists m, cmds = [m] /\ line_command (travel_start e) (travel_end e) feed m
      else exists m, cmds = [m] /\
          arc_command cw (e_center e) (travel_start e) (travel_param e (qq 1 2)) (travel_end e) feed m
  | GBSPLINE | GSPLINE | GOFFSET =>
      let n := edge_interpolation_count e prec in
      length cmds = n /\ Forall straight_cut cmds /\
      (forall k m, nth_error cmds k = Some m ->
         m_end m = from_vector (travel_pos e (qz (Z.of_nat k) / qz (Z.of_nat n - 1))))
  | GOTHER => False
  end.
Proof. exact route_edge_shape. Qed.
Print Assumptions C28_edge_shape.

Theorem C28_edge_errors : forall K e prec sp ep arrow feed x,
  route_edge K e prec sp ep arrow feed = Err x <->
  x = RuntimeError /\ (e_geom e = GOTHER \/ (is_arc_geom (e_geom e) = true /\ vz (e_normal e) = 0)).
Proof. exact route_edge_error. Qed.
Print Assumptions C28_edge_errors.

(** A sub-range of a spline is not respected: it is cut again from its start. *)
Theorem C28_subrange_refuted : exists e p cmds m rest, edge_sound e /\ 0 < p /\ p < 1 /\
  route_edge K0 e 1 (Some p) None true (Some (PInt 300)) = Ok (cmds, travel_end e) /\
  cmds = m :: rest /\ m_start m = from_vector (e_param e p) /\ m_end m = from_vector (travel_start e) /\
  travel_start e <> e_param e p.
Proof. exact subrange_refuted. Qed.
Print Assumptions C28_subrange_refuted.
(** Exactly: whatever sub-range of a spline is asked for, the whole of it is cut after a first cut from
    the start of the sub-range, and the end of the sub-range is answered although the tool is at the end of the spline. *)
Theorem C28_spline_subrange : forall K e prec sp ep arrow feed cmds v, edge_sound e -> is_spline_geom (e_geom e) = true ->
  route_edge K e prec sp ep arrow feed = Ok (cmds, v) ->
  let a := match sp with None => travel_start e | Some p => e_param e p end in
  exists whole, route_edge K e prec None None arrow feed = Ok (whole, travel_end e) /\
    v = match ep with None => travel_end e | Some p => e_param e p end /\
    Forall (fun m => straight_cut m /\ m_feed m = feed) cmds /\ map m_end cmds = map m_end whole /\
    continuous (from_vector a) cmds /\ after (from_vector a) cmds = from_vector (travel_end e).
Proof. exact spline_subrange. Qed.
Print Assumptions C28_spline_subrange.
Example C28_subrange_example : edge_sound (parabola 1 false) /\ is_spline_geom (e_geom (parabola 1 false)) = true /\
  exists cmds, route_edge K0 (parabola 1 false) 1 None (Some (qq 1 2)) true (Some (PInt 300)) = Ok (cmds, e_param (parabola 1 false) (qq 1 2)) /\
  e_param (parabola 1 false) (qq 1 2) <> travel_end (parabola 1 false).
Proof. exact subrange_example. Qed.

Example C28_example_circle : exists cmds v, edge_sound (circle 1 true 3 4 (-1)) /\
  route_edge K0 (circle 1 true 3 4 (-1)) 3 None None true (Some (PInt 300)) = Ok (cmds, v) /\
  text_of (Ok cmds) = ["G2 X3 Y5 Z-1 I0 J1 K0 F300"; "G2 X3 Y3 Z-1 I0 J-1 K0 F300"]%string.
Proof. exact ex_circle. Qed.
Example C28_example_spline : exists cmds v, edge_sound (parabola 1 true) /\
  route_edge K0 (parabola 1 true) 1 None None true (Some (PInt 300)) = Ok (cmds, v) /\ List.length cmds = 10%nat.
Proof. exact ex_spline. Qed.

(** ** C29 *)
Theorem C29_arc_direction : forall e p,
  dot (e_normal e) (vsub p (e_center e)) = 0 -> vsub p (e_center e) <> V3 0 0 0 ->
  (forall b, is_arc_clockwise2 e = Ok b -> (b = true <-> turns_clockwise (e_normal e) (e_center e) p (e_reversed e))) /\
  (is_arc_clockwise2 e = Err RuntimeError <-> vz (e_normal e) = 0) /\
  (forall x, is_arc_clockwise2 e = Err x -> x = RuntimeError).
Proof. exact arc_direction. Qed.
Print Assumptions C29_arc_direction.

Theorem C29_arc_direction_by_points : forall s m e,
  (forall b, is_arc_clockwise s m e = Ok b -> (b = true <-> vz (cross (vsub m s) (vsub e m)) < 0)) /\
  (forall x, is_arc_clockwise s m e = Err x <-> x = NotImplementedError /\ vz s <> vz m).
Proof. exact arc_direction3. Qed.
Print Assumptions C29_arc_direction_by_points.

Example C29_example : exists b, is_arc_clockwise2 (half 1 false 3 4 (-1)) = Ok b /\
  dot (e_normal (half 1 false 3 4 (-1))) (vsub (half_point 3 4 (-1) (qq 1 3)) (e_center (half 1 false 3 4 (-1)))) = 0 /\
  vsub (half_point 3 4 (-1) (qq 1 3)) (e_center (half 1 false 3 4 (-1))) <> V3 0 0 0.
Proof. exact ex_arc_dir. Qed.

(** ** C30 *)
Theorem C30_wires_safe : forall K j ws so pp cmds, route_wires K j ws so pp = Ok cmds ->
  Forall (fun m => (rapid m -> safe_rapid (j_rapid_height j) (j_op_safe_height j) m) /\
                   (~ rapid m -> feed_ok (j_op_safe_height j) (j_plunge_feed j) (j_feed j) m)) cmds.
Proof. exact wires_safe. Qed.
Print Assumptions C30_wires_safe.

(** Full statement: every command starts where the machine is.  Missing (false in the code):
    nearest-point answers inside an edge that is not linked to, with parameter 0 or on a spline. *)
Theorem C30_continuous_partial : forall K j ws so pp cmds, route_wires K j ws so pp = Ok cmds ->
  (forall w e, In w ws -> In e (wire_edges w) -> edge_sound e) ->
  (forall w, In w ws -> connected (wire_edges w)) ->
  (so <> None -> forall w, In w ws -> loop (wire_edges w)) ->
  (forall w e rest, In w ws -> wire_edges w = e :: rest -> vz (travel_start e) < j_op_safe_height j) ->
  (forall w u, In w ws -> good_answer so w (k_nearest K u w)) ->
  continuous (dflt pp av_none) cmds.
Proof. exact wires_continuous. Qed.
Print Assumptions C30_continuous_partial.

Theorem C30_in_order_partial : forall K j ws so pp cmds, route_wires K j ws so pp = Ok cmds ->
  (forall w, In w ws -> wire_edges w <> []) ->
  (forall w e, In w ws -> In e (wire_edges w) -> edge_sound e) ->
  (forall w u d id p, In w ws -> k_nearest K u w <> Some (d, TEdge id p)) ->
  exists gs, cmds = concat gs /\ Forall2 (travelled so) ws gs.
Proof. exact wires_travelled. Qed.
Print Assumptions C30_in_order_partial.

Theorem C30_parameter_refuted : exists K j ws cmds pre m post,
  (forall w e, In w ws -> In e (wire_edges w) -> edge_sound e) /\
  (forall w, In w ws -> connected (wire_edges w)) /\
  (forall w e rest, In w ws -> wire_edges w = e :: rest -> vz (travel_start e) < j_op_safe_height j) /\
  route_wires K j ws None None = Ok cmds /\
  cmds = pre ++ m :: post /\ ~ rapid m /\ ~ straight_cut m /\ m_start m <> after av_none pre /\
  ~ continuous av_none cmds.
Proof. exact param_refuted. Qed.
Print Assumptions C30_parameter_refuted.

Example C30_example : exists cmds,
  route_wires K0 ex_job [seg_wire 0; seg_wire 5; WEdge (circle 7 false 10 0 (-1))] None None = Ok cmds /\
  (forall w, In w [seg_wire 0; seg_wire 5; WEdge (circle 7 false 10 0 (-1))] -> wire_edges w <> [] /\ connected (wire_edges w)) /\
  (forall w e, In w [seg_wire 0; seg_wire 5; WEdge (circle 7 false 10 0 (-1))] -> In e (wire_edges w) -> edge_sound e) /\
  (forall w u, good_answer None w (k_nearest K0 u w)) /\
  List.length cmds = 18%nat.
Proof. exact ex_wires. Qed.
Example C30_example_linked : exists cmds,
  route_wires link_kernel ex_job [loop_wire 1 3 20; loop_wire 0 5 10] (Some (qz 1)) None = Ok cmds /\
  (forall w, In w [loop_wire 1 3 20; loop_wire 0 5 10] -> loop (wire_edges w)) /\
  (forall w e, In w [loop_wire 1 3 20; loop_wire 0 5 10] -> In e (wire_edges w) -> edge_sound e) /\
  (forall w u, In w [loop_wire 1 3 20; loop_wire 0 5 10] -> good_answer (Some (qz 1)) w (k_nearest link_kernel u w)) /\
  retracts cmds = 1%nat.
Proof. exact ex_linked. Qed.

(** When a wire is entered by a cut: exactly if it is near enough to where the wire before was left. *)
Theorem C30_joined : forall K j ws so pp cmds, route_wires K j ws so pp = Ok cmds -> (forall w, In w ws -> wire_edges w <> []) ->
  (forall w e, In w ws -> In e (wire_edges w) -> edge_sound e) ->
  (forall w u d id p e, In w ws -> k_nearest K u w = Some (d, TEdge id p) -> In e (wire_edges w) -> is_spline_geom (e_geom e) = false) ->
  exists gs, cmds = concat gs /\ joined K so None ws gs.
Proof. exact routed_joined. Qed.
Print Assumptions C30_joined.
Example C30_joined_example : (forall w e, In w [loop_wire 1 3 20; loop_wire 0 5 10] -> In e (wire_edges w) -> is_spline_geom (e_geom e) = false) /\
  exists c1 c2, route_wires link_kernel ex_job [loop_wire 1 3 20; loop_wire 0 5 10] (Some (qz 1)) None = Ok c1 /\ retracts c1 = 1%nat /\
    route_wires link_kernel ex_job [loop_wire 1 3 20; loop_wire 0 5 10] (Some (qq 1 2)) None = Ok c2 /\ retracts c2 = 2%nat.
Proof. exact loops_joined. Qed.

(** ** C31 *)
(** Full statement: every non-empty wire gets cutting moves.  Missing (false in the code): lists
    containing an empty wire. *)
Theorem C31_covered_partial : forall K j ws so pp cmds, route_wires K j ws so pp = Ok cmds ->
  (forall w, In w ws -> wire_edges w <> []) ->
  exists gs, cmds = concat gs /\ Forall2 (covers (j_feed j)) ws gs.
Proof. exact wires_covered. Qed.
Print Assumptions C31_covered_partial.

Theorem C31_empty_wire_drops_all : forall K j ws so pp cmds w, route_wires K j ws so pp = Ok cmds ->
  In w ws -> wire_edges w = [] -> cmds = [].
Proof. exact wires_dropped. Qed.
Print Assumptions C31_empty_wire_drops_all.

(** When there is an error: edges there are no moves for, and answers that are not about the wire. *)
Theorem C31_errors : forall K j ws so pp x, route_wires K j ws so pp = Err x ->
  exists w, In w ws /\ ((x = RuntimeError /\ exists e, In e (wire_edges w) /\ ~ routable e) \/
    (x = ValueError /\ exists u d t, k_nearest K u w = Some (d, t) /\ ~ part_of K w t)).
Proof. exact wires_error. Qed.
Print Assumptions C31_errors.
Theorem C31_total : forall K j ws so pp, (forall w e, In w ws -> In e (wire_edges w) -> routable e) ->
  (forall w u d t, In w ws -> k_nearest K u w = Some (d, t) -> part_of K w t) -> exists cmds, route_wires K j ws so pp = Ok cmds.
Proof. exact wires_total. Qed.
Print Assumptions C31_total.
Theorem C31_routable : forall K j ws so pp cmds, route_wires K j ws so pp = Ok cmds -> (forall w, In w ws -> wire_edges w <> []) ->
  forall w e, In w ws -> In e (wire_edges w) -> routable e.
Proof. exact wires_routable. Qed.
Print Assumptions C31_routable.
Example C31_errors_example : (forall w e, In w [loop_wire 1 3 20; loop_wire 0 5 10] -> In e (wire_edges w) -> routable e) /\
  (forall w u d t, In w [loop_wire 1 3 20; loop_wire 0 5 10] -> k_nearest own_kernel u w = Some (d, t) -> part_of own_kernel w t) /\
  route_wires own_kernel ex_job [loop_wire 1 3 20; WEdge odd_edge] (Some 1) None = Err RuntimeError /\
  route_wires link_kernel ex_job [loop_wire 0 5 10; loop_wire 1 3 20] (Some 1) None = Err ValueError.
Proof. exact wires_total_example. Qed.

Theorem C31_dropped_refuted : exists K j ws cmds w,
  In w ws /\ wire_edges w <> [] /\ (forall e, In e (wire_edges w) -> edge_sound e) /\
  route_wires K j ws None None = Ok cmds /\ cmds = [].
Proof. exact drop_refuted. Qed.
Print Assumptions C31_dropped_refuted.

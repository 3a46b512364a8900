(** * Property C121: holding tabs on the machine *)
From Verif Require Import Base.Str Base.Py Spec.Gcode Spec.Blocks Spec.Machine Spec.Program Spec.Jobs Spec.Axes Spec.Wires Spec.Tabs Spec.Profiles Spec.Rapids Spec.OnMachine Spec.Traced Spec.TabsMade
  Model.Groups Model.Geometry Model.Plane Model.Edges Model.Job Model.Routers Model.Tabs Model.Profile
  Proofs.RouteEx Proofs.TabsEx Proofs.ProfileEx Proofs.RatesEx Proofs.OnMachineEx Proofs.TabsMadeP Proofs.TabsMadeEx Proofs.CornerMadeEx.
Local Open Scope Qc_scope.
Local Open Scope list_scope.

(** ** C121 *)
(** The program of a profile with tabs of either kind ends with one group of moves for each offset
    wire, holes first.  The wire is cut in passes a stepdown apart; a pass that is not below the tops
    of the tabs follows the wire at its height, a lower one follows the wire with tabs, whose tops are
    at the same height in every pass.
    Full statement: for all wires and tabs.  Missing (false in the code): the tabs that [tabs_fit]
    excludes (C43_overlap_refuted, C44_unordered_refuted, C45_corner_refuted), wires met by the plane
    [clear_of_top] speaks about (C40_plane_refuted), answers of the kernel inside an edge
    (C30_parameter_refuted); wires that are not flat. *)
Theorem C121_profile_partial : forall K TK WK h r shapes oo io sd t tl h' r' j' st radius inners outers, user_heap h ->
  job_profile K TK WK h r shapes oo io sd t tl = (h', Ok r') -> hget h' r' = Some j' -> job_printable h' j' -> ms_ended st = false ->
  only_ends K -> makes_edges TK -> (forall l, tk_assemble TK l = Some l) -> rigid TK WK -> (forall s, sd = Some s -> 0 <= s) -> qq (-1) 1000 <= j_op_safe_height j' ->
  tool_radius j' = Some radius -> offsets_of K WK (j_top j') radius (flat_map inners_of shapes) io inners -> offsets_of K WK (j_top j') radius (flat_map outer_of shapes) oo outers ->
  (forall b, In b (inners ++ outers) -> cut_ready TK WK (j_top j') sd t (j_op_safe_height j') b) ->
  exists p bs before groups, to_gcode h' r' = Ok p /\ parse_program p = Some bs /\ snd (run st bs) = before ++ concat groups /\ continues h r st before /\
    Forall2 (profile_followed K TK WK (j_op_safe_height j') (j_plunge_feed j') (j_feed j') sd t) (inners ++ outers) groups.
Proof. exact profile_followed_ok. Qed.
Print Assumptions C121_profile_partial.
Theorem C121_wire_profile_partial : forall K TK WK h r ws o sd t tl h' r' j' st radius bases, user_heap h ->
  job_wire_profile K TK WK h r ws o sd t tl = (h', Ok r') -> hget h' r' = Some j' -> job_printable h' j' -> ms_ended st = false ->
  only_ends K -> makes_edges TK -> (forall l, tk_assemble TK l = Some l) -> rigid TK WK -> (forall s, sd = Some s -> 0 <= s) -> qq (-1) 1000 <= j_op_safe_height j' ->
  tool_radius j' = Some radius -> offsets_of K WK (j_top j') radius ws (Some o) bases ->
  (forall b, In b bases -> cut_ready TK WK (j_top j') sd t (j_op_safe_height j') b) ->
  exists p bs before groups, to_gcode h' r' = Ok p /\ parse_program p = Some bs /\ snd (run st bs) = before ++ concat groups /\ continues h r st before /\
    Forall2 (profile_followed K TK WK (j_op_safe_height j') (j_plunge_feed j') (j_feed j') sd t) bases groups.
Proof. exact wire_profile_followed. Qed.
Print Assumptions C121_wire_profile_partial.
(** A square at -5 in passes 2 apart, with a tab of height 2 on every side, or with two tabs of
    height 1 around the first and third corner. *)
Example C121_example : user_heap [ex_job] /\
  (only_ends K0 /\ makes_edges flat_tk /\ (forall l, tk_assemble flat_tk l = Some l) /\ rigid flat_tk follow_wk /\ (forall s, Some (qz 2) = Some s -> 0 <= s)) /\
  (forall t, t = edge_tabs \/ t = wire_tabs2 ->
    job_wire_profile K0 flat_tk follow_wk [ex_job] 0%nat [tab_square] 0 (Some (qz 2)) t None = (tabbed_heap t, Ok 1%nat) /\
    (exists j, hget (tabbed_heap t) 1%nat = Some j /\ job_printable (tabbed_heap t) j /\ tool_radius j = Some (qq 3 2) /\ qq (-1) 1000 <= j_op_safe_height j /\
      offsets_of K0 follow_wk (j_top j) (qq 3 2) [tab_square] (Some 0) [tab_square] /\
      (forall b, In b [tab_square] -> cut_ready flat_tk follow_wk (j_top j) (Some (qz 2)) t (j_op_safe_height j) b))) /\
  runs (heights (tabbed_heap edge_tabs) 1%nat) =
    [(Some (-1), 5); (Some (-3), 5); (Some (-5), 2); (Some (-3), 2); (Some (-5), 3); (Some (-3), 2); (Some (-5), 3); (Some (-3), 2); (Some (-5), 3); (Some (-3), 2); (Some (-5), 2)]%Z /\
  runs (heights (tabbed_heap wire_tabs2) 1%nat) =
    [(Some (-1), 5); (Some (-3), 5); (Some (-4), 2); (Some (-5), 3); (Some (-4), 3); (Some (-5), 3); (Some (-4), 2)]%Z.
Proof. exact (conj start_user (conj ex_tab_kernels (conj ex_tabs_made ex_tab_heights))). Qed.

(** A tab of a flat wire that ends at a corner: the tool does not go down there but on the way to the
    next corner, so the tab goes on under a slanted cut. *)
Theorem C121_corner_refuted : exists K TK WK h r ws o c width height h' r' j' st radius b d p bs ev, user_heap h /\
  job_wire_profile K TK WK h r ws o None (Some (WireTabs c width height)) None = (h', Ok r') /\ hget h' r' = Some j' /\ job_printable h' j' /\ ms_ended st = false /\
  only_ends K /\ makes_edges TK /\ (forall l, tk_assemble TK l = Some l) /\ rigid TK WK /\
  tool_radius j' = Some radius /\ offsets_of K WK (j_top j') radius ws (Some o) [b] /\ flat d b /\ loop b /\ (forall e, In e b -> edge_sound e /\ e_geom e = GLINE /\ 0 < e_length e) /\
  0 < width /\ width * qz (Z.of_nat c) < qsum (map e_length b) /\
  to_gcode h' r' = Ok p /\ parse_program p = Some bs /\ In ev (snd (run st bs)) /\ ev_kind ev = GLinear /\ ~ same_xy ev /\
  ms_z (ev_from ev) = Some (d + height) /\ ms_z (ev_to ev) = Some d.
Proof. exact corner_cut_refuted. Qed.
Print Assumptions C121_corner_refuted.

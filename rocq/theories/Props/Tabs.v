(** * Theorems about holding tabs (C42-C45) *)
From Verif Require Import Base.Py Model.Tabs Spec.Wires Spec.Tabs Spec.Corners Proofs.RouteEx Proofs.WireTabsP Proofs.TabPiecesP Proofs.TabsEx Proofs.WireTabsMeetP Proofs.CornersP.
Local Open Scope Qc_scope.
Local Open Scope list_scope.

(** ** C42 *)
Theorem C42_edge_tabs : forall spacing width only e ds, 0 < width -> width < spacing -> 0 < e_length e ->
  edge_ds spacing width only e = Ok ds -> wants_tabs only e ->
  exists n, length ds = n /\
    qz (Z.of_nat n) * spacing <= e_length e /\ e_length e < qz (Z.of_nat n + 1) * spacing /\
    forall k, (1 <= k <= n)%nat -> exists a b, nth_error ds (k - 1) = Some (a, b) /\
      (b - a) * e_length e = width /\ (a + b) / qz 2 = qz (Z.of_nat k) / qz (Z.of_nat n + 1) /\ 0 < a /\ b < 1.
Proof. exact edge_tabs_list. Qed.
Print Assumptions C42_edge_tabs.
Theorem C42_alternate : forall ds i t, nth_error (map snd (edge_transitions ds)) i = Some t ->
  (i < 2 * length ds + 2)%nat /\ (t = TTAB <-> Nat.odd i = true /\ (i < 2 * length ds)%nat) /\ (t = TTAB \/ t = TNORMAL).
Proof. exact edge_alternate. Qed.
Print Assumptions C42_alternate.

Example C42_example :
  match edge_ds (qz 3) 1 (Some GLINE) (side 1 false (zv 0 0 0) (zv 10 0 0) (qz 10)) with
  | Ok ds => positions (edge_transitions ds) =
      [(0, TNORMAL); (200, TTAB); (300, TNORMAL); (450, TTAB); (550, TNORMAL); (700, TTAB); (800, TNORMAL); (1000, TNORMAL)]%Z
  | Err _ => False
  end.
Proof. vm_compute. reflexivity. Qed.

(** ** C43 *)
(** The check of the constructor does not keep tabs apart. *)
Theorem C43_overlap_refuted : exists spacing width height e t ds,
  edge_tabs spacing width height None = Ok t /\ 0 < width /\ 0 < e_length e /\
  edge_ds spacing width None e = Ok ds /\ ~ forwards (edge_transitions ds) /\
  exists a b a' b', nth_error ds 0 = Some (a, b) /\ nth_error ds 1 = Some (a', b') /\ a' < b.
Proof. exact spacing_overlap. Qed.
Print Assumptions C43_overlap_refuted.

(** What the constructor checks. *)
Theorem C43_check : forall spacing width height only,
  (width < spacing -> edge_tabs spacing width height only = Ok (EdgeTabs spacing width height only)) /\
  (spacing <= width -> edge_tabs spacing width height only = Err ValueError).
Proof. exact TabsP.edge_tabs_check. Qed.
Print Assumptions C43_check.

(** Exactly when two or more tabs overlap. *)
Theorem C43_overlap_exactly : forall spacing width only e ds, 0 < width -> width < spacing -> 0 < e_length e ->
  edge_ds spacing width only e = Ok ds -> wants_tabs only e ->
  (2 <= length ds)%nat -> (forwards (edge_transitions ds) <-> width * qz (Z.of_nat (length ds) + 1) <= e_length e).
Proof. exact edge_tabs_overlap. Qed.
Print Assumptions C43_overlap_exactly.

(** With room, or with a spacing of one and a half widths on every edge, the transitions describe
    the tabs. *)
Theorem C43_no_overlap_partial : forall spacing width only e ds, 0 < width -> width < spacing -> 0 < e_length e ->
  edge_ds spacing width only e = Ok ds -> wants_tabs only e ->
  let n := tab_count spacing (e_length e) in
  (n <= 1)%nat \/ width * qz (Z.of_nat n + 1) <= e_length e ->
  describes (in_edge_tab (e_length e) width n) (edge_transitions ds).
Proof. exact TabsP.edge_tabs_describe. Qed.
Print Assumptions C43_no_overlap_partial.
Theorem C43_room_partial : forall spacing width length, 0 < width -> width < spacing -> 0 < length ->
  qz 3 * width <= qz 2 * spacing ->
  let n := tab_count spacing length in (n <= 1)%nat \/ width * qz (Z.of_nat n + 1) <= length.
Proof. exact TabsP.room_for_tabs. Qed.
Print Assumptions C43_room_partial.

Example C43_example : qz 3 * 1 <= qz 2 * qz 3 /\ tab_count (qz 3) (qz 10) = 3%nat.
Proof. split; [discriminate|vm_compute; reflexivity]. Qed.

(** ** C44 *)
(** A circle with two tabs. *)
Theorem C44_unordered_refuted : exists count width e ms,
  0 < width /\ 0 < e_length e /\ width * qz (Z.of_nat count) <= e_length e /\
  wire_marks (WireTabs count width 1) (e_length e) [e] = Ok [ms] /\ ~ forwards ms /\
  positions ms = [(0, TTAB); (83, TNORMAL); (916, TTAB); (416, TTAB); (583, TNORMAL); (1000, TIGNORE)]%Z.
Proof. exact circle_two_tabs. Qed.
Print Assumptions C44_unordered_refuted.

(** The transitions of every edge describe its part of the tabs, unless the edge contains the start
    of the tab at the end of the wire and some other tab; then they run backwards. *)
Theorem C44_transitions_partial : forall c width height es, (1 <= c)%nat -> 0 < width -> es <> [] ->
  (forall e, In e es -> 0 < e_length e) ->
  let L := qsum (map e_length es) in
  width * qz (Z.of_nat c) <= L ->
  exists ds ms, wire_marks (WireTabs c width height) L es = Ok ms /\ ms = map (wire_transitions ds) (shares L 0 (map e_length es)) /\
    forall r, In r (shares L 0 (map e_length es)) ->
      (~ wraps_behind c width L (fst r) (snd r) -> describes (fun d => in_wire_tab c width L (on_wire r d)) (wire_transitions ds r)) /\
      (wraps_behind c width L (fst r) (snd r) -> ~ forwards (wire_transitions ds r)).
Proof. exact wire_tabs_marks. Qed.
Print Assumptions C44_transitions_partial.

Example C44_example : match wire_marks (WireTabs 2 1 1) (qz 16) tab_square with
  | Ok ms => map positions ms =
      [[(0, TTAB); (125, TNORMAL); (1000, TIGNORE)]; [(0, TNORMAL); (875, TTAB); (1000, TIGNORE)];
       [(0, TTAB); (125, TNORMAL); (1000, TIGNORE)]; [(0, TNORMAL); (875, TTAB); (1000, TIGNORE)]]%Z
  | Err _ => False
  end /\ qsum (map e_length tab_square) = qz 16 /\ 1 * qz 2 <= qz 16.
Proof. split; [vm_compute; reflexivity|]. split; [apply Qc_is_canon; reflexivity|discriminate]. Qed.

(** Four tabs on the corners of a square: the last side runs backwards. *)
Example C44_square_example : match wire_marks (WireTabs 4 1 1) (qz 16) tab_square with
  | Ok ms => positions (last ms []) = [(0, TNORMAL); (875, TTAB); (0, TTAB); (125, TNORMAL); (1000, TIGNORE)]%Z
  | Err _ => False
  end.
Proof. vm_compute. reflexivity. Qed.

(** ** C45 *)
(** One edge, any usable transitions: it is replaced by pieces that follow it at the right heights,
    joined by vertical lines. *)
Theorem C45_edge_pieces : forall TK z e ts out,
  makes_edges TK -> edge_on_curve TK e -> moved_vertically TK e -> usable ts ->
  tab_edge TK z e ts = Ok out -> replaced TK z e ts out.
Proof. exact tab_edge_pieces. Qed.
Print Assumptions C45_edge_pieces.

(** Tabs on edges: the wire keeps its path and stays connected. *)
Theorem C45_edge_tabs : forall TK es tab_z spacing width height only w, makes_edges TK ->
  (forall e, In e es -> edge_sound e /\ edge_on_curve TK e /\ moved_vertically TK e) ->
  0 < width -> width < spacing -> (forall e, In e es -> 0 < e_length e /\ roomy spacing width e) ->
  tk_zmin TK es < tab_z -> connected es ->
  (forall l, tk_assemble TK l = Some l) ->
  apply_tabs TK es tab_z (EdgeTabs spacing width height only) = Ok w ->
  exists ms outs,
    Forall2 (fun e m => describes (edge_tab_set spacing width only e) m) es ms /\
    Forall2 (fun em out => replaced TK tab_z (fst em) (snd em) out) (combine es ms) outs /\
    w = concat outs /\ connected w.
Proof. exact edge_tabs_applied. Qed.
Print Assumptions C45_edge_tabs.

(** Tabs on wires: the same, if no tab ends at a corner and none wraps behind another on one edge. *)
Theorem C45_wire_tabs_partial : forall TK es tab_z c width height w, makes_edges TK -> (1 <= c)%nat -> 0 < width -> takes_wire_tabs TK c width es ->
  tk_zmin TK es < tab_z -> (forall l, tk_assemble TK l = Some l) ->
  apply_tabs TK es tab_z (WireTabs c width height) = Ok w -> tabbed_wire TK tab_z c width es w.
Proof. exact wire_tabs_applied. Qed.
Print Assumptions C45_wire_tabs_partial.
(** Two tabs on a square, around the first and the third corner. *)
Example C45_wire_example : makes_edges (straight_kernel (fun v => v)) /\ takes_wire_tabs (straight_kernel (fun v => v)) 2 (qz 2) tab_square /\
  tk_zmin (straight_kernel (fun v => v)) tab_square < qz (-4) /\
  zs (apply_tabs (straight_kernel (fun v => v)) tab_square (qz (-4)) (WireTabs 2 (qz 2) 1)) =
  [((0, 0, -4), (1, 0, -4)); ((1, 0, -4), (1, 0, -5)); ((1, 0, -5), (4, 0, -5)); ((4, 0, -5), (4, 3, -5)); ((4, 3, -5), (4, 3, -4)); ((4, 3, -4), (4, 4, -4));
   ((4, 4, -4), (3, 4, -4)); ((3, 4, -4), (3, 4, -5)); ((3, 4, -5), (0, 4, -5)); ((0, 4, -5), (0, 1, -5)); ((0, 1, -5), (0, 1, -4)); ((0, 1, -4), (0, 0, -4))]%Z.
Proof. exact ex_wire_tabbed. Qed.

(** Exactly when the wire stays connected: no tab ends where two edges meet.  (Tabs that wrap behind
    another on one edge are cut backwards, C44.) *)
Theorem C45_wire_tabs_connected : forall TK es tab_z c width height w, makes_edges TK -> (1 <= c)%nat -> 0 < width -> takes_wire_tabs_anywhere TK c width es ->
  tk_zmin TK es < tab_z -> (forall l, tk_assemble TK l = Some l) -> (forall e, In e es -> vz (travel_end e) <> tab_z) ->
  apply_tabs TK es tab_z (WireTabs c width height) = Ok w -> (connected w <-> ~ tab_ends_at_corner c width es).
Proof. exact wire_tabs_corners. Qed.
Print Assumptions C45_wire_tabs_connected.
(** The tab of C45_corner_refuted. *)
Example C45_connected_example : takes_wire_tabs_anywhere (straight_kernel (fun v => v)) 1 (qz 8) tab_square /\ tab_ends_at_corner 1 (qz 8) tab_square /\
  (forall e, In e tab_square -> vz (travel_end e) <> qz (-4)).
Proof. exact corner_fits. Qed.

(** Any tabs: the wire is connected if consecutive edges meet at the same height.  Missing for the
    full property: WireTabs need not arrange that. *)
Theorem C45_apply_tabs_partial : forall TK es tab_z t w, makes_edges TK ->
  (forall e, In e es -> edge_sound e /\ edge_on_curve TK e /\ moved_vertically TK e) ->
  tk_zmin TK es < tab_z ->
  apply_tabs TK es tab_z t = Ok w ->
  exists ms, wire_marks t (tk_length TK es) es = Ok ms /\
    (length ms = length es -> (forall m, In m ms -> usable m) ->
     exists outs, Forall2 (fun em out => replaced TK tab_z (fst em) (snd em) out) (combine es ms) outs /\
       (connected es -> tabs_meet ms -> connected (concat outs)) /\
       match tk_assemble TK (concat outs) with Some w' => w = w' | None => w = es end).
Proof. exact apply_tabs_spec. Qed.
Print Assumptions C45_apply_tabs_partial.

Theorem C45_above_tabs : forall TK es tab_z t, tab_z <= tk_zmin TK es -> apply_tabs TK es tab_z t = Ok es.
Proof. exact apply_tabs_above. Qed.
Print Assumptions C45_above_tabs.

(** A tab of a wire that ends at a corner leaves a jump without a vertical move. *)
Theorem C45_corner_refuted : exists w,
  apply_tabs (straight_kernel (fun v => v)) tab_square (qz (-4)) corner_tabs = Ok w /\
  connected tab_square /\ ~ connected w.
Proof. exact corner_tab_jump. Qed.
Print Assumptions C45_corner_refuted.

(** Tabs of an edge with a location are cut next to the edge. *)
Theorem C45_location_refuted :
  makes_edges shifted_kernel /\ edge_sound shifted_side /\ edge_on_curve shifted_kernel shifted_side /\
  zs (tab_edge shifted_kernel (qz (-4)) shifted_side one_tab) =
    [((100, 0, -5), (103, 0, -5)); ((103, 0, -5), (3, 0, -4)); ((3, 0, -4), (6, 0, -4));
     ((6, 0, -4), (106, 0, -5)); ((106, 0, -5), (109, 0, -5))]%Z.
Proof. exact tab_beside_edge. Qed.
Print Assumptions C45_location_refuted.

(** When the pieces cannot be assembled the wire is cut without tabs. *)
Theorem C45_tabs_dropped : forall TK es tab_z t ms outs, tk_zmin TK es < tab_z ->
  wire_marks t (tk_length TK es) es = Ok ms ->
  mapM (fun em => tab_edge TK tab_z (fst em) (snd em)) (combine es ms) = Ok outs ->
  tk_assemble TK (concat outs) = None -> apply_tabs TK es tab_z t = Ok es.
Proof. exact tabs_dropped. Qed.
Print Assumptions C45_tabs_dropped.

Example C45_example :
  zs (apply_tabs (straight_kernel (fun v => v)) (firstn 2 tab_square) (qz (-4)) (EdgeTabs (qz 3) 1 1 None)) =
  [((0, 0, -5), (1, 0, -5)); ((1, 0, -5), (1, 0, -4)); ((1, 0, -4), (2, 0, -4)); ((2, 0, -4), (2, 0, -5)); ((2, 0, -5), (4, 0, -5));
   ((4, 0, -5), (4, 1, -5)); ((4, 1, -5), (4, 1, -4)); ((4, 1, -4), (4, 2, -4)); ((4, 2, -4), (4, 2, -5)); ((4, 2, -5), (4, 4, -5))]%Z /\
  (forall e, In e tab_square -> 0 < e_length e /\ roomy (qz 3) 1 e).
Proof. split; [vm_compute; reflexivity|]. intros e [<-|[<-|[<-|[<-|[]]]]]; (split; [reflexivity|]); left; vm_compute; repeat constructor. Qed.

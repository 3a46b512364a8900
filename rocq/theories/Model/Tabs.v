(** * Model of /repo/src/cq_cam/operations/tabs.py and of [apply_tabs] in operations/profile.py *)
From Verif Require Import Base.Py.
From Verif Require Export Model.Edges.
Local Open Scope Qc_scope.
Local Open Scope list_scope.

(** tabs.py:9-12 *)
Inductive transition := TNORMAL | TTAB | TIGNORE.
Definition marks := list (Qc * transition).

(** tabs.py:27-35, 38-45, 76-83: the three classes of tabs.  A negative count (an error of numpy) is left out. *)
Inductive tabs :=
| NoTabs
| EdgeTabs (spacing width height : Qc) (only : option geom)
| WireTabs (count : nat) (width height : Qc).
(** tabs.py:41-42, the only check of the constructors. *)
Definition edge_tabs (spacing width height : Qc) (only : option geom) : result tabs :=
  if qleb spacing width then Err ValueError else Ok (EdgeTabs spacing width height only).
Definition tabs_height (t : tabs) : Qc :=
  match t with NoTabs => 0 | EdgeTabs _ _ h _ => h | WireTabs _ _ h => h end.

Definition geom_eqb (a b : geom) : bool :=
  match a, b with
  | GLINE, GLINE | GARC, GARC | GCIRCLE, GCIRCLE | GBSPLINE, GBSPLINE | GSPLINE, GSPLINE
  | GOFFSET, GOFFSET | GOTHER, GOTHER => true
  | _, _ => false
  end.

(** The inner points of numpy.linspace(0, 1, count + 2). *)
Definition inner_points (count : nat) : list Qc := removelast (tl (linspace 0 1 (count + 2))).

(** tabs.py:50-64: the tabs of one edge.  [only] is compared with the name of the geometry; names
    that no edge has are outside the model.  [length // spacing] is the floor of the quotient. *)
Definition edge_ds (spacing width : Qc) (only : option geom) (e : edge) : result (list (Qc * Qc)) :=
  let skip := match only with Some g => negb (geom_eqb (e_geom e) g) | None => false end in
  if skip then Ok []
  else if qeqb spacing 0 then Err ZeroDivisionError
  else
    let count := qfloor (e_length e / spacing) in
    if (count <=? 0)%Z then Ok []
    else if qeqb (e_length e) 0 then Err ZeroDivisionError
    else
      let half_d := 1 / e_length e * (width / qz 2) in
      Ok (map (fun d => (d - half_d, d + half_d)) (inner_points (Z.to_nat count))).

(** tabs.py:66-73 *)
Definition edge_transitions (ds : list (Qc * Qc)) : marks :=
  (0, TNORMAL) :: flat_map (fun d => [(fst d, TTAB); (snd d, TNORMAL)]) ds ++ [(1, TNORMAL)].

(** tabs.py:85-102 [load_wire]; [length] is wire.Length().
    linspace(0, 1, count, endpoint=False) is k/count. *)
Definition wire_tab_ds (count : nat) (width length : Qc) : result (list (Qc * Qc)) :=
  if qeqb length 0 then Err ZeroDivisionError
  else
    let half_d := 1 / length * (width / qz 2) in
    Ok (flat_map (fun k =>
          let d := qz (Z.of_nat k) / qz (Z.of_nat count) in
          let range := (d - half_d, d + half_d) in
          range :: (if qltb (fst range) 0 then [(fst range + 1, snd range + 1)] else [])
                ++ (if qltb 1 (snd range) then [(fst range - 1, snd range - 1)] else []))
        (seq 0 count)).

(** tabs.py:104-116 [load_ordered_edges]: the share of each edge of the wire.  [total] is the sum
    of the lengths. *)
Fixpoint edge_ranges (total previous : Qc) (lengths : list Qc) : list (Qc * Qc) :=
  match lengths with
  | [] => []
  | l :: ls =>
      let end_ := previous + l / total in
      (previous, qmin end_ 1) :: edge_ranges total end_ ls
  end.
Definition sum_lengths (ls : list Qc) : Qc := fold_left Qcplus ls 0.
Definition load_edge_ranges (es : list edge) : result (list (Qc * Qc)) :=
  let lengths := map e_length es in
  let total := sum_lengths lengths in
  match es with
  | [] => Ok []
  | _ => if qeqb total 0 then Err ZeroDivisionError else Ok (edge_ranges total 0 lengths)
  end.

(** tabs.py:159-161 *)
Definition wire_d_to_edge_d (d : Qc) (range : Qc * Qc) : Qc := (d - fst range) / (snd range - fst range).
Definition clamp01 (x : Qc) : Qc := qmin (qmax x 0) 1.

(** tabs.py:118-142 [WireTabs.edge_tab_transitions] for one edge range. *)
Definition tab_marks (range : Qc * Qc) (tab : Qc * Qc) : marks :=
  let '(s, e) := range in
  let '(a, b) := tab in
  (if qleb a s && qltb s b then [(0, TTAB)] else [])
  ++ (if qltb s a && qleb a e then [(clamp01 (wire_d_to_edge_d a range), TTAB)] else [])
  ++ (if qltb s b && qleb b e then [(clamp01 (wire_d_to_edge_d b range), TNORMAL)] else []).
Definition wire_transitions (tab_ds : list (Qc * Qc)) (range : Qc * Qc) : marks :=
  let ts := flat_map (tab_marks range) tab_ds in
  let ts := match ts with
            | (p, _) :: _ => if negb (qeqb p 0) then (0, TNORMAL) :: ts else ts
            | [] => [(0, TNORMAL)]
            end in
  if negb (qeqb (fst (last ts (0, TNORMAL))) 1) then ts ++ [(1, TIGNORE)] else ts.

(** profile.py:104-110: the transitions of all edges of a wire; [length] is wire.Length().
    EdgeTabs has no [load_wire]. *)
Definition wire_marks (t : tabs) (length : Qc) (es : list edge) : result (list marks) :=
  match t with
  | NoTabs => Ok (map (fun _ => [(0, TNORMAL); (1, TNORMAL)]) es)
  | EdgeTabs spacing width _ only => mapM (fun e => do ds <- edge_ds spacing width only e; Ok (edge_transitions ds)) es
  | WireTabs count width _ =>
      do ds <- wire_tab_ds count width length;
      do ranges <- load_edge_ranges es;
      Ok (map (wire_transitions ds) ranges)
  end.

(** What [apply_tabs] asks of the kernel. *)
Record tab_kernel := TabKernel {
  tk_param_at : edge -> Qc -> Qc;                 (* edge.paramAt(d) *)
  tk_curve : edge -> Qc -> vec;                   (* the curve under the edge, without its location *)
  tk_location : edge -> vec -> vec;               (* edge.location() *)
  tk_make : (Qc -> vec) -> Qc -> Qc -> bool -> result edge;
      (* BRepBuilderAPI_MakeEdge(curve, p1, p2), reversed afterwards if the flag is set *)
  tk_line : vec -> vec -> result edge;            (* cq.Edge.makeLine *)
  tk_assemble : list edge -> option (list edge);  (* cq.Wire.assembleEdges; None if it raises *)
  tk_zmin : list edge -> Qc;                      (* wire.BoundingBox().zmin *)
  tk_length : list edge -> Qc                     (* wire.Length() *)
}.

(** profile.py:125-130: projecting along Z onto the plane of the tabs keeps the parameters. *)
Definition project_z (z : Qc) (c : Qc -> vec) (p : Qc) : vec := let v := c p in V3 (vx v) (vy v) z.

(** profile.py:116-169: the pieces of one edge, [previous] being the piece before.  Making a piece
    and then moving it by [edge.location()] (line 160) is making it on the moved curve; the
    projected piece (lines 131-139) is not moved. *)
Fixpoint tab_pieces (TK : tab_kernel) (tab_z : Qc) (e : edge) (previous : option edge) (ts : marks)
  : result (list edge) :=
  match ts with
  | (d1, t) :: (((d2, _) :: _) as rest) =>
      let '(q1, q2, rev) := edge_oriented_param e d1 d2 in
      let p1 := tk_param_at TK e q1 in
      let p2 := tk_param_at TK e q2 in
      let curve := tk_curve TK e in
      do piece <- match t with
                  | TTAB => tk_make TK (project_z tab_z curve) p1 p2 rev
                  | _ => tk_make TK (fun p => tk_location TK e (curve p)) p1 p2 rev
                  end;
      do link <- match previous with
                 | Some q => do l <- tk_line TK (edge_end_point q) (edge_start_point piece); Ok [l]
                 | None => Ok []
                 end;
      do more <- tab_pieces TK tab_z e (Some piece) rest;
      Ok (link ++ piece :: more)
  | _ => Ok []
  end.

Definition is_normal (t : transition) : bool := match t with TNORMAL => true | _ => false end.
(** profile.py:110-113 *)
Definition tab_edge (TK : tab_kernel) (tab_z : Qc) (e : edge) (ts : marks) : result (list edge) :=
  if forallb (fun m => is_normal (snd m)) ts then Ok [e] else tab_pieces TK tab_z e None ts.

(** profile.py:94-177 [apply_tabs] *)
Definition apply_tabs (TK : tab_kernel) (es : list edge) (tab_z : Qc) (t : tabs) : result (list edge) :=
  if qleb tab_z (tk_zmin TK es) then Ok es
  else
    do ms <- wire_marks t (tk_length TK es) es;
    do pieces <- mapM (fun em => tab_edge TK tab_z (fst em) (snd em)) (combine es ms);
    Ok (match tk_assemble TK (concat pieces) with Some w => w | None => es end).

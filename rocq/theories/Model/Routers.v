(** * Model of /repo/src/cq_cam/routers.py *)
From Verif Require Import Base.Str Base.Py Model.Geometry Model.Edges.
From Verif Require Export Model.Job.
Local Open Scope Qc_scope.

(** [commands[-1].end], with a fallback the code never reaches. *)
Definition last_end (cmds : list motion) (d : avec) : avec :=
  match rev cmds with [] => d | m :: _ => m_end m end.

(** routers.py:64-90 [rapid_to].  [start.x != end.x] is also true for an unknown start.x. *)
Definition differs (a : option Qc) (b : Qc) : bool := negb (oeqb a (Some b)).
Definition rapid_to (start : avec) (end_ : vec) (rapid_height : Qc) (safe_plunge_height : option Qc)
  (plunge_feed : option pynum) : list motion :=
  let retract := retract_abs (Some rapid_height) (Some start) false in
  let start := m_end retract in
  let travel := if differs (ax start) (vx end_) || differs (ay start) (vy end_)
                then [rapid_abs (Some (vx end_)) (Some (vy end_)) None (Some start) true] else [] in
  let start := last_end travel start in
  let descent :=
    match safe_plunge_height with
    | None => [plunge_cut_abs (Some (vz end_)) (Some start) true plunge_feed]
    | Some safe =>
        let pr := plunge_rapid_abs (Some safe) (Some start) true in
        let start := m_end pr in
        pr :: (if qltb (vz end_) safe
               then [plunge_cut_abs (Some (vz end_)) (Some start) true plunge_feed] else [])
    end in
  retract :: travel ++ descent.

(** routers.py:93-96 [vertical_edge] *)
Definition vertical_edge (e : edge) : bool :=
  qeqb (vx (e_startPoint e)) (vx (e_endPoint e)) && qeqb (vy (e_startPoint e)) (vy (e_endPoint e)).

(** routers.py:99-112 [distance_to_wire] is answered by the kernel: nothing if the computation is
    not done, else the distance, and either a vertex or an edge with the parameter on it. *)
Inductive target := TVertex (v : vec) | TEdge (id : nat) (param : Qc).

(** Wires handed to the router: routers.py:252-255. *)
Inductive wire := WEdge (e : edge) | WWire (es : list edge).
Definition wire_edges (w : wire) : list edge := match w with WEdge e => [e] | WWire es => es end.

(** The kernel: vector comparison with tolerance, and the nearest point of a wire. *)
Record kernel := Kernel {
  k_veq : vec -> vec -> bool;
  k_nearest : vec -> wire -> option (Qc * target)
}.

(** [list.index]: position of the first match. *)
Fixpoint index_of {A} (f : A -> bool) (l : list A) : option nat :=
  match l with
  | [] => None
  | a :: l => if f a then Some O else option_map S (index_of f l)
  end.

(** routers.py:115-127 [shift_edges]; a missing edge and a missing vertex both raise ValueError. *)
Definition shift_edges (K : kernel) (edges : list edge) (t : target) : result (list edge) :=
  let found := match t with
               | TEdge id _ => index_of (fun e => Nat.eqb (e_id e) id) edges
               | TVertex v => index_of (fun e => k_veq K (edge_start_point e) v) edges
               end in
  match found with
  | Some i => Ok (skipn i edges ++ firstn i edges)
  | None => Err ValueError
  end.

(** routers.py:219-230: cuts through a list of points. *)
Fixpoint cuts_through (start_cv : avec) (pts : list vec) (arrow : bool) (feed : option pynum) : list motion :=
  match pts with
  | [] => []
  | p :: pts =>
      mk_cut (from_vector p) (Some start_cv) arrow feed
      :: cuts_through (from_vector p) pts arrow feed
  end.

(** routers.py:130-235 [route_edge]: the commands and the end point. *)
Definition route_edge (K : kernel) (e : edge) (precision : nat) (start_p end_p : option Qc)
  (arrow : bool) (feed : option pynum) : result (list motion * vec) :=
  let sp := match start_p with None => edge_start_point e | Some p => e_param e p end in
  let ep := match end_p with None => edge_end_point e | Some p => e_param e p end in
  let start_cv := from_vector sp in
  let end_cv := from_vector ep in
  do cmds <-
    match e_geom e with
    | GLINE => Ok [mk_cut end_cv (Some start_cv) arrow feed]
    | GARC | GCIRCLE =>
        let start_p := dflt start_p (edge_start_param e) in
        let end_p := dflt end_p (edge_end_param e) in
        let center := from_vector (e_center e) in
        do cw <- is_arc_clockwise2 e;
        let at_ k n := from_vector (e_param e (nth k (linspace start_p end_p n) 0)) in
        if e_closed e then
          let mid1 := at_ 1%nat 5%nat in
          let end1 := at_ 2%nat 5%nat in
          let start_cv := from_vector (e_param e start_p) in
          let mid2 := at_ 3%nat 5%nat in
          Ok [mk_arc cw end1 (Some start_cv) center mid1 arrow feed;
              mk_arc cw end_cv (Some end1) center mid2 arrow feed]
        else if k_veq K sp ep then Ok [mk_cut end_cv (Some start_cv) arrow feed]
        else Ok [mk_arc cw end_cv (Some start_cv) center (at_ 1%nat 3%nat) arrow feed]
    | GBSPLINE | GSPLINE | GOFFSET =>
        let n := edge_interpolation_count e precision in
        let '(i, j) := if e_reversed e then (1, 0) else (0, 1) in
        Ok (cuts_through start_cv (map (e_pos e) (linspace i j n)) arrow feed)
    | GOTHER => Err RuntimeError
    end;
  Ok (cmds, ep).

(** routers.py:291-308: the edges of one wire. *)
Fixpoint route_edges (K : kernel) (j : job) (first : bool) (param : option Qc) (edges : list edge)
  : result (list motion) :=
  match edges with
  | [] => Ok []
  | e :: es =>
      do (c, _) <- route_edge K e (j_precision j) (if first then param else None) None first (Some (j_feed j));
      do cs <- route_edges K j false param es;
      Ok (c ++ cs)
  end.

(** routers.py:250-316: one wire; returns its commands, the position and the wire end.  [None] is
    the [return []] of line 257. *)
Definition route_wire (K : kernel) (j : job) (stepover : option Qc) (previous_wire_end : option vec)
  (previous_pos : avec) (w : wire) : result (option (list motion * avec * vec)) :=
  match wire_edges w with
  | [] => Ok None
  | (e0 :: _) as edges =>
      let near := match previous_wire_end with Some v => k_nearest K v w | None => None end in
      let param := match near with Some (_, TEdge _ p) => Some p | _ => None end in
      let linked := match near with
                    | Some (d, t) =>
                        match stepover with
                        | Some s => if truthy stepover && truthy (Some d) && qleb d s then Some t else None
                        | None => None
                        end
                    | None => None
                    end in
      do (access, edges) <-
        match linked with
        | Some t =>
            do edges <- shift_edges K edges t;
            let e0 := hd e0 edges in
            let start := if truthy param then e_param e0 (dflt param 0) else edge_start_point e0 in
            Ok ([mk_cut (from_vector start) (Some previous_pos) false (Some (j_feed j))], edges)
        | None =>
            Ok (rapid_to previous_pos (edge_start_point e0) (j_rapid_height j)
                  (Some (j_op_safe_height j)) (Some (j_plunge_feed j)), edges)
        end;
      do body <- route_edges K j true param edges;
      let e0 := hd e0 edges in
      let end_ := edge_end_point (last edges e0) in
      do (closing, end_) <-
        (if truthy param
         then route_edge K e0 (j_precision j) None param false (Some (j_feed j))
         else Ok ([], end_));
      let cmds := access ++ body ++ closing in
      Ok (Some (cmds, last_end cmds previous_pos, end_))
  end.

Fixpoint route_wires_from (K : kernel) (j : job) (stepover : option Qc) (previous_wire_end : option vec)
  (previous_pos : avec) (wires : list wire) : result (option (list motion)) :=
  match wires with
  | [] => Ok (Some [])
  | w :: ws =>
      do r <- route_wire K j stepover previous_wire_end previous_pos w;
      match r with
      | None => Ok None
      | Some (cmds, pos, end_) =>
          do rest <- route_wires_from K j stepover (Some end_) pos ws;
          match rest with None => Ok None | Some rest => Ok (Some (cmds ++ rest)) end
      end
  end.

(** routers.py:238-317 [route_wires] *)
Definition route_wires (K : kernel) (j : job) (wires : list wire) (stepover : option Qc)
  (previous_pos : option avec) : result (list motion) :=
  do r <- route_wires_from K j stepover None (dflt previous_pos av_none) wires;
  Ok (match r with None => [] | Some cmds => cmds end).

(** routers.py:320-323 [shift_polygon] (Python slices with 0 <= i). *)
Definition shift_polygon (polygon : path) (i : nat) : path :=
  let polygon := removelast polygon in
  skipn i polygon ++ firstn (S i) polygon.

(** routers.py:373-377: cuts along a list of points at the face depth. *)
Fixpoint cut_poly (depth : Qc) (feed : pynum) (pos : avec) (pts : path) : list motion :=
  match pts with
  | [] => []
  | (x, y) :: pts =>
      let m := cut_abs (Some x) (Some y) (Some depth) (Some pos) false (Some feed) in
      m :: cut_poly depth feed (m_end m) pts
  end.

(** routers.py:338-387: one face; returns commands, position and the end of the contour. *)
Definition route_polyface (j : job) (stepover : option Qc) (previous_wire_end : option pt)
  (previous_pos : avec) (f : pathface) : result (list motion * avec * pt) :=
  let poly := pf_outer f in
  match poly with
  | [] => Err IndexError
  | p0 :: _ =>
      do near <- match previous_wire_end with
                 | Some e => distance_to_path e poly
                 | None => Ok None
                 end;
      let linked := match near with
                    | Some (d, c, (i, _)) =>
                        match stepover with
                        | Some s => if truthy stepover && truthy (Some d) && qleb d s then Some (c, i) else None
                        | None => None
                        end
                    | None => None
                    end in
      let '(access, poly) :=
        match linked with
        | Some (c, i) =>
            ([cut_abs (Some (fst c)) (Some (snd c)) (Some (pf_depth f)) (Some previous_pos) false (Some (j_feed j))],
             shift_polygon poly i)
        | None =>
            (rapid_to previous_pos (V3 (fst p0) (snd p0) (pf_depth f)) (j_rapid_height j)
               (Some (j_op_safe_height j)) (Some (j_plunge_feed j)), poly)
        end in
      let pos := last_end access previous_pos in
      let body := cut_poly (pf_depth f) (j_feed j) pos (tl poly) in
      let pos := last_end body pos in
      let '(closing, wire_end) :=
        match near with
        | Some (_, c, _) =>
            ([cut_abs (Some (fst c)) (Some (snd c)) (Some (pf_depth f)) (Some pos) false (Some (j_feed j))], c)
        | None => ([], last poly p0)
        end in
      let cmds := access ++ body ++ closing in
      Ok (cmds, last_end cmds previous_pos, wire_end)
  end.

Fixpoint route_polyfaces_from (j : job) (stepover : option Qc) (previous_wire_end : option pt)
  (previous_pos : avec) (fs : list pathface) : result (list motion) :=
  match fs with
  | [] => Ok []
  | f :: fs =>
      do (cmds, pos, wire_end) <- route_polyface j stepover previous_wire_end previous_pos f;
      do rest <- route_polyfaces_from j stepover (Some wire_end) pos fs;
      Ok (cmds ++ rest)
  end.

(** routers.py:326-389 [route_polyface_outers] *)
Definition route_polyface_outers (j : job) (fs : list pathface) (stepover : option Qc)
  (previous_pos : option avec) : result (list motion) :=
  route_polyfaces_from j stepover None (dflt previous_pos av_none) fs.

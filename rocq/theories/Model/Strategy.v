(** * Model of /repo/src/cq_cam/operations/strategy.py *)
From Verif Require Import Base.Py Model.Edges Model.Interp Model.Pocket.
From Verif Require Export Model.Linked.
Local Open Scope Qc_scope.
Local Open Scope list_scope.

(** strategy.py:21-30 [_pick_nearest] *)
Fixpoint pick_from (point : pt) (best : Qc * pt) (options : path) : pt :=
  match options with
  | [] => snd best
  | o :: options =>
      let d := dist2 point o in
      pick_from point (if qltb d (fst best) then (d, o) else best) options
  end.
Definition pick_nearest (point : pt) (options : path) : result pt :=
  match options with
  | [] => Err IndexError
  | o :: options => Ok (pick_from point (dist2 point o, o) options)
  end.

(** strategy.py:32-52 [_sort_clipper_output]; [point] is the end of the first path throughout. *)
Definition sort_path (point : pt) (p : path) : result path :=
  match p with
  | [] => Err IndexError
  | a :: _ =>
      let closed := pt_eqb a (last p a) in
      let p := if closed then removelast p else p in
      do nearest <- pick_nearest point p;
      do i <- py_index nearest p;
      let p := skipn i p ++ firstn i p in
      Ok (if closed then p ++ firstn 1 p else p)
  end.
Definition sort_clipper_output (output : list path) : result (list path) :=
  match output with
  | [] => Err IndexError
  | [] :: _ => Err IndexError
  | (a :: p) :: rest =>
      do rest <- mapM (sort_path (last (a :: p) a)) rest;
      Ok ((a :: p) :: rest)
  end.

(** ** Dictionaries keyed by points *)
Fixpoint dict_get {A} (k : pt) (d : list (pt * A)) : result A :=
  match d with
  | [] => Err KeyError
  | (k', a) :: d => if pt_eqb k' k then Ok a else dict_get k d
  end.
(** Assignment; newer entries hide older ones. *)
Definition dict_set {A} (k : pt) (a : A) (d : list (pt * A)) : list (pt * A) := (k, a) :: d.

Definition path_eqb (p q : path) : bool :=
  Nat.eqb (length p) (length q) && forallb (fun ab => pt_eqb (fst ab) (snd ab)) (combine p q).

(** strategy.py:116-126 [_scanline_end_map] *)
Fixpoint scanline_end_map (scanlines : list path) (d : list (pt * path)) (scanpoints : path)
  : result (list (pt * path) * path) :=
  match scanlines with
  | [] => Ok (d, scanpoints)
  | [] :: _ => Err IndexError
  | (a :: s) :: rest =>
      let b := last (a :: s) a in
      scanline_end_map rest (dict_set b (a :: s) (dict_set a (a :: s) d)) (scanpoints ++ [a; b])
  end.

(** strategy.py:128-148 [_link_scanpoints_to_boundaries].  A linked polygon is referred to by its
    position in the result. *)
Definition link_tolerance : Qc := qq 1 10000000.
Record link_state := LS { ls_remaining : path; ls_poly : linked; ls_map : list (pt * nat) }.

(** lines 138-145: one segment; the loop runs over a copy of the remaining points. *)
Fixpoint link_segment (k : nat) (p1 p2 : pt) (points : path) (s : link_state) : result link_state :=
  match points with
  | [] => Ok s
  | q :: points =>
      do (d, _) <- dist_to_segment_squared q p1 p2;
      do s <- (if qltb d link_tolerance
               then do remaining <- py_remove q (ls_remaining s);
                    do lp <- link_point (ls_poly s) q p1 p2;
                    Ok (LS remaining lp (dict_set q k (ls_map s)))
               else Ok s);
      link_segment k p1 p2 points s
  end.
Fixpoint link_segments (k : nat) (polygon : path) (s : link_state) : result link_state :=
  match polygon with
  | p1 :: (p2 :: _) as rest =>
      do s <- link_segment k p1 p2 (ls_remaining s) s;
      link_segments k rest s
  | _ => Ok s
  end.
Fixpoint link_boundaries (k : nat) (boundaries : list path) (remaining : path) (m : list (pt * nat))
  : result (list linked * list (pt * nat)) :=
  match boundaries with
  | [] => match remaining with [] => Ok ([], m) | _ => Err AssertionError end
  | polygon :: boundaries =>
      do s <- link_segments k polygon (LS remaining (LP polygon [] []) m);
      do (lps, m) <- link_boundaries (S k) boundaries (ls_remaining s) (ls_map s);
      Ok (ls_poly s :: lps, m)
  end.
Definition link_scanpoints_to_boundaries (scanpoints : path) (boundaries : list path)
  : result (list linked * list (pt * nat)) := link_boundaries 0 boundaries scanpoints [].

(** strategy.py:150-194 [_route_zig_zag] *)
Definition lps_get (lps : list linked) (k : nat) : result linked :=
  match nth_error lps k with Some lp => Ok lp | None => Err KeyError end.
Definition lps_set (lps : list linked) (k : nat) (lp : linked) : list linked :=
  firstn k lps ++ lp :: skipn (S k) lps.
(** [a, b = scanline] *)
Definition unpack2 (s : path) : result (pt * pt) :=
  match s with [a; b] => Ok (a, b) | _ => Err ValueError end.
(** [scanlines.remove(scanline)] *)
Fixpoint remove_scanline (s : path) (l : list path) : result (list path) :=
  match l with
  | [] => Err ValueError
  | a :: l => if path_eqb a s then Ok l else do l <- remove_scanline s l; Ok (a :: l)
  end.

(** lines 175-194; [done_] are the finished sequences.  Every round takes one scanline, so the
    number of scanlines is enough fuel. *)
Fixpoint zig_zag_loop (fuel : nat) (lps : list linked) (points : list (pt * nat)) (ends : list (pt * path))
  (scanlines : list path) (cut_position : pt) (sequence : path) (done_ : list path) : result (list path) :=
  match scanlines with
  | [] => Ok (done_ ++ [sequence])
  | next :: others =>
      match fuel with
      | O => Err OutOfFuel
      | S fuel =>
          do k <- dict_get cut_position points;
          do lp <- lps_get lps k;
          do (walk, lp) <- nearest_linked lp cut_position;
          let lps := lps_set lps k lp in
          match walk with
          | None =>
              do (start, cut) <- unpack2 next;
              zig_zag_loop fuel lps points ends others cut [start; cut] (done_ ++ [sequence])
          | Some [] => Err IndexError
          | Some (w0 :: w) =>
              let end_ := last (w0 :: w) w0 in
              do scanline <- dict_get end_ ends;
              do cut <- match scanline with
                        | [] => Err IndexError
                        | a :: rest => if pt_eqb a end_ then match rest with [] => Err IndexError | b :: _ => Ok b end else Ok a
                        end;
              do scanlines <- remove_scanline scanline scanlines;
              zig_zag_loop fuel lps points ends scanlines cut (sequence ++ (w0 :: w) ++ [cut]) done_
          end
      end
  end.

(** lines 157-173: resetting the polygons and picking the start *)
Definition route_zig_zag (lps : list linked) (scanlines : list path) (points : list (pt * nat))
  (ends : list (pt * path)) : result (list path) :=
  let lps := map reset lps in
  match scanlines with
  | [] => Err IndexError
  | first :: scanlines =>
      do (a, b) <- unpack2 first;
      let '(start, cut) := if qltb (fst b) (fst a) then (b, a) else (a, b) in
      do k <- dict_get start points;
      do lp <- lps_get lps k;
      do lp <- drop lp start;
      zig_zag_loop (length scanlines) (lps_set lps k lp) points ends scanlines cut [start; cut] []
  end.

(** ** Boundaries from wires *)
(** utils.py:70-72 [position_space] *)
Definition position_space (e : edge) : list Qc := linspace 0 1 (Z.to_nat (qceil (e_length e / qq 1 10))).
(** utils.py:75-93 [flatten_edges]; cq's [positions] are [positionAt] by normalised length. *)
Definition flatten_edge (e : edge) : result (list vec) :=
  match e_geom e with
  | GLINE => Ok [edge_end_point e]
  | GARC | GCIRCLE | GOFFSET => Ok (map (e_pos e) (tl (position_space e)))
  | _ => Err ValueError
  end.
Definition flatten_edges (es : list edge) : result (list vec) :=
  do vs <- mapM flatten_edge es; Ok (concat vs).
(** utils.py:187-193 [WireClipper._add_wire]: the polygon it returns. *)
Definition add_wire (es : list edge) (is_closed : bool) : result path :=
  do vs <- flatten_edges es;
  let polygon := vectors_to_2d_tuples vs in
  if is_closed then Ok polygon
  else match polygon with [] => Err IndexError | a :: _ => Ok (polygon ++ [a]) end.

(** ** ZigZagStrategy.process *)
Inductive boundary := BWire (es : list edge) (closed : bool) | BPolygon (p : path).
Definition boundary_polygon (b : boundary) : result path :=
  match b with BWire es closed => add_wire es closed | BPolygon p => Ok p end.

(** pyclipper: [zc_bounds] is [WireClipper.max_bounds] (utils.py:229-241: left, bottom, right, top)
    of the boundaries; [zc_execute] is [WireClipper.execute] (utils.py:250-269), given the
    boundaries and the scanline templates. *)
Record zig_clipper := ZC {
  zc_bounds : list path -> result (Qc * Qc * Qc * Qc);
  zc_execute : list path -> list path -> result (list path)
}.

(** strategy.py:82-95: the ends of the horizontal scanline templates. *)
Definition templates (x0 y0 x1 y1 step : Qc) : list path :=
  map (fun y => [(x0, y); (x1, y)]) (arange y0 y1 step).

(** strategy.py:56-114 [ZigZagStrategy.process] with [task._tool_diameter] and [task.stepover].
    numpy raises ZeroDivisionError for a step of zero. *)
Definition zig_zag (C : zig_clipper) (tool_diameter stepover : Qc) (outer inner : list boundary)
  : result (list path) :=
  do outer <- mapM boundary_polygon outer;
  do inner <- mapM boundary_polygon inner;
  do (x0, y0, x1, y1) <- zc_bounds C (outer ++ inner);
  if qeqb (tool_diameter * stepover) 0 then Err ZeroDivisionError
  else
    do scanlines <- zc_execute C (outer ++ inner) (templates x0 y0 x1 y1 (tool_diameter * stepover));
    do (ends, scanpoints) <- scanline_end_map scanlines [] [];
    do (lps, points) <- link_scanpoints_to_boundaries scanpoints (outer ++ inner);
    route_zig_zag lps scanlines points ends.

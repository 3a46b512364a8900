(** * Model of WireClipper (/repo/src/cq_cam/utils/utils.py:173-272) and of the strategies that
    use it (/repo/src/cq_cam/operations/strategy.py:54-114, 197-230) *)
From Verif Require Import Base.Py Model.Geometry Model.Edges Model.Strategy.
Local Open Scope Qc_scope.
Local Open Scope list_scope.

(** ** pyclipper *)
(** pyclipper.scale_to_clipper and scale_from_clipper: integers in units of 2^-31, truncated. *)
Definition zpath := list (Z * Z).
Definition clipper_scale : Qc := qz (2 ^ 31)%Z.
Definition to_clipper (p : path) : zpath :=
  map (fun a => (qtrunc (fst a * clipper_scale), qtrunc (snd a * clipper_scale))) p.
Definition from_clipper (p : zpath) : path :=
  map (fun a => (qz (fst a) / clipper_scale, qz (snd a) / clipper_scale)) p.

Inductive path_type := PT_CLIP | PT_SUBJECT.
Inductive clip_type := CT_INTERSECTION | CT_DIFFERENCE.
Record cpath := CP { cp_points : zpath; cp_type : path_type; cp_closed : bool }.

(** The engine.  [ce_valid]: it accepts the path; [ce_bounds]: GetBounds as left, top, right, bottom;
    [ce_execute]: open and closed paths of Execute2. *)
Record clip_engine := CE {
  ce_valid : cpath -> bool;
  ce_bounds : list cpath -> Z * Z * Z * Z;
  ce_execute : clip_type -> list cpath -> result (list zpath * list zpath)
}.

(** ** WireClipper *)
(** utils.py:174-176: the paths given to the engine since it was last cleared, and
    [_pt_clip_cache]. *)
Record wire_clipper := WC { wc_paths : list cpath; wc_cache : list cpath }.
Definition new_clipper : wire_clipper := WC [] [].

(** Pyclipper.AddPath.  Clipper refuses open paths as clips. *)
Definition engine_add (X : clip_engine) (ps : list cpath) (p : cpath) : result (list cpath) :=
  if match cp_type p with PT_CLIP => cp_closed p | PT_SUBJECT => true end && ce_valid X p
  then Ok (ps ++ [p]) else Err KernelError.

(** utils.py:210-213 [_add_path].  (A refused path stays in the cache; nothing catches the exception.) *)
Definition add_path (X : clip_engine) (c : wire_clipper) (p : cpath) (cache : bool) : result wire_clipper :=
  let cached := match cp_type p with PT_CLIP => if cache then wc_cache c ++ [p] else wc_cache c
                | PT_SUBJECT => wc_cache c end in
  do ps <- engine_add X (wc_paths c) p; Ok (WC ps cached).

(** utils.py:187-193 [_add_wire] *)
Definition add_wire_as (X : clip_engine) (c : wire_clipper) (es : list edge) (t : path_type) (cache closed : bool)
  : result (path * wire_clipper) :=
  do polygon <- add_wire es closed;
  do c <- add_path X c (CP (to_clipper polygon) t closed) cache;
  Ok (polygon, c).
(** utils.py:178-185 with the default arguments; [closed] is [wire.IsClosed()]. *)
Definition add_clip_wire (X : clip_engine) (c : wire_clipper) (es : list edge) (closed : bool) :=
  add_wire_as X c es PT_CLIP true closed.
Definition add_subject_wire (X : clip_engine) (c : wire_clipper) (es : list edge) (closed : bool) :=
  add_wire_as X c es PT_SUBJECT false closed.
(** utils.py:195-208 *)
Definition add_clip_polygon (X : clip_engine) (c : wire_clipper) (p : path) (closed cache : bool) : result wire_clipper :=
  add_path X c (CP (to_clipper p) PT_CLIP closed) cache.
Definition add_subject_polygon (X : clip_engine) (c : wire_clipper) (p : path) (closed : bool) : result wire_clipper :=
  add_path X c (CP (to_clipper p) PT_SUBJECT closed) false.

(** utils.py:215-218 [reset] *)
Fixpoint engine_adds (X : clip_engine) (ps : list cpath) (new : list cpath) : result (list cpath) :=
  match new with [] => Ok ps | p :: new => do ps <- engine_add X ps p; engine_adds X ps new end.
Definition reset (X : clip_engine) (c : wire_clipper) : result wire_clipper :=
  do ps <- engine_adds X [] (wc_cache c); Ok (WC ps (wc_cache c)).

(** utils.py:220-227 [bounds]: left, top, right, bottom. *)
Definition bounds (X : clip_engine) (c : wire_clipper) : Qc * Qc * Qc * Qc :=
  let '(l, t, r, b) := ce_bounds X (wc_paths c) in
  (qz l / clipper_scale, qz t / clipper_scale, qz r / clipper_scale, qz b / clipper_scale).
(** utils.py:229-248 [max_bounds]: left, bottom, right, top.  [len] is the length of a vector. *)
Definition max_bounds (X : clip_engine) (len : Qc -> Qc -> Qc) (c : wire_clipper) : Qc * Qc * Qc * Qc :=
  let '(l, t, r, b) := bounds X c in
  let half := len (l - r) (t - b) / qz 2 in
  let xc := (l + r) / qz 2 in
  let yc := (t + b) / qz 2 in
  (qz (qfloor (xc - half)), qz (qfloor (yc - half)), qz (qceil (xc + half)), qz (qceil (yc + half))).

(** utils.py:250-269 [execute] *)
Definition append_first (p : path) : result path :=
  match p with [] => Err IndexError | a :: _ => Ok (p ++ [a]) end.
Definition execute (X : clip_engine) (c : wire_clipper) (t : clip_type) : result (list path) :=
  do (open, closed) <- ce_execute X t (wc_paths c);
  do closed <- mapM append_first (map from_clipper closed);
  Ok (closed ++ map from_clipper open).
(** utils.py:271-272 *)
Definition execute_difference (X : clip_engine) (c : wire_clipper) : result (list path) :=
  execute X c CT_DIFFERENCE.

(** ** ZigZagStrategy.process with its WireClipper *)
(** strategy.py:62-78 *)
Fixpoint add_boundaries (X : clip_engine) (c : wire_clipper) (bs : list boundary)
  : result (list path * wire_clipper) :=
  match bs with
  | [] => Ok ([], c)
  | BWire es closed :: bs =>
      do (p, c) <- add_clip_wire X c es closed;
      do (ps, c) <- add_boundaries X c bs;
      Ok (p :: ps, c)
  | BPolygon p :: bs =>
      do c <- add_clip_polygon X c p true false;
      do (ps, c) <- add_boundaries X c bs;
      Ok (p :: ps, c)
  end.
(** strategy.py:94-95 *)
Fixpoint add_subjects (X : clip_engine) (c : wire_clipper) (ps : list path) : result wire_clipper :=
  match ps with [] => Ok c | p :: ps => do c <- add_subject_polygon X c p false; add_subjects X c ps end.

(** strategy.py:56-114; compare [zig_zag] of Model/Strategy.v, where the clipper is an argument. *)
Definition zig_zag_clipper (X : clip_engine) (len : Qc -> Qc -> Qc) (tool_diameter stepover : Qc)
  (outer inner : list boundary) : result (list path) :=
  do (outer, c) <- add_boundaries X new_clipper outer;
  do (inner, c) <- add_boundaries X c inner;
  let '(x0, y0, x1, y1) := max_bounds X len c in
  if qeqb (tool_diameter * stepover) 0 then Err ZeroDivisionError
  else
    do c <- add_subjects X c (templates x0 y0 x1 y1 (tool_diameter * stepover));
    do scanlines <- execute X c CT_INTERSECTION;
    do (ends, scanpoints) <- scanline_end_map scanlines [] [];
    do (lps, points) <- link_scanpoints_to_boundaries scanpoints (outer ++ inner);
    route_zig_zag lps scanlines points ends.

(** ** ContourStrategy *)
(** A wire: its edges in order, [IsClosed], [offset2D]. *)
Record contour_kernel := CK {
  ck_wire : Type;
  ck_edges : ck_wire -> list edge;
  ck_closed : ck_wire -> bool;
  ck_offset2D : ck_wire -> Qc -> result (list ck_wire)
}.

Section Contour.
  Variables (X : clip_engine) (K : contour_kernel).

  (** strategy.py:210-213 *)
  Fixpoint clip_wires (c : wire_clipper) (ws : list (ck_wire K)) : result wire_clipper :=
    match ws with
    | [] => Ok c
    | w :: ws => do (_, c) <- add_clip_wire X c (ck_edges K w) (ck_closed K w); clip_wires c ws
    end.
  (** strategy.py:225-226 *)
  Fixpoint subject_wires (c : wire_clipper) (ws : list (ck_wire K)) : result wire_clipper :=
    match ws with
    | [] => Ok c
    | w :: ws => do (_, c) <- add_subject_wire X c (ck_edges K w) (ck_closed K w); subject_wires c ws
    end.

  (** strategy.py:216-227: the queue.  Nothing bounds the number of rounds; the fuel does here. *)
  Fixpoint shrink (fuel : nat) (step : Qc) (queue : list (ck_wire K)) (c : wire_clipper) : result wire_clipper :=
    match queue with
    | [] => Ok c
    | w :: queue =>
        match fuel with
        | O => Err OutOfFuel
        | S fuel =>
            match ck_offset2D K w step with
            | Err ValueError => shrink fuel step queue c
            | Err e => Err e
            | Ok ws => do c <- subject_wires c ws; shrink fuel step (queue ++ ws) c
            end
        end
    end.
  Fixpoint shrink_all (fuel : nat) (step : Qc) (outer : list (ck_wire K)) (c : wire_clipper) : result wire_clipper :=
    match outer with
    | [] => Ok c
    | w :: outer => do c <- shrink fuel step [w] c; shrink_all fuel step outer c
    end.

  (** strategy.py:202-230 [ContourStrategy.process] *)
  Definition contour (fuel : nat) (tool_diameter stepover : Qc) (outer inner : list (ck_wire K))
    : result (list path) :=
    let step := - qabs (tool_diameter * stepover) in
    do c <- clip_wires new_clipper outer;
    do c <- clip_wires c inner;
    do c <- shrink_all fuel step outer c;
    do paths <- execute X c CT_INTERSECTION;
    sort_clipper_output paths.
End Contour.

(** utils.py:150-166 [cut_clockwise] (not called) *)
Definition cut_clockwise (positive_offset spindle_clockwise climb : bool) : bool :=
  negb (Z.eqb ((Z.b2z positive_offset + Z.b2z spindle_clockwise + Z.b2z climb) mod 2) 0).

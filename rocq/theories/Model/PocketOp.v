(** * Model of [pocket] in /repo/src/cq_cam/operations/pocket.py, of
    /repo/src/cq_cam/operations/pocket_cq.py and of Job.pocket *)
From Verif Require Import Base.Str Base.Py Model.Tree Model.Interp.
From Verif Require Export Model.Pocket Model.Profile.
Import Model.Pocket.
Local Open Scope string_scope.
Local Open Scope Qc_scope.
Local Open Scope list_scope.

(** What these functions ask the CAD kernel about faces.
    - [fk_transform]: [face.transformShape(top.fG)];
    - [fk_zmin], [fk_zmax]: of [face.BoundingBox()];
    - [fk_outer], [fk_inners]: ordered edges of [outerWire()] and [innerWires()];
    - [fk_basis]: see [edge_to_vectors];
    - [fk_make]: [cq.Face.makeFromWires(outer, inners)]; [Err KernelError] is StdFail_NotDone;
    - [fk_translate]: [face.translate(v)];
    - [fk_combine]: pocket_cq.py:38-51, the faces of the combination;
    - [fk_cut]: the faces of [face.cut( *tools)]. *)
Record face_kernel := FK {
  fk_face : Type;
  fk_transform : plane -> fk_face -> fk_face;
  fk_zmin : fk_face -> Qc; fk_zmax : fk_face -> Qc;
  fk_outer : fk_face -> list edge; fk_inners : fk_face -> list (list edge);
  fk_basis : edge -> result geom;
  fk_make : list edge -> list (list edge) -> result fk_face;
  fk_translate : fk_face -> vec -> fk_face;
  fk_combine : list fk_face -> result (list fk_face);
  fk_cut : fk_face -> list fk_face -> result (list fk_face)
}.

(** ** Engine "clipper" *)
(** geometry_op.py:39-49 [PathFace.from_cq_face] *)
Definition from_cq_face (K : kernel) (FK : face_kernel) (precision : nat) (f : fk_face FK) : result pathface :=
  if negb (Z.eqb (round_units (fk_zmin FK f) 3) (round_units (fk_zmax FK f) 3)) then Err ValueError
  else
    do outer <- wire_to_path (k_veq K) (fk_basis FK) (fk_outer FK f) precision;
    do inners <- mapM (fun w => wire_to_path (k_veq K) (fk_basis FK) w precision) (fk_inners FK f);
    Ok (PF outer inners (fk_zmax FK f)).

(** ** Engine "cq" *)
Section Cq.
Context (K : kernel) (WK : wire_kernel) (F : face_kernel).
Notation face := (fk_face F).

(** pocket_cq.py:22-36 [generate_depth_map]; the dict as in Model/Pocket. *)
Definition face_dict := list (Qc * list face).
Fixpoint fdict_get (m : face_dict) (d : Qc) : list face :=
  match m with
  | [] => []
  | (k, fs) :: m => if qeqb k d then fs else fdict_get m d
  end.
Fixpoint fdict_append (m : face_dict) (d : Qc) (fs : list face) : face_dict :=
  match m with
  | [] => [(d, fs)]
  | (k, gs) :: m => if qeqb k d then (k, gs ++ fs) :: m else (k, gs) :: fdict_append m d fs
  end.
Fixpoint group_faces (faces : list face) (m : face_dict) : result face_dict :=
  match faces with
  | [] => Ok m
  | f :: faces =>
      if qltb 0 (fk_zmax F f) then Err ValueError
      else group_faces faces (fdict_append m (fk_zmax F f) [f])
  end.
Definition face_depth_map (faces : list face) : result (face_dict * list Qc) :=
  do m <- group_faces faces []; Ok (m, sort_down (map fst m)).

(** pocket_cq.py:54-96 [build_pocket_ops].  The faces of the deeper levels are appended to the
    list in the dict, so the dict is threaded through the loop. *)
Definition moved_faces (top : plane) (dz : Qc) (fs : list face) : list face :=
  map (fun f => fk_translate F f (vscale dz (p_zdir top))) fs.
Fixpoint lift_deeper (top : plane) (m : face_dict) (d : Qc) (subs : list Qc) : face_dict :=
  match subs with
  | [] => m
  | s :: subs => lift_deeper top (fdict_append m d (moved_faces top (d - s) (fdict_get m s))) d subs
  end.
Fixpoint face_levels (top : plane) (m avoid_map : face_dict) (avoid_depths depths : list Qc) : result (list face) :=
  match depths with
  | [] => Ok []
  | d :: subs =>
      let m := lift_deeper top m d subs in
      do depth_ops <- fk_combine F (fdict_get m d);
      do ops <-
        match avoid_depths with
        | [] => Ok depth_ops
        | _ =>
            let avoid_faces := flat_map (fun a => moved_faces top (d - a) (fdict_get avoid_map a))
                                        (filter (fun a => qleb d a) avoid_depths) in
            do cs <- mapM (fun op => fk_cut F op avoid_faces) depth_ops; Ok (concat cs)
        end;
      do rest <- face_levels top m avoid_map avoid_depths subs;
      Ok (ops ++ rest)
  end.
Definition build_face_ops (top : plane) (op_areas avoid_areas : list face) : result (list face) :=
  do (m, depths) <- face_depth_map op_areas;
  do (avoid_map, avoid_depths) <- face_depth_map avoid_areas;
  face_levels top m avoid_map avoid_depths depths.

(** geometry_op.py:157-167 [offset_face] *)
Definition offset_cq_face (f : face) (outer_offset inner_offset : Qc) : result (list face) :=
  do outers <- offset_wire K WK (fk_outer F f) outer_offset;
  do inners <- mapM (fun w => offset_wire K WK w inner_offset) (fk_inners F f);
  mapM (fun o => fk_make F o (concat inners)) outers.

(** pocket_cq.py:103-137 [fill_pocket_contour_shrink].  Wires are told apart by the position of
    their node (new wires of the kernel are never equal to old ones); [fuel] bounds [while True]. *)
Fixpoint cut_outers (inner_faces : list face) (candidates : list (list edge)) : result (list (list edge)) :=
  match candidates with
  | [] => Ok []
  | w :: ws =>
      match fk_make F w [] with
      | Err KernelError => cut_outers inner_faces ws
      | Err x => Err x
      | Ok outer_face =>
          do fs <- fk_cut F outer_face inner_faces;
          do rest <- cut_outers inner_faces ws;
          Ok (map (fk_outer F) fs ++ rest)
      end
  end.
Definition next_wires (inner_faces : list face) (step : Qc) (w : list edge) : result (list (list edge)) :=
  do candidates <- offset_wire K WK w (- step);
  match inner_faces with
  | [] => Ok candidates
  | _ => cut_outers inner_faces candidates
  end.
Fixpoint fill_wires (next : list edge -> result (list (list edge))) (fuel : nat) (t : tree (nat * list edge))
  : result (tree (nat * list edge)) :=
  match fuel with
  | O => Err OutOfFuel
  | S fuel =>
      match next_unlocked t with
      | None => Ok t
      | Some i =>
          do o <- obj_at t i;
          do ws <- next (snd o);
          fill_wires next fuel
            (match ws with
             | [] => lock t i
             | _ => branch t i (combine (seq (length t) (length ws)) ws)
             end)
      end
  end.
Definition fill_face (fuel : nat) (pocket : face) (step : Qc) : result (list (list (list edge))) :=
  do inner_faces <- mapM (fun w => fk_make F w []) (fk_inners F pocket);
  do t <- fill_wires (next_wires inner_faces step) fuel (new_tree (O, fk_outer F pocket));
  do ss <- sequences (fun a b => Nat.eqb (fst a) (fst b)) t;
  Ok (map (map snd) ss).

(** pocket_cq.py:140-178 [pocket_cq] *)
Fixpoint route_wire_sequences (j : job) (stepover : Qc) (done : bool) (previous_pos : avec)
  (sequences : list (list (list edge))) : result (list motion) :=
  match sequences with
  | [] => Ok []
  | s :: ss =>
      do cmds <- route_wires K j (map WWire s) (Some stepover) (Some previous_pos);
      match cmds, done with
      | [], false => Err IndexError
      | _, _ =>
          do rest <- route_wire_sequences j stepover true (last_end cmds previous_pos) ss;
          Ok (cmds ++ rest)
      end
  end.
Definition pocket_cq (fuel : nat) (j : job) (op_areas avoid_areas : list face)
  (outer_offset inner_offset avoid_outer_offset avoid_inner_offset stepover : Qc) : result (list motion) :=
  do ops <- mapM (fun f => offset_cq_face f outer_offset inner_offset) op_areas;
  do avoids <- mapM (fun f => offset_cq_face f avoid_outer_offset avoid_inner_offset) avoid_areas;
  do pocket_ops <- build_face_ops (j_top j) (concat ops) (concat avoids);
  do fills <- mapM (fun op => fill_face fuel op stepover) pocket_ops;
  route_wire_sequences j stepover false av_none (concat fills).
End Cq.

(** ** The operation *)
(** pocket.py:30-84 [pocket]; the other arguments: *)
Record pocket_args := PA {
  pa_outer : option offset_input; pa_inner : option offset_input;
  pa_avoid_outer : option offset_input; pa_avoid_inner : option offset_input;
  pa_stepover : option offset_input; pa_stepdown : option Qc
}.
Inductive engine_name := EngClipper | EngCq | EngOther.
(** [avoid_areas] of None counts as no areas.  [E]: pyclipper and shapely; [fuel] bounds the filling
    loops. *)
Definition pocket (K : kernel) (WK : wire_kernel) (F : face_kernel) (E : engine) (fuel : nat) (eng : engine_name)
  (j : job) (op_areas : list (fk_face F)) (avoid_areas : option (list (fk_face F))) (a : pocket_args)
  : result (list motion) :=
  let avoid := match avoid_areas with None => [] | Some l => l end in
  let outer := match avoid, pa_outer a with _ :: _, None => Some (OMul 0) | _, o => o end in
  do outer <- calculate_offset (tool_radius j) outer (Some (OMul (- (1))));
  do inner <- calculate_offset (tool_radius j) (pa_inner a) (Some (OMul 1));
  do avoid_outer <- calculate_offset (tool_radius j) (pa_avoid_outer a) (Some (OMul 1));
  do avoid_inner <- calculate_offset (tool_radius j) (pa_avoid_inner a) (Some (OMul (- (1))));
  do stepover <- calculate_offset (tool_radius j) (pa_stepover a) (Some (OMul (qq 1 2)));
  let ops := map (fk_transform F (j_top j)) op_areas in
  let avoids := map (fk_transform F (j_top j)) avoid in
  match eng with
  | EngClipper =>
      do op_paths <- mapM (from_cq_face K F (j_precision j)) ops;
      do avoid_paths <- mapM (from_cq_face K F (j_precision j)) avoids;
      pocket_clipper E fuel j op_paths avoid_paths outer inner avoid_outer avoid_inner stepover (pa_stepdown a)
  | EngCq => pocket_cq K WK F fuel j ops avoids outer inner avoid_outer avoid_inner stepover
  | EngOther => Err ValueError
  end.

(** fluent.py:212-246 [Job.pocket]: always the default engine; a workplane or a face is given as
    the list of its objects, which are taken to be faces. *)
Definition pocket_gen (K : kernel) (WK : wire_kernel) (F : face_kernel) (E : engine) (fuel : nat)
  (op_areas : list (fk_face F)) (avoid_areas : option (list (fk_face F))) (a : pocket_args) (j : job)
  : result (list command) :=
  do ms <- pocket K WK F E fuel EngClipper j op_areas avoid_areas a; Ok (map Motion ms).
Definition job_pocket (K : kernel) (WK : wire_kernel) (F : face_kernel) (E : engine) (fuel : nat) (h : heap) (r : ref)
  (op_areas : list (fk_face F)) (avoid_areas : option (list (fk_face F))) (a : pocket_args) (tl : option tool)
  : heap * result ref :=
  fluent_op h r tl "Pocket" (pocket_gen K WK F E fuel op_areas avoid_areas a).

(** * Model of /repo/src/cq_cam/operations/op3d.py and Job.surface3d *)
From Verif Require Import Base.Str Base.Py Model.Groups Model.Plane Model.Geometry Model.Edges Model.Pocket Model.Strategy.
From Verif Require Export Model.Job.
Local Open Scope string_scope.
Local Open Scope Qc_scope.
Local Open Scope list_scope.

(** ** Interpolation *)
(** op3d.py:66-75, one segment.  [len] is [v.Length].  The kernel raises for the normalisation of a
    zero vector; numpy raises ZeroDivisionError for a step of zero.  [v.normalized() * s] is taken to
    be exactly [v * (s / len)].  The first added point is [p1] itself (step 0). *)
Definition interpolate_segment (len : pt -> pt -> Qc) (step : Qc) (p1 p2 : pt) : result path :=
  let l := len p1 p2 in
  if qeqb l 0 then Err KernelError
  else if qeqb step 0 then Err ZeroDivisionError
  else Ok (map (fun s => (fst p1 + (fst p2 - fst p1) * (s / l), snd p1 + (snd p2 - snd p1) * (s / l))) (arange 0 l step) ++ [p2]).
(** op3d.py:63-76 [interpolate_cut_sequence] *)
Fixpoint interpolate_from (len : pt -> pt -> Qc) (step : Qc) (p1 : pt) (ps : path) : result path :=
  match ps with
  | [] => Ok []
  | p2 :: ps =>
      do here <- interpolate_segment len step p1 p2;
      do rest <- interpolate_from len step p2 ps;
      Ok (here ++ rest)
  end.
Definition interpolate_cut_sequence (len : pt -> pt -> Qc) (step : Qc) (seq : path) : result path :=
  match seq with
  | [] => Err IndexError
  | p1 :: ps => do rest <- interpolate_from len step p1 ps; Ok (p1 :: rest)
  end.

(** ** Drop cutter results *)
(** op3d.py:107-112: the heights are taken in turn; [heights] are the z of the remaining results. *)
Fixpoint merge_sequence (seq : path) (heights : list Qc) : result (list vec * list Qc) :=
  match seq with
  | [] => Ok ([], heights)
  | p :: seq =>
      match heights with
      | [] => Err IndexError
      | z :: heights => do (vs, heights) <- merge_sequence seq heights; Ok (V3 (fst p) (snd p) z :: vs, heights)
      end
  end.
Fixpoint merge_sequences (seqs : list path) (heights : list Qc) : result (list (list vec)) :=
  match seqs with
  | [] => Ok []
  | seq :: seqs =>
      do (vs, heights) <- merge_sequence seq heights;
      do rest <- merge_sequences seqs heights;
      Ok (vs :: rest)
  end.

(** ** Depths *)
(** op3d.py:114-124.  A stepdown of zero counts as none. *)
Definition last_of (l : list Qc) : result Qc :=
  match l with [] => Err IndexError | d :: l => Ok (last l d) end.
Definition surface_depths (top_height bottom : Qc) (stepdown : option Qc) : result (list Qc) :=
  match stepdown with
  | Some s =>
      if qeqb s 0 then Ok [bottom]
      else
        let depths := arange (top_height + s) bottom s in
        do d <- last_of depths;
        Ok (if qeqb d bottom then depths else depths ++ [bottom])
  | None => Ok [bottom]
  end.
(** op3d.py:129: [depths[i - 2] if i > 1 else 0] *)
Definition depth_limit (depths : list Qc) (i : nat) : Qc :=
  match i with O => 0 | S O => 0 | S (S k) => nth k depths 0 end.

(** op3d.py:209-225 [_chop_sequences_by_depth]; [run] is [new_sequence]. *)
Fixpoint chop_sequence (limit : Qc) (seq : list vec) (run : list vec) : list (list vec) :=
  match seq with
  | [] => match run with [] => [] | _ => [run] end
  | p :: seq =>
      if qltb limit (vz p)
      then match run with [] => chop_sequence limit seq [] | _ => run :: chop_sequence limit seq [] end
      else chop_sequence limit seq (run ++ [p])
  end.
Definition chop_sequences_by_depth (seqs : list (list vec)) (limit : Qc) : list (list vec) :=
  flat_map (fun seq => chop_sequence limit seq []) seqs.

(** ** Commands *)
(** op3d.py:153-162 *)
Fixpoint surface_cuts (depth : Qc) (previous_pos : avec) (points : list vec) : list motion :=
  match points with
  | [] => []
  | p :: points =>
      let c := cut_abs (Some (vx p)) (Some (vy p)) (Some (qmax depth (vz p))) (Some previous_pos) false None in
      c :: surface_cuts depth (m_end c) points
  end.
(** op3d.py:136-162: one run.  No feed is given to the cuts.  (Runs are not empty.) *)
Definition surface_run (j : job) (depth : Qc) (previous_pos : avec) (run : list vec) : list motion :=
  match run with
  | [] => []
  | p :: points =>
      let c1 := rapid_abs None None (Some (j_rapid_height j)) (Some previous_pos) false in
      let c2 := rapid_abs (Some (vx p)) (Some (vy p)) None (Some (m_end c1)) false in
      let c3 := rapid_abs None None (Some (j_op_safe_height j)) (Some (m_end c2)) false in
      c1 :: c2 :: c3 :: surface_cuts depth (m_end c3) points
  end.
(** [self.commands[-1].end] after [ms] *)
Definition end_pos (previous_pos : avec) (ms : list motion) : avec :=
  m_end (last ms (MRapid KRapid previous_pos previous_pos false)).
Fixpoint surface_runs (j : job) (depth : Qc) (previous_pos : avec) (runs : list (list vec)) : list motion :=
  match runs with
  | [] => []
  | run :: runs => let ms := surface_run j depth previous_pos run in ms ++ surface_runs j depth (end_pos previous_pos ms) runs
  end.
(** op3d.py:126-162: all passes over one boundary; [i] counts the passes. *)
Fixpoint surface_passes (j : job) (seqs : list (list vec)) (all : list Qc) (i : nat) (depths : list Qc)
  (previous_pos : avec) : list motion :=
  match depths with
  | [] => []
  | depth :: depths =>
      let ms := surface_runs j depth previous_pos (chop_sequences_by_depth seqs (depth_limit all i)) in
      ms ++ surface_passes j seqs all (S i) depths (end_pos previous_pos ms)
  end.

(** ** The operation *)
(** What the operation asks the CAD kernel and opencamlib.
    - [sk_make]: [cq.Face.makeFromWires(wire)];
    - [sk_zmin]: lowest z of the faces taken together, in the coordinates of the job (op3d.py:42-44, 114);
    - [sk_project]: the faces projected to the plane and combined (op3d.py:46-51);
    - [sk_planar]: [boundary.geomType() in ("PLANE", "CIRCLE")];
    - [sk_offset]: base_operation.py:188-210, the boundary with its wires offset;
    - [sk_outer]: the edges of the outer wire, and whether it is closed;
    - [sk_length]: length of a plane vector;
    - [sk_drop]: BatchDropCutter with the triangles of the faces: z of [getCLPoints] for the points. *)
Record surface_kernel := SK {
  sk_face : Type; sk_wire : Type;
  sk_make : sk_wire -> result sk_face;
  sk_zmin : plane -> list sk_face -> result Qc;
  sk_project : plane -> list sk_face -> result (list sk_face);
  sk_planar : sk_face -> bool;
  sk_offset : sk_face -> Qc -> Qc -> result (list sk_face);
  sk_outer : sk_face -> list edge * bool;
  sk_length : pt -> pt -> Qc;
  sk_drop : plane -> list sk_face -> list vec -> result (list Qc)
}.

(** base_operation.py:149-166 [_wp_to_faces]: the objects of the selection. *)
Inductive face_object (K : surface_kernel) := OFace (f : sk_face K) | OWire (w : sk_wire K) | OOther.
Arguments OFace {K}. Arguments OWire {K}. Arguments OOther {K}.
Definition face_of {K} (o : face_object K) : result (sk_face K) :=
  match o with OFace f => Ok f | OWire w => sk_make K w | OOther => Err OperationError end.
Definition wp_to_faces {K} (objects : list (face_object K)) : result (list (sk_face K)) :=
  do faces <- mapM face_of objects;
  match faces with [] => Err OperationError | _ => Ok faces end.

(** base_operation.py:138-142 and 179-186: an offset argument as a pair; [None] is left alone and
    cannot be subscripted. *)
Inductive offset_arg := OffNum (q : Qc) | OffPair (a b : Qc).
Definition face_offset (tool_diameter : Qc) (a : option offset_arg) : result Qc :=
  match a with
  | Some (OffNum q) => Ok (tool_diameter * q + 0)
  | Some (OffPair a b) => Ok (tool_diameter * a + b)
  | None => Err TypeError
  end.

(** op3d.py:22-25, base_operation.py:32, 101-136 *)
Record surface_args := SA {
  sa_tool_diameter : Qc; sa_interpolation_step : Qc; sa_stepover : Qc;
  sa_outer : option offset_arg; sa_inner : option offset_arg;
  sa_stepdown : option Qc; sa_top_height : Qc
}.

(** base_operation.py:176-210 [offset_boundary] *)
Definition offset_boundary (K : surface_kernel) (a : surface_args) (b : sk_face K) : result (list (sk_face K)) :=
  if sk_planar K b then
    do outer <- face_offset (sa_tool_diameter a) (sa_outer a);
    do inner <- face_offset (sa_tool_diameter a) (sa_inner a);
    sk_offset K b outer inner
  else Err AssertionError.

(** op3d.py:57-162: one boundary.  The inner wires are not used. *)
Definition surface_sequences (K : surface_kernel) (C : zig_clipper) (a : surface_args) (top : plane)
  (faces : list (sk_face K)) (zmin : Qc) (b : sk_face K) : result (list (list vec)) :=
  let '(es, closed) := sk_outer K b in
  do seqs <- zig_zag C (sa_tool_diameter a) (sa_stepover a) [BWire es closed] [];
  do seqs <- mapM (interpolate_cut_sequence (sk_length K) (sa_interpolation_step a)) seqs;
  do heights <- sk_drop K top faces (map (fun p => V3 (fst p) (snd p) zmin) (concat seqs));
  merge_sequences seqs heights.
Definition surface_boundary (K : surface_kernel) (C : zig_clipper) (a : surface_args) (j : job)
  (faces : list (sk_face K)) (zmin : Qc) (b : sk_face K) : result (list motion) :=
  do seqs <- surface_sequences K C a (j_top j) faces zmin b;
  do depths <- surface_depths (sa_top_height a) zmin (sa_stepdown a);
  Ok (surface_passes j seqs depths 0 depths av_none).

(** op3d.py:30-162 [Surface3D.__post_init__] *)
Definition surface_gen (K : surface_kernel) (C : zig_clipper) (a : surface_args) (objects : list (face_object K))
  (j : job) : result (list command) :=
  do faces <- wp_to_faces objects;
  do zmin <- sk_zmin K (j_top j) faces;
  do base <- sk_project K (j_top j) faces;
  do bs <- mapM (offset_boundary K a) base;
  do mss <- mapM (surface_boundary K C a j faces zmin) (concat bs);
  Ok (map Motion (concat mss)).

(** fluent.py:255-259 [Job.surface3d]: no tool argument. *)
Definition job_surface3d (h : heap) (r : ref) (K : surface_kernel) (C : zig_clipper) (a : surface_args)
  (objects : list (face_object K)) : heap * result ref :=
  fluent_op h r None "Surface 3D" (surface_gen K C a objects).

(** Depths of the repository's kind: a 3 mm stepdown from 0 to -10. *)
Example depths_down : option_map (map this) (match surface_depths 0 (qz (-10)) (Some (qz (-3))) with Ok l => Some l | _ => None end)
  = Some (map this [qz (-3); qz (-6); qz (-9); qz (-10)]).
Proof. vm_compute. reflexivity. Qed.

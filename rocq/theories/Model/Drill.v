(** * Model of /repo/src/cq_cam/operations/drill.py and Job.drill *)
From Verif Require Import Base.Str Base.Py Model.Groups Model.Plane Model.Strategy.
From Verif Require Export Model.Job.
Local Open Scope Qc_scope.
Local Open Scope list_scope.
Local Open Scope string_scope.

(** The objects given to the operation (base_operation.py:85-91: of a workplane, a list or a single
    one).  Of a wire only [cq.Face.makeFromWires(wire).Center()] is read: the kernel's answer. *)
Inductive drill_object :=
| DVector (v : vec)
| DWire (center : result vec)
| DFace (outer : result vec) (inners : list (result vec))
| DOther.

(** drill.py:36-54.  [transform_f] is [job.top.toWorldCoords]. *)
Definition object_vectors (top : plane) (o : drill_object) : result (list vec) :=
  match o with
  | DVector v => Ok [to_world top v]
  | DWire c => do c <- c; Ok [to_world top c]
  | DFace outer [] => do c <- outer; Ok [to_world top c]
  | DFace _ inners => mapM (fun c => do c <- c; Ok (to_world top c)) inners
  | DOther => Err OperationError
  end.

(** drill.py:60-69: the order of the holes.  Each round takes one of the points away. *)
Fixpoint order_points (fuel : nat) (last_ : option pt) (points : path) : result path :=
  match points with
  | [] => Ok []
  | p0 :: _ =>
      match fuel with
      | O => Err OutOfFuel
      | S fuel =>
          do p <- match last_ with Some l => pick_nearest l points | None => Ok p0 end;
          do rest <- py_remove p points;
          do order <- order_points fuel (Some p) rest;
          Ok (p :: order)
      end
  end.

(** drill.py:71-84: four commands per hole. *)
Definition hole (j : job) (depth : Qc) (previous_pos : avec) (p : pt) : list motion :=
  let c1 := rapid_abs None None (Some (j_op_safe_height j)) (Some previous_pos) false in
  let c2 := rapid_abs (Some (fst p)) (Some (snd p)) None (Some (m_end c1)) false in
  let c3 := rapid_abs None None (Some 0) (Some (m_end c2)) false in
  let c4 := plunge_cut_abs (Some (- qabs depth)) (Some (m_end c3)) false (Some (j_feed j)) in
  [c1; c2; c3; c4].
Fixpoint holes (j : job) (depth : Qc) (previous_pos : avec) (points : path) : list motion :=
  match points with
  | [] => []
  | p :: points => let cs := hole j depth previous_pos p in
                   cs ++ holes j depth (m_end (last cs (MRapid KRapid previous_pos previous_pos false))) points
  end.

(** drill.py:59 *)
Definition plan (v : vec) : pt := (vx v, vy v).

(** drill.py:24-85 [Drill.__post_init__] *)
Definition drill_gen (o : option (list drill_object)) (depth : option Qc) (j : job) : result (list command) :=
  match o with
  | None => Err OperationError
  | Some objects =>
      match depth with
      | None => Err OperationError
      | Some depth =>
          do vs <- mapM (object_vectors (j_top j)) objects;
          match concat vs with
          | [] => Err OperationError
          | _ =>
              let points : path := map plan (concat vs) in
              do order <- order_points (length points) None points;
              Ok (map Motion (holes j depth av_none order))
          end
      end
  end.

(** fluent.py:248-253 [Job.drill] *)
Definition job_drill (h : heap) (r : ref) (o : option (list drill_object)) (depth : option Qc) (t : option tool)
  : heap * result ref := fluent_op h r t "Drill" (drill_gen o depth).

(** * Model of /repo/src/cq_cam/utils/interpolation.py *)
From Verif Require Import Base.Py Model.Geometry.
From Verif Require Export Model.Edges.
Local Open Scope Qc_scope.
Local Open Scope list_scope.

(** interpolation.py:36-50 [interpolate_edge_to_vectors] *)
Definition interpolate_edge_to_vectors (e : edge) (precision : nat) : list vec :=
  let n := edge_interpolation_count e precision in
  let '(i, j) := if e_reversed e then (1, 0) else (0, 1) in
  map (e_pos e) (linspace i j n).

(** interpolation.py:53-54 *)
Definition vectors_to_2d_tuples (vs : list vec) : path := map (fun v => (vx v, vy v)) vs.

(** interpolation.py:57-65 [edge_to_vectors].  [basis] answers lines 9-33
    [get_underlying_geom_type]: the type of the curve an offset curve is made from, or KeyError.
    Only "LINE" is told from the others. *)
Definition edge_to_vectors (basis : edge -> result geom) (e : edge) (precision : nat) : result (list vec) :=
  do g <- match e_geom e with GOFFSET => basis e | g => Ok g end;
  match g with
  | GLINE => let '(a, b) := edge_start_end e in Ok [a; b]
  | _ => Ok (interpolate_edge_to_vectors e precision)
  end.

(** interpolation.py:68-88 [wire_to_vectors].  [veq] is Vector.__eq__ (equality within the
    kernel's tolerance); a wire is the list of its ordered edges. *)
Definition wire_to_vectors (veq : vec -> vec -> bool) (basis : edge -> result geom) (edges : list edge)
  (precision : nat) (close : bool) : result (list vec) :=
  match edges with
  | [] => Ok []
  | e :: es =>
      do first <- edge_to_vectors basis e precision;
      do rest <- mapM (fun e => edge_to_vectors basis e precision) es;
      let vectors := first ++ concat (map (@tl vec) rest) in
      if Nat.eqb (length vectors) 1 then Err ValueError
      else match vectors with
           | [] => Err IndexError
           | v0 :: _ =>
               if close && negb (veq v0 (last vectors v0)) then Ok (vectors ++ [v0])
               else if negb close && veq v0 (last vectors v0) then Ok (removelast vectors)
               else Ok vectors
           end
  end.

(** geometry_op.py:138-139 [wire_to_path] *)
Definition wire_to_path (veq : vec -> vec -> bool) (basis : edge -> result geom) (edges : list edge)
  (precision : nat) : result path :=
  do vs <- wire_to_vectors veq basis edges precision true; Ok (vectors_to_2d_tuples vs).

(** * Edges and wires of the CAD kernel, as far as cq_cam reads them

    A [cq.Edge] is a record of the answers of the kernel; nothing is assumed about them here.
    Wires are lists of edges: utils.py:130-147 [wire_to_ordered_edges] is the kernel's
    BRepTools_WireExplorer. *)
From Verif Require Import Base.Py.
From Verif Require Export Model.Plane.
Local Open Scope Qc_scope.

(** cq.Edge.geomType(); [GOther] stands for every type not named in the code. *)
Inductive geom := GLINE | GARC | GCIRCLE | GBSPLINE | GSPLINE | GOFFSET | GOTHER.

Record edge := Edge {
  e_id : nat;                 (* identity of the shape, for cq.Shape == *)
  e_geom : geom;
  e_reversed : bool;          (* wrapped.Orientation() == TopAbs_REVERSED *)
  e_startPoint : vec; e_endPoint : vec;
  e_param : Qc -> vec;        (* positionAt(p, "parameter") *)
  e_pos : Qc -> vec;          (* positionAt(d), normalised length *)
  e_param0 : Qc; e_param1 : Qc;  (* paramAt(0), paramAt(1) *)
  e_length : Qc;
  e_center : vec;             (* arcCenter() *)
  e_normal : vec;             (* normal() *)
  e_closed : bool             (* Closed() *)
}.

(** utils.py:21-63 *)
Definition edge_end_point (e : edge) : vec := if e_reversed e then e_startPoint e else e_endPoint e.
Definition edge_start_point (e : edge) : vec := if e_reversed e then e_endPoint e else e_startPoint e.
Definition edge_start_param (e : edge) : Qc := if e_reversed e then e_param1 e else e_param0 e.
Definition edge_end_param (e : edge) : Qc := if e_reversed e then e_param0 e else e_param1 e.
Definition edge_oriented_param (e : edge) (p1 p2 : Qc) : Qc * Qc * bool :=
  if e_reversed e then (1 - p2, 1 - p1, true) else (p1, p2, false).
Definition edge_start_end (e : edge) : vec * vec :=
  if e_reversed e then (e_endPoint e, e_startPoint e) else (e_startPoint e, e_endPoint e).

(** utils.py:100-117 [is_arc_clockwise] *)
Definition is_arc_clockwise (start mid end_ : vec) : result bool :=
  if negb (qeqb (vz start) (vz mid)) then Err NotImplementedError
  else
    let se := (vx end_ - vx start, vy end_ - vy start) in
    let sm := (vx mid - vx start, vy mid - vy start) in
    let cp := fst se * snd sm - snd se * fst sm in
    Ok (qltb 0 cp).

(** utils.py:120-127 [is_arc_clockwise2] *)
Definition is_arc_clockwise2 (e : edge) : result bool :=
  if qeqb (vz (e_normal e)) 0 then Err RuntimeError
  else if e_reversed e then Ok (qltb 0 (vz (e_normal e)))
  else Ok (qltb (vz (e_normal e)) 0).

(** numpy.linspace(a, b, n), exactly. *)
Definition linspace (a b : Qc) (n : nat) : list Qc :=
  map (fun k => a + (b - a) * qz (Z.of_nat k) / qz (Z.of_nat n - 1)) (seq 0 n).

(** interpolation.py:91-92 [edge_interpolation_count].  The precision is a natural number; the
    product with 10**precision is exact here. *)
Definition edge_interpolation_count (e : edge) (precision : nat) : nat :=
  Z.to_nat (Z.max (qtrunc (e_length e * qz (10 ^ Z.of_nat precision)%Z)) 2).

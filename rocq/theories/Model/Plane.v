(** * cadquery's Plane, as used by cq_cam (job.top)

    Simplification: the plane is given exactly by its origin and three direction vectors
    (cadquery builds fG/rG from gp_Trsf of that frame).  [to_local] is [transformShape(top.fG)]
    / [toLocalCoords], [to_world] is [rG] / [toWorldCoords]. *)
From Verif Require Import Base.Num.
From Verif Require Export Model.Address.
Local Open Scope Qc_scope.

Record plane := PL { p_origin : vec; p_xdir : vec; p_ydir : vec; p_zdir : vec }.

Definition vadd (a b : vec) : vec := V3 (vx a + vx b) (vy a + vy b) (vz a + vz b).
Definition vsub (a b : vec) : vec := V3 (vx a - vx b) (vy a - vy b) (vz a - vz b).
Definition vscale (k : Qc) (a : vec) : vec := V3 (k * vx a) (k * vy a) (k * vz a).
Definition dot (a b : vec) : Qc := vx a * vx b + vy a * vy b + vz a * vz b.

Definition to_local (p : plane) (v : vec) : vec :=
  let d := vsub v (p_origin p) in V3 (dot d (p_xdir p)) (dot d (p_ydir p)) (dot d (p_zdir p)).
Definition to_world (p : plane) (v : vec) : vec :=
  vadd (p_origin p)
    (vadd (vscale (vx v) (p_xdir p)) (vadd (vscale (vy v) (p_ydir p)) (vscale (vz v) (p_zdir p)))).

Definition plane_xy : plane := PL (V3 0 0 0) (V3 1 0 0) (V3 0 1 0) (V3 0 0 1).

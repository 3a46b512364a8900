(** The plane XY. *)
From Verif Require Import Base.Str Base.Py Model.Geometry Model.Plane.
Local Open Scope Qc_scope.

Lemma xy_plane v : to_world plane_xy v = v /\ to_local plane_xy v = v.
Proof. destruct v as [x y z]. unfold to_world, to_local, plane_xy, vadd, vscale, vsub, dot. cbn [vx vy vz p_origin p_xdir p_ydir p_zdir]. split; f_equal; ring. Qed.

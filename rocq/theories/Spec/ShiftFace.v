(** * Faces of the CAD kernel moved in the plane *)
From Verif Require Import Base.Py Model.Geometry Model.Plane Model.Edges Model.PocketOp Spec.Shift Spec.ShiftKernel.
Local Open Scope list_scope.

(** [given] moves the faces handed in, [shadow] faces in the coordinates of the job. *)
Definition face_kernel_moves (F : face_kernel) (top : plane) (given shadow : fk_face F -> fk_face F) (d : pt) : Prop :=
  (forall f, fk_transform F top (given f) = shadow (fk_transform F top f)) /\
  (forall f, fk_zmin F (shadow f) = fk_zmin F f) /\
  (forall f, fk_zmax F (shadow f) = fk_zmax F f) /\
  (forall f, fk_outer F (shadow f) = move_edges d (fk_outer F f)) /\
  (forall f, fk_inners F (shadow f) = map (move_edges d) (fk_inners F f)) /\
  (forall e, fk_basis F (move_edge d e) = fk_basis F e) /\
  (forall o is_, fk_make F (move_edges d o) (map (move_edges d) is_) = rmap shadow (fk_make F o is_)) /\
  (forall f v, fk_translate F (shadow f) v = shadow (fk_translate F f v)) /\
  (forall fs, fk_combine F (map shadow fs) = rmap (map shadow) (fk_combine F fs)) /\
  (forall f ts, fk_cut F (shadow f) (map shadow ts) = rmap (map shadow) (fk_cut F f ts)).

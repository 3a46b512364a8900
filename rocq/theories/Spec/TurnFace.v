(** * Faces of the CAD kernel turned about or mirrored in the plane *)
From Verif Require Import Base.Py Model.Geometry Model.Plane Model.Edges Model.PocketOp Spec.Turn Spec.TurnWire.
Local Open Scope list_scope.

(** [given] turns the faces handed in, [shadow] faces in the coordinates of the job.  Raising a face along
    the direction of the job's plane commutes with turning it. *)
Definition face_kernel_turns (F : face_kernel) (top : plane) (given shadow : fk_face F -> fk_face F) (T : pt -> pt) (o : Qc) : Prop :=
  (forall f, fk_transform F top (given f) = shadow (fk_transform F top f)) /\
  (forall f, fk_zmin F (shadow f) = fk_zmin F f) /\
  (forall f, fk_zmax F (shadow f) = fk_zmax F f) /\
  (forall f, fk_outer F (shadow f) = map (turn_edge T o) (fk_outer F f)) /\
  (forall f, fk_inners F (shadow f) = map (map (turn_edge T o)) (fk_inners F f)) /\
  (forall e, fk_basis F (turn_edge T o e) = fk_basis F e) /\
  (forall w is_, fk_make F (map (turn_edge T o) w) (map (map (turn_edge T o)) is_) = rmap shadow (fk_make F w is_)) /\
  (forall f z, fk_translate F (shadow f) (vscale z (p_zdir top)) = shadow (fk_translate F f (vscale z (p_zdir top)))) /\
  (forall fs, fk_combine F (map shadow fs) = rmap (map shadow) (fk_combine F fs)) /\
  (forall f ts, fk_cut F (shadow f) (map shadow ts) = rmap (map shadow) (fk_cut F f ts)).

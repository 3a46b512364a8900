(** * Examples of layers a plane removes *)
From Verif Require Import Base.Str Base.Py Model.Geometry Model.Profile Spec.Paths Spec.Moves Spec.Wires Spec.Profiles Spec.Layers
  Spec.Jobs Proofs.RouteEx Proofs.ProfileP Proofs.ProfileThmP Proofs.ProfileEx Proofs.LayersP.
Local Open Scope Qc_scope.
Local Open Scope list_scope.

Lemma rectangle_removed x0 y0 x1 y1 z : removes_at flat_tk flat_wk low_plane (rectangle x0 y0 x1 y1 z) (qz (-2)).
Proof.
  intros dz w H. subst w. destruct flat_tk_rigid as [R1 R2]. rewrite (R1 _ (z + dz) (R2 _ _ _ (rectangle_flat _ _ _ _ _))) in *.
  unfold flat_wk. cbn [wk_below wk_moved]. unfold rect_below, rectangle. cbn [map existsb wk_moved map_edge line e_startPoint e_endPoint].
  assert (OP : forall x y, off_plane low_plane (lift dz (V3 x y z)) = negb (qeqb (z + dz) (qz (-2)))).
  { intros x y. unfold off_plane, low_plane, dot, vsub, lift. cbn [p_origin p_zdir vx vy vz]. f_equal.
    destruct (qeqb (z + dz) (qz (-2))) eqn:E.
    - apply qeqb_eq in E. rewrite E. apply qeqb_eq. ring.
    - apply qeqb_neq. intros C. apply qeqb_neq in E. apply E.
      transitivity ((x - 0) * 0 + (y - 0) * 0 + (z + dz - qz (-2)) * 1 + qz (-2)); [ring|]. rewrite C. ring. }
  rewrite !OP. unfold low. cbn [line map_edge e_startPoint e_endPoint lift vz]. rewrite !qmin_same.
  assert (LT : qltb (z + dz) 0 = true). { apply qltb_lt. eapply Qclt_trans; [exact H|reflexivity]. }
  rewrite LT. split; intros E.
  - rewrite E. reflexivity.
  - apply qeqb_neq in E. rewrite E. reflexivity.
Qed.
Lemma rectangle_lifts x0 y0 x1 y1 z : lifts flat_tk flat_wk (rectangle x0 y0 x1 y1 z).
Proof.
  intros dz. destruct flat_tk_rigid as [R1 R2]. rewrite (R1 _ _ (R2 _ _ dz (rectangle_flat _ _ _ _ _))), (R1 _ _ (rectangle_flat _ _ _ _ _)). reflexivity.
Qed.

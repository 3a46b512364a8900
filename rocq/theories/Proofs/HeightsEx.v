(** Examples for Props/Heights.v. *)
From Verif Require Import Base.Str Base.Py Model.Groups Model.Geometry Model.Plane Model.Edges Model.Command Model.Job Model.Routers Model.Profile Model.Drill Model.Tabs
  Spec.Alike Spec.Heights Proofs.RouteEx Proofs.ProfileEx.
Local Open Scope Qc_scope.
Local Open Scope list_scope.
Definition high_job : job :=
  new_job plane_xy (PInt 300) None (Some (qz 3)) None "part" (Some (PInt 100)) (Some (qz 50)) (Some (j_op_safe_height ex_job)) 3 METRIC
          PLANE_XY OFFSET_1 ABSOLUTE ARC_ABSOLUTE CONTINUOUS None.
Definition tops (r : result (list command)) : list Z :=
  match r with
  | Ok cs => flat_map (fun c => match c with Motion (MRapid _ _ e _) => match az e with Some z => [qfloor z] | None => [] end | _ => [] end) cs
  | Err _ => []
  end.
Definition plate_gen (j : job) := profile_gen K0 flat_tk flat_wk [zrect 0 0 40 40 (-2)] [zrect 5 5 15 15 (-2)] (Some 1) (Some (- (1))) None None j.
Lemma ex_heights : alike_but_rapid ex_job high_job /\ j_rapid_height ex_job <> j_rapid_height high_job /\
  tops (plate_gen ex_job) = [10; 10; 1; 10; 10; 1]%Z /\ tops (plate_gen high_job) = [50; 50; 1; 50; 50; 1]%Z.
Proof.
  split; [repeat split|]. split; [intros C; apply (f_equal qfloor) in C; vm_compute in C; discriminate C|]. split; vm_compute; reflexivity.
Qed.
(** Cuts other than descents. *)
Definition cuts_in (r : result (list command)) : nat :=
  match r with Ok cs => length (filter (fun c => match c with Motion (MRapid _ _ _ _) => false | _ => true end) (not_descents cs)) | Err _ => 0 end.
(** A job that may come down fast only to 4 above the work, and travels at 50. *)
Definition careful_job : job :=
  new_job plane_xy (PInt 300) None (Some (qz 3)) None "part" (Some (PInt 100)) (Some (qz 50)) (Some (qz 4)) 3 METRIC
          PLANE_XY OFFSET_1 ABSOLUTE ARC_ABSOLUTE CONTINUOUS None.
(** Heights from which the descents of an operation start. *)
Definition descents_from (r : result (list command)) : list Z :=
  match r with
  | Ok cs => flat_map (fun c => match c with Motion (MCut KPlungeCut s _ _ _) => match az s with Some z => [qfloor z] | None => [] end | _ => [] end) cs
  | Err _ => []
  end.
Lemma ex_safe : alike_but_heights ex_job careful_job /\
  descents_from (plate_gen ex_job) = [1; 1]%Z /\ descents_from (plate_gen careful_job) = [4; 4]%Z /\
  tops (plate_gen careful_job) = [50; 50; 4; 50; 50; 4]%Z /\ cuts_in (plate_gen ex_job) = 8%nat.
Proof. split; [repeat split|]. repeat split; vm_compute; reflexivity. Qed.
(** With a safe height below the cut the descents disappear, and the tool comes down fast to there. *)
Definition sunk_job : job :=
  new_job plane_xy (PInt 300) None (Some (qz 3)) None "part" (Some (PInt 100)) (Some (qz 50)) (Some (qz (-3))) 3 METRIC
          PLANE_XY OFFSET_1 ABSOLUTE ARC_ABSOLUTE CONTINUOUS None.
Lemma ex_sunk : alike_but_heights ex_job sunk_job /\ descents_from (plate_gen sunk_job) = [] /\ tops (plate_gen sunk_job) = [50; 50; -3; 50; 50; -3]%Z.
Proof. split; [repeat split|]. split; vm_compute; reflexivity. Qed.

(** Examples and witnesses for Props/Scaled.v. *)
From Verif Require Import Base.Str Base.Py Model.Groups Model.Geometry Model.Plane Model.Command Model.Job Model.Routers Model.Drill
  Spec.Paths Spec.Moves Spec.Contours Spec.Drills Spec.Alike Spec.Scale Proofs.RouteEx Proofs.DrillEx Proofs.PartsEx.
Local Open Scope Qc_scope.
Local Open Scope list_scope.

Definition heights_job (r s : Qc) (u : unit_code) : job :=
  new_job plane_xy (PInt 300) None (Some (qz 3)) None "part" (Some (PInt 100)) (Some r) (Some s) 3 u
          PLANE_XY OFFSET_1 ABSOLUTE ARC_ABSOLUTE CONTINUOUS None.
Lemma heights_scaled k : scaled_job k ex_job (heights_job (k * j_rapid_height ex_job) (k * j_op_safe_height ex_job) METRIC).
Proof. repeat split. Qed.
Definition spots_tripled : list drill_object := map (fun p => DVector (zh (fst p) (snd p) 0)) [(0, 0); (30, 0); (12, 9); (36, 3)]%Z.
Definition tripled_job : job := heights_job (qz 3 * j_rapid_height ex_job) (qz 3 * j_op_safe_height ex_job) METRIC.
Lemma ex_tripled : 0 < qz 3 /\ scaled_job (qz 3) ex_job tripled_job /\ wanted_holes (to_world (j_top ex_job)) spots [zp 0 0; zp 10 0; zp 4 3; zp 12 1] /\
  wanted_holes (to_world (j_top ex_job)) spots_tripled (map (scale_pt (qz 3)) [zp 0 0; zp 10 0; zp 4 3; zp 12 1]) /\
  List.length (drill_texts (drill_gen (Some spots) (Some (qz 2)) ex_job)) = 16%nat.
Proof.
  split; [reflexivity|]. split; [apply heights_scaled|]. split; [exact (vectors_wanted [(0, 0); (10, 0); (4, 3); (12, 1)]%Z)|]. split; [|vm_compute; reflexivity].
  replace (map (scale_pt (qz 3)) [zp 0 0; zp 10 0; zp 4 3; zp 12 1]) with (map (fun p => zp (fst p) (snd p)) [(0, 0); (30, 0); (12, 9); (36, 3)]%Z); [exact (vectors_wanted _)|].
  cbn [map fst snd]. repeat (apply f_equal2; [apply f_equal2; apply Qc_is_canon; reflexivity|]). reflexivity.
Qed.

(** Millimetres and inches: two contours less than 3 mm apart with a stepover of 3 mm. *)
Definition inch : Qc := qq 5 127.
Definition apart3 : list pathface := [PF (square 0 0 10) [] (qz (-2)); PF (square 2 2 6) [] (qz (-2))].
Definition inch_job : job := heights_job (inch * j_rapid_height ex_job) (inch * j_op_safe_height ex_job) IMPERIAL.
Lemma units_refuted : exists k j j' fs s r r', 0 < k /\ scaled_job k j j' /\
  (forall f, In f fs -> closed_path (pf_outer f) /\ proper (pf_outer f)) /\ 0 < s /\
  route_polyface_outers j fs (Some s) None = Ok r /\ route_polyface_outers j' (map (scale_face k) fs) (Some (k * s)) None = Ok r' /\
  retracts r = 2%nat /\ retracts r' = 1%nat.
Proof.
  exists inch, ex_job, inch_job, apart3, (qz 3).
  assert (A : exists r, route_polyface_outers ex_job apart3 (Some (qz 3)) None = Ok r /\ retracts r = 2%nat) by (eexists; split; vm_compute; reflexivity).
  assert (B : exists r, route_polyface_outers inch_job (map (scale_face inch) apart3) (Some (inch * qz 3)) None = Ok r /\ retracts r = 1%nat) by (eexists; split; vm_compute; reflexivity).
  destruct A as (r & A & A'), B as (r' & B & B'). exists r, r'. split; [reflexivity|]. split; [repeat split|].
  split; [|split; [reflexivity|split; [exact A|split; [exact B|split; assumption]]]].
  intros f [<-|[<-|[]]]; (split; [apply square_closed|]); apply properb_ok; vm_compute; reflexivity.
Qed.
Lemma ex_contours : 0 < inch /\ scaled_job inch ex_job inch_job /\ List.length (motions (route_polyface_outers ex_job apart3 (Some (qz 9)) None)) = 14%nat /\
  retracts (motions (route_polyface_outers ex_job apart3 (Some (qz 9)) None)) = 1%nat.
Proof. split; [reflexivity|]. split; [repeat split|]. split; vm_compute; reflexivity. Qed.

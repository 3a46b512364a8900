(** Examples for Props/Turned.v. *)
From Verif Require Import Base.Str Base.Py Model.Groups Model.Geometry Model.Plane Model.Command Model.Job Model.Routers Model.Drill Model.Pocket
  Spec.Paths Spec.Drills Spec.Turn Spec.Order Proofs.RouteEx Proofs.DrillEx Proofs.RelationalEx Proofs.PartsEx Proofs.OrderP.
From Coq Require Import Permutation.
Local Open Scope Qc_scope.
Local Open Scope list_scope.

(** A turn by the angle of the triangle 3, 4, 5; a quarter turn, mirrored and moved. *)
Definition turn345 : pt -> pt := turned (qq 3 5) (qq 4 5) 1 (0, 0).
Definition flipped : pt -> pt := turned 0 1 (- (1)) (qz 7, qz 2).
Lemma turn345_rigid : rigid turn345.
Proof. exists (qq 3 5), (qq 4 5), 1, (0, 0). split; [apply Qc_is_canon; reflexivity|]. split; [ring|reflexivity]. Qed.
Lemma flipped_rigid : rigid flipped.
Proof. exists 0, 1, (- (1)), (qz 7, qz 2). split; [ring|]. split; [ring|reflexivity]. Qed.
Lemma copy_engine_turns T : engine_turns T copy_engine.
Proof.
  split; [intros p o n; cbn; destruct (qltb o (-(1))); reflexivity|]. split; [intros; cbn; rewrite !map_map; reflexivity|].
  split; [intros; cbn; rewrite !map_map; reflexivity|reflexivity].
Qed.
Definition spots_flipped : list drill_object := map (fun p => DVector (zh (fst p) (snd p) 0)) [(7, 2); (7, -8); (4, -2); (6, -10)]%Z.
Lemma ex_flipped : rigid flipped /\ wanted_holes (to_world (j_top ex_job)) spots [zp 0 0; zp 10 0; zp 4 3; zp 12 1] /\
  wanted_holes (to_world (j_top ex_job)) spots_flipped (map flipped [zp 0 0; zp 10 0; zp 4 3; zp 12 1]) /\
  List.length (drill_texts (drill_gen (Some spots) (Some (qz 2)) ex_job)) = 16%nat.
Proof.
  split; [exact flipped_rigid|]. split; [exact (vectors_wanted [(0, 0); (10, 0); (4, 3); (12, 1)]%Z)|]. split; [|vm_compute; reflexivity].
  replace (map flipped [zp 0 0; zp 10 0; zp 4 3; zp 12 1]) with (map (fun p => zp (fst p) (snd p)) [(7, 2); (7, -8); (4, -2); (6, -10)]%Z); [exact (vectors_wanted _)|].
  cbn [map fst snd]. repeat (apply f_equal2; [apply f_equal2; apply Qc_is_canon; reflexivity|]). reflexivity.
Qed.
Lemma ex_turned : rigid turn345 /\ (forall T, engine_turns T copy_engine) /\
  ends_of (rmap (map (turn_motion turn345)) shifted_pocket) <> ends_of shifted_pocket /\ List.length (motions shifted_pocket) = 15%nat.
Proof.
  split; [exact turn345_rigid|]. split; [exact copy_engine_turns|]. split; [intros C; vm_compute in C; discriminate C|vm_compute; reflexivity].
Qed.

(** ** Orders *)
Definition spots_in_order : list drill_object := map (fun p => DVector (zh (fst p) (snd p) 0)) [(0, 0); (4, 3); (10, 0); (12, 1)]%Z.
Definition drilled_places (r : result (list command)) : path := match r with Ok cs => cut_places cs | Err _ => [] end.
Lemma places_of os z j cs : drill_gen os z j = Ok cs -> drilled_places (drill_gen os z j) = cut_places cs.
Proof. intros ->. reflexivity. Qed.
Definition as_z (ps : path) : list (Z * Z) := map (fun p => (qfloor (fst p), qfloor (snd p))) ps.
Lemma spots_places : drilled_places (drill_gen (Some spots) (Some (qz 2)) ex_job) = map (fun p => zp (fst p) (snd p)) [(0, 0); (4, 3); (10, 0); (12, 1)]%Z.
Proof. cbn [map fst snd]. vm_compute. reflexivity. Qed.
Lemma ex_again : exists cs, drill_gen (Some spots) (Some (qz 2)) ex_job = Ok cs /\ wanted_holes (to_world (j_top ex_job)) spots_in_order (cut_places cs) /\
  spots <> spots_in_order /\ as_z (cut_places cs) = [(0, 0); (4, 3); (10, 0); (12, 1)]%Z.
Proof.
  pose proof spots_places as P. destruct (drill_gen (Some spots) (Some (qz 2)) ex_job) as [cs|]; [|discriminate P]. exists cs. split; [reflexivity|]. cbn [drilled_places] in P. rewrite P.
  split; [exact (vectors_wanted _)|]. split; [|vm_compute; reflexivity].
  intros H. apply (f_equal (fun l => match l with _ :: DVector v :: _ => qfloor (vx v) | _ => 0%Z end)) in H. vm_compute in H. discriminate.
Qed.
(** Selected from left to right but for the first, the nearest hole leads away from the far side. *)
Definition axis_spots : list drill_object := map (fun p => DVector (zh (fst p) (snd p) 0)) [(0, 0); (-3, 0); (2, 0); (8, 0)]%Z.
Lemma axis_places : drilled_places (drill_gen (Some axis_spots) (Some (qz 2)) ex_job) = map (fun p => zp (fst p) (snd p)) [(0, 0); (2, 0); (-3, 0); (8, 0)]%Z.
Proof. cbn [map fst snd]. vm_compute. reflexivity. Qed.
Lemma longer_way : exists j os z cs ps, drill_gen (Some os) (Some z) j = Ok cs /\ wanted_holes (to_world (j_top j)) os ps /\ on_x_axis ps /\ way ps < way (cut_places cs).
Proof.
  pose proof axis_places as P. destruct (drill_gen (Some axis_spots) (Some (qz 2)) ex_job) as [cs|] eqn:E; [|discriminate P]. cbn [drilled_places] in P.
  exists ex_job, axis_spots, (qz 2), cs, (map (fun p => zp (fst p) (snd p)) [(0, 0); (-3, 0); (2, 0); (8, 0)]%Z). split; [exact E|]. split; [exact (vectors_wanted _)|]. rewrite P. split.
  - intros p Hp. cbn [map fst snd] in Hp. repeat (destruct Hp as [<-|Hp]; [apply Qc_is_canon; reflexivity|]). destruct Hp.
  - apply qltb_lt. vm_compute. reflexivity.
Qed.
Lemma ex_legs : exists cs, drill_gen (Some spots) (Some (qz 2)) ex_job = Ok cs /\ cut_places cs = [zp 0 0] ++ zp 4 3 :: zp 10 0 :: [zp 12 1].
Proof.
  pose proof spots_places as P. destruct (drill_gen (Some spots) (Some (qz 2)) ex_job) as [cs|]; [|discriminate P]. exists cs. split; [reflexivity|exact P].
Qed.

(** Examples for C128 and C129. *)
From Verif Require Import Base.Str Base.Py Spec.Gcode Spec.Blocks Spec.Machine Spec.Program Spec.Paths Spec.Jobs Spec.Axes Spec.Drills Spec.Parts
  Model.Groups Model.Geometry Model.Plane Model.Edges Model.Job Model.Profile Model.Drill Model.Tabs
  Proofs.RouteEx Proofs.ProfileEx Proofs.DrillEx Proofs.AxesP Proofs.AxesEx Proofs.RatesEx Proofs.OnMachineEx Proofs.PartsP.
From Coq Require Import Permutation.
Local Open Scope Qc_scope.
Local Open Scope list_scope.

Definition spots : list drill_object := [DVector (zh 0 0 0); DVector (zh 10 0 0); DVector (zh 4 3 0); DVector (zh 12 1 0)].
Definition spots_shuffled : list drill_object := [DVector (zh 0 0 0); DVector (zh 12 1 0); DVector (zh 10 0 0); DVector (zh 4 3 0)].
Lemma vectors_wanted (l : list (Z * Z)) : wanted_holes (to_world (j_top ex_job)) (map (fun p => DVector (zh (fst p) (snd p) 0)) l) (map (fun p => zp (fst p) (snd p)) l).
Proof.
  exists (map (fun p => [to_world plane_xy (zh (fst p) (snd p) 0)]) l). split.
  - induction l; constructor; [reflexivity|assumption].
  - induction l as [|[x y] l IH]; [reflexivity|]. cbn [map concat app]. rewrite IH. f_equal. cbn [fst snd]. unfold plan, to_world, zp, zh, qz. cbn. apply f_equal2; ring.
Qed.
Lemma spots_untied : no_ties [zp 0 0; zp 10 0; zp 4 3; zp 12 1].
Proof.
  intros a b c Ha Hb Hc.
  destruct Ha as [<-|[<-|[<-|[<-|[]]]]], Hb as [<-|[<-|[<-|[<-|[]]]]], Hc as [<-|[<-|[<-|[<-|[]]]]]; intros H; try reflexivity; exfalso; apply qeqb_eq in H; vm_compute in H; discriminate.
Qed.
Lemma ex_shuffled : wanted_holes (to_world (j_top ex_job)) spots [zp 0 0; zp 10 0; zp 4 3; zp 12 1] /\
  wanted_holes (to_world (j_top ex_job)) spots_shuffled [zp 0 0; zp 12 1; zp 10 0; zp 4 3] /\
  Permutation [zp 10 0; zp 4 3; zp 12 1] [zp 12 1; zp 10 0; zp 4 3] /\ no_ties [zp 0 0; zp 10 0; zp 4 3; zp 12 1] /\ spots <> spots_shuffled /\
  List.length (drill_texts (drill_gen (Some spots) (Some (qz 2)) ex_job)) = 16%nat.
Proof.
  split; [exact (vectors_wanted [(0, 0); (10, 0); (4, 3); (12, 1)]%Z)|]. split; [exact (vectors_wanted [(0, 0); (12, 1); (10, 0); (4, 3)]%Z)|].
  split; [exact (Permutation_sym (Permutation_cons_append [zp 10 0; zp 4 3] (zp 12 1)))|]. split; [exact spots_untied|]. split.
  - intros H. apply (f_equal (fun l => match l with _ :: DVector v :: _ => qfloor (vx v) | _ => 0%Z end)) in H. vm_compute in H. discriminate.
  - vm_compute. reflexivity.
Qed.
(** With a tie, or with another first hole, the order of the selection shows. *)
Definition drilled_at (l : list (Z * Z)) : list string :=
  drill_texts (drill_gen (Some (map (fun p => DVector (zh (fst p) (snd p) 0)) l)) (Some (qz 2)) ex_job).
Lemma ties_show : drill_gen (Some (map (fun p => DVector (zh (fst p) (snd p) 0)) [(0, 0); (1, 0); (-1, 0)]%Z)) (Some (qz 2)) ex_job <>
  drill_gen (Some (map (fun p => DVector (zh (fst p) (snd p) 0)) [(0, 0); (-1, 0); (1, 0)]%Z)) (Some (qz 2)) ex_job /\
  drill_gen (Some (map (fun p => DVector (zh (fst p) (snd p) 0)) [(0, 0); (1, 0); (5, 0)]%Z)) (Some (qz 2)) ex_job <>
  drill_gen (Some (map (fun p => DVector (zh (fst p) (snd p) 0)) [(1, 0); (0, 0); (5, 0)]%Z)) (Some (qz 2)) ex_job.
Proof. split; intros H; apply (f_equal drill_texts) in H; vm_compute in H; discriminate. Qed.
Lemma order_shows : exists j os os' p p' pts pts', wanted_holes (to_world (j_top j)) os (p :: pts) /\ wanted_holes (to_world (j_top j)) os' (p' :: pts') /\
  Permutation (p :: pts) (p' :: pts') /\ p = p' /\ drill_gen (Some os) (Some (qz 2)) j <> drill_gen (Some os') (Some (qz 2)) j.
Proof.
  eexists ex_job, _, _, _, _, _, _. split; [exact (vectors_wanted [(0, 0); (1, 0); (-1, 0)]%Z)|]. split; [exact (vectors_wanted [(0, 0); (-1, 0); (1, 0)]%Z)|].
  split; [apply perm_skip, perm_swap|]. split; [reflexivity|]. exact (proj1 ties_show).
Qed.
Lemma first_shows : exists j os os' p p' pts pts', wanted_holes (to_world (j_top j)) os (p :: pts) /\ wanted_holes (to_world (j_top j)) os' (p' :: pts') /\
  Permutation (p :: pts) (p' :: pts') /\ no_ties (p :: pts) /\ drill_gen (Some os) (Some (qz 2)) j <> drill_gen (Some os') (Some (qz 2)) j.
Proof.
  eexists ex_job, _, _, _, _, _, _. split; [exact (vectors_wanted [(0, 0); (1, 0); (5, 0)]%Z)|]. split; [exact (vectors_wanted [(1, 0); (0, 0); (5, 0)]%Z)|].
  split; [apply perm_swap|]. split; [|exact (proj2 ties_show)].
  intros a b c Ha Hb Hc. destruct Ha as [<-|[<-|[<-|[]]]], Hb as [<-|[<-|[<-|[]]]], Hc as [<-|[<-|[<-|[]]]]; intros H; try reflexivity; exfalso; apply qeqb_eq in H; vm_compute in H; discriminate.
Qed.

(** ** Parts *)
Definition left_wire := zrect 0 0 10 10 (-2).
Definition right_wire := zrect 20 0 30 10 (-2).
Definition once_heap : heap := fst (job_wire_profile K0 flat_tk flat_wk [ex_job] 0%nat ([left_wire] ++ [right_wire]) 1 None None None).
Definition first_heap : heap := fst (job_wire_profile K0 flat_tk flat_wk [ex_job] 0%nat [left_wire] 1 None None None).
Definition parts_heap : heap := fst (job_wire_profile K0 flat_tk flat_wk first_heap 1%nat [right_wire] 1 None None None).
Lemma ex_parts : snd (job_wire_profile K0 flat_tk flat_wk [ex_job] 0%nat ([left_wire] ++ [right_wire]) 1 None None None) = Ok 1%nat /\
  snd (job_wire_profile K0 flat_tk flat_wk [ex_job] 0%nat [left_wire] 1 None None None) = Ok 1%nat /\
  snd (job_wire_profile K0 flat_tk flat_wk first_heap 1%nat [right_wire] 1 None None None) = Ok 2%nat /\
  (exists j, hget once_heap 1%nat = Some j /\ job_printable once_heap j) /\ (exists j, hget parts_heap 2%nat = Some j /\ job_printable parts_heap j) /\
  cut_ends once_heap 1%nat = cut_ends parts_heap 2%nat /\ List.length (cut_ends parts_heap 2%nat) = 10%nat.
Proof.
  split; [vm_compute; reflexivity|]. split; [vm_compute; reflexivity|]. split; [vm_compute; reflexivity|].
  split; [apply job_b_ok; [apply user_wire_profile, start_user|vm_compute; reflexivity]|]. split; [apply job_b_ok; [apply user_wire_profile, user_wire_profile, start_user|vm_compute; reflexivity]|].
  split; vm_compute; reflexivity.
Qed.
Definition plate_a : shape := SFace (zrect 0 0 40 40 (-2)) [zrect 5 5 15 15 (-2)].
Definition plate_b : shape := SFace (zrect 50 0 90 40 (-2)) [zrect 55 5 65 15 (-2)].
Definition work_targets (o : option job) : list (Z * Z) :=
  match o with Some j => rapid_targets (flat_map (fun c => match c with Motion m => [m] | Config _ => [] end) (flat_map op_commands (j_operations j))) | None => [] end.
(** Both offsets: the holes of all the plates come before the outlines of all the plates. *)
Lemma both_not_parts : exists K TK WK h r s1 s2 oo io,
  ~ in_parts (job_profile K TK WK h r (s1 ++ s2) (Some oo) (Some io) None None None) (job_profile K TK WK h r s1 (Some oo) (Some io) None None None)
      (fun h r => job_profile K TK WK h r s2 (Some oo) (Some io) None None None).
Proof.
  exists K0, flat_tk, flat_wk, [ex_job], 0%nat, [plate_a], [plate_b], 1, (- (1)). unfold in_parts.
  set (o := job_profile K0 flat_tk flat_wk [ex_job] 0%nat ([plate_a] ++ [plate_b]) (Some 1) (Some (- (1))) None None None).
  set (f := job_profile K0 flat_tk flat_wk [ex_job] 0%nat [plate_a] (Some 1) (Some (- (1))) None None None).
  assert (F : snd f = Ok 1%nat) by (vm_compute; reflexivity). rewrite F. cbn zeta. set (s := job_profile K0 flat_tk flat_wk (fst f) 1%nat _ _ _ _ _ _).
  assert (S : snd s = Ok 2%nat) by (vm_compute; reflexivity). rewrite S. assert (O : snd o = Ok 1%nat) by (vm_compute; reflexivity). rewrite O.
  assert (T : work_targets (hget (fst o) 1%nat) = [(6, 6); (56, 6); (-2, -2); (48, -2)]%Z) by (vm_compute; reflexivity).
  assert (T' : work_targets (hget (fst s) 2%nat) = [(6, 6); (-2, -2); (56, 6); (48, -2)]%Z) by (vm_compute; reflexivity).
  clearbody o s. intros (r & j & j' & R & G & G' & _ & W). injection R as <-. rewrite G in T. rewrite G' in T'. cbn [work_targets] in T, T'. rewrite W, T' in T. discriminate.
Qed.

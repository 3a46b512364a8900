(** Examples for Props/Appended.v. *)
From Verif Require Import Base.Str Base.Py Spec.Gcode Spec.Blocks Spec.Machine Spec.Program Spec.Jobs Spec.Axes Spec.Rates Spec.OnMachine Spec.Appended
  Model.Groups Model.Geometry Model.Edges Model.Plane Model.Job Model.Routers Model.Profile Model.Drill
  Proofs.RouteEx Proofs.ProfileEx Proofs.DrillEx Proofs.AxesEx Proofs.RatesEx Proofs.OnMachineEx.
From Verif Require Proofs.ProgramEx.
Local Open Scope Qc_scope.
Local Open Scope list_scope.

Definition plate_heap : heap := fst (job_profile K0 flat_tk flat_wk [ex_job] 0%nat [plate] (Some 1) (Some (- (1))) None None None).
Lemma plate_later : later plate_heap 1%nat two_heap 3%nat.
Proof.
  eapply later_call; [apply later_now|]. eapply step_drill. rewrite (surjective_pairing (job_drill _ _ _ _ _)). unfold two_heap, plate_heap. f_equal. vm_compute. reflexivity.
Qed.
Definition moves_of (h : heap) (r : ref) : list event := snd (run ProgramEx.st_off (ProgramEx.blocks_of h r)).
Lemma ex_appended : user_heap plate_heap /\ user_heap two_heap /\ later plate_heap 1%nat two_heap 3%nat /\
  (exists j, hget plate_heap 1%nat = Some j /\ job_printable plate_heap j) /\ (exists j, hget two_heap 3%nat = Some j /\ job_printable two_heap j) /\
  List.length (moves_of plate_heap 1%nat) = 24%nat /\ List.length (moves_of two_heap 3%nat) = 44%nat.
Proof.
  split; [apply user_profile, start_user|]. split; [exact two_user|]. split; [exact plate_later|].
  split; [apply job_b_ok; [apply user_profile, start_user|vm_compute; reflexivity]|]. split; [apply job_b_ok; [exact two_user|vm_compute; reflexivity]|].
  split; vm_compute; reflexivity.
Qed.

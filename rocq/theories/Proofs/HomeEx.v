(** Witnesses for Props/Moves.v. *)
From Verif Require Import Base.Str Base.Py Spec.Gcode Spec.Blocks Spec.Machine Spec.Program Spec.Jobs Spec.Home Model.Groups Model.Plane Model.Job Model.Drill
  Proofs.JobP Proofs.DrillP Proofs.DrillEx Proofs.HomeP.
From Verif Require Proofs.RouteEx Proofs.ProgramEx.
Local Open Scope Qc_scope.
Local Open Scope list_scope.

(** After drilling, the tool is sent home from the bottom of the last hole, spindle running. *)
Definition drill_heap : heap := fst (job_drill [RouteEx.ex_job] 0%nat (Some ex_holes) (Some (qz 2)) None).
Definition home_low (st : mstate) : bool := match ms_z st with Some z => qltb z 0 | None => false end.
Lemma home_in_hole : exists h r j s bs st, reachable h /\ hget h r = Some j /\ to_gcode h r = Ok s /\ parse_program s = Some bs /\
  In st (homes ProgramEx.st_off bs) /\ exists z, ms_z st = Some z /\ z < 0 /\ z < j_op_safe_height j /\ z < j_rapid_height j.
Proof.
  set (h := drill_heap). set (bs := ProgramEx.blocks_of h 1%nat).
  assert (X : existsb home_low (homes ProgramEx.st_off bs) = true) by (vm_compute; reflexivity).
  apply existsb_exists in X as (st & HI & HZ). unfold home_low in HZ. destruct (ms_z st) as [z|] eqn:EZ; [|discriminate HZ]. apply qltb_lt in HZ.
  exists h, 1%nat, (nth 1 h RouteEx.ex_job). eexists. exists bs, st.
  split. { apply reach_call; [apply (reach_new []); [constructor|reflexivity]|]. intros j cmds H. destruct (drill_straight _ _ j cmds H) as (ms & E & _). exists ms. exact E. }
  split; [apply nth_error_nth'; assert (L : Nat.ltb 1 (length h) = true) by (vm_compute; reflexivity); apply Nat.ltb_lt; exact L|].
  split; [vm_compute; reflexivity|]. split; [vm_compute; reflexivity|]. split; [exact HI|].
  exists z. split; [exact EZ|]. split; [exact HZ|]. split; (eapply Qclt_trans; [exact HZ|apply qltb_lt; vm_compute; reflexivity]).
Qed.

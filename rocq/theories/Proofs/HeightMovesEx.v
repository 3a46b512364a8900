(** Examples for Props/HeightSessions.v. *)
From Verif Require Import Base.Str Base.Py Spec.Gcode Spec.Blocks Spec.Machine Spec.Program Spec.Axes Spec.OnMachine Spec.Alike Spec.Heights Spec.HeightMoves
  Model.Groups Model.Geometry Model.Plane Model.Edges Model.Job Model.Profile Model.Drill Model.Tabs Proofs.RouteEx Proofs.ProfileEx Proofs.DrillEx Proofs.AxesP Proofs.AxesEx Proofs.OnMachineEx Proofs.HeightsEx Proofs.FeedMovesEx Proofs.HeightMovesP.
From Verif Require Proofs.ProgramEx.
Local Open Scope Qc_scope.
Local Open Scope list_scope.

(** A plate cut around and then drilled with another tool, by users who travel at 10 and at 50. *)
Definition around (j : job) : heap := fst (job_wire_profile K0 flat_tk flat_wk [j] 0%nat [zrect 0 0 40 40 (-2)] 1 None None None).
Definition plate (j : job) : heap := fst (job_drill (around j) 1%nat (Some ex_holes) (Some (qz 2)) (Some (bit (Some (PInt 50))))).
Definition rapid_ends (h : heap) (r : ref) : list (option Z) :=
  map (fun e => option_map qfloor (ms_z (ev_to e))) (filter (fun e => negb (is_feed_move (ev_kind e))) (snd (run ProgramEx.st_off (ProgramEx.blocks_of h r)))).
Lemma plate_sessions : high_sessions (plate ex_job) (plate high_job).
Proof.
  destruct travel_settled as (_ & W & _ & D & _). apply (high_call (around ex_job) (around high_job)); [|apply D].
  apply (high_call [ex_job] [high_job]); [|apply W]. apply (high_job_made [] []); [constructor|repeat split|reflexivity|reflexivity].
Qed.
Lemma plate_user j : j_operations j = [] -> user_heap (plate j).
Proof. intros E. apply user_drill, user_wire_profile. apply (user_new []); [constructor|exact E]. Qed.
Lemma ex_plates : user_heap (plate ex_job) /\ user_heap (plate high_job) /\
  (exists j, hget (plate ex_job) 3%nat = Some j /\ job_printable (plate ex_job) j) /\ (exists j, hget (plate high_job) 3%nat = Some j /\ job_printable (plate high_job) j) /\
  firstn 4 (rapid_ends (plate ex_job) 3%nat) = [Some 10; Some 10; Some 1; Some 1]%Z /\
  firstn 4 (rapid_ends (plate high_job) 3%nat) = [Some 50; Some 50; Some 1; Some 1]%Z /\
  List.length (cut_ends (plate ex_job) 3%nat) = 10%nat.
Proof.
  split; [apply plate_user; reflexivity|]. split; [apply plate_user; reflexivity|]. split; [apply job_b_ok; [apply plate_user; reflexivity|vm_compute; reflexivity]|]. split; [apply job_b_ok; [apply plate_user; reflexivity|vm_compute; reflexivity]|].
  split; [|split]; vm_compute; reflexivity.
Qed.

(** Examples for Props/FeedSessions.v. *)
From Verif Require Import Base.Str Base.Py Spec.Gcode Spec.Blocks Spec.Machine Spec.Program Spec.Axes Spec.OnMachine Spec.Alike Spec.FeedMoves
  Model.Groups Model.Geometry Model.Plane Model.Job Model.Drill Proofs.RouteEx Proofs.DrillEx Proofs.AxesP Proofs.AxesEx Proofs.OnMachineEx Proofs.AlikeP Proofs.RelationalEx.
From Verif Require Proofs.ProgramEx.
Local Open Scope Qc_scope.
Local Open Scope list_scope.

(** Two jobs with other feed rates, drilled with a tool that is fed at 50 or as the job says. *)
Definition bit (f : option pynum) : tool := Tool (Some (qz 2)) (Some 4%Z) f (Some (PInt 9000)).
Definition slow_heap : heap := fst (job_drill [ex_job] 0%nat (Some ex_holes) (Some (qz 2)) (Some (bit (Some (PInt 50))))).
Definition fast_heap : heap := fst (job_drill [fast_job] 0%nat (Some ex_holes) (Some (qz 2)) (Some (bit None))).
Definition rates (h : heap) (r : ref) : list (option Qc) := map (fun e => ms_feed (ev_from e)) (feed_moves (snd (run ProgramEx.st_off (ProgramEx.blocks_of h r)))).
Lemma fast_user : user_heap [fast_job].
Proof. apply (user_new []); [constructor|reflexivity]. Qed.
Lemma ex_sessions : sessions slow_heap fast_heap.
Proof.
  apply (sessions_call [ex_job] [fast_job] 0%nat (Some (bit (Some (PInt 50)))) (Some (bit None)) "Drill" (drill_gen (Some ex_holes) (Some (qz 2)))); [|apply drill_settled|reflexivity].
  apply (sessions_job [] []); [constructor|reflexivity].
Qed.
Lemma ex_rates : (exists j, hget slow_heap 2%nat = Some j /\ job_printable slow_heap j) /\ (exists j, hget fast_heap 2%nat = Some j /\ job_printable fast_heap j) /\
  map (option_map qfloor) (rates slow_heap 2%nat) = [Some 50; Some 50; Some 50; Some 50; Some 50]%Z /\
  map (option_map qfloor) (rates fast_heap 2%nat) = [Some 900; Some 900; Some 900; Some 900; Some 900]%Z /\ cut_ends slow_heap 2%nat = cut_ends fast_heap 2%nat.
Proof.
  split; [apply job_b_ok; [apply user_drill, start_user|vm_compute; reflexivity]|]. split; [apply job_b_ok; [apply user_drill, fast_user|vm_compute; reflexivity]|].
  split; [|split]; vm_compute; reflexivity.
Qed.

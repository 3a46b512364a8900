(** Further examples for Props/Program.v. *)
From Verif Require Import Base.Str Base.Py Spec.Gcode Spec.Blocks Spec.Machine Spec.Program Spec.Jobs Spec.Codes Model.Groups Model.Plane Model.Job Proofs.ProgramEx.
Local Open Scope list_scope.
Local Open Scope Z_scope.

(** The settings of the job of the example program are the default ones. *)
Lemma ex_settings : reachable ex_heap /\ exists j, hget ex_heap ex_ref = Some j /\ job_printable ex_heap j /\ j_unit j = METRIC /\
  j_coordinate j = OFFSET_1 /\ j_plane j = PLANE_XY /\ j_distance j = ABSOLUTE /\ j_controller_motion j = CONTINUOUS.
Proof.
  destruct ex_program as (R & (j & H & P & _) & _). split; [exact R|]. exists j. split; [exact H|]. split; [exact P|].
  assert (X : option_map (fun j => (j_unit j, j_coordinate j, j_plane j, j_distance j, j_controller_motion j)) (hget ex_heap ex_ref) =
    Some (METRIC, OFFSET_1, PLANE_XY, ABSOLUTE, CONTINUOUS)) by (vm_compute; reflexivity).
  rewrite H in X. cbn [option_map] in X. assert (Y : (j_unit j, j_coordinate j, j_plane j, j_distance j, j_controller_motion j) = (METRIC, OFFSET_1, PLANE_XY, ABSOLUTE, CONTINUOUS)) by congruence.
  repeat split; congruence.
Qed.
(** Two calls, of which the second has another tool. *)
Lemma ex_changes : exists j0 cs, built ex_heap ex_ref j0 cs /\ List.length cs = 2%nat /\ changes j0 cs 1 /\ j_speed j0 <> None.
Proof.
  exists (ex_job METRIC OFFSET_1 CONTINUOUS), [Call None "Profile" ex_motions; Call (Some ex_tool) "Pocket" ex_motions].
  split; [|split; [reflexivity|split; [left; discriminate|discriminate]]].
  apply (built_call ex_heap1 1%nat _ [Call None "Profile" ex_motions] (Some ex_tool) "Pocket" ex_gen ex_heap 3%nat
     (nth 3 ex_heap (ex_job METRIC OFFSET_1 CONTINUOUS)) (firstn 2 (j_operations (nth 3 ex_heap (ex_job METRIC OFFSET_1 CONTINUOUS))))); try reflexivity.
  apply (built_call ex_heap0 0%nat _ [] None "Profile" ex_gen ex_heap1 1%nat (nth 1 ex_heap1 (ex_job METRIC OFFSET_1 CONTINUOUS)) []); try reflexivity.
  apply (built_new []). reflexivity.
Qed.
(** G and M codes of the example program. *)
Lemma ex_codes : exists bs, parse_program ex_text = Some bs /\ flat_map (codes "M") bs = [30; 70; 50; 90; 10; 60; 30; 70; 50; 90; 300].
Proof. eexists. split; vm_compute; reflexivity. Qed.

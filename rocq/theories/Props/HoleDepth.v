(** * Property C151: the depth of holes changes nothing but the plunges *)
From Verif Require Import Base.Str Base.Py Model.Geometry Model.Drill Spec.HoleDepth Proofs.RouteEx Proofs.DrillEx Proofs.HoleDepthP.
Local Open Scope Qc_scope.
Local Open Scope list_scope.

(** ** C151 *)
(** The same holes to two depths: both succeed or both fail alike; command by command the rapids go to the
    same places, and the plunges start at the same places and end at minus the two depths. *)
Theorem C151_depth : forall o d d' j, match drill_gen o (Some d) j, drill_gen o (Some d') j with
  | Ok cs, Ok cs' => Forall2 (other_depth (- qabs d) (- qabs d')) cs cs'
  | Err e, Err e' => e = e'
  | _, _ => False end.
Proof. exact drill_depth. Qed.
Print Assumptions C151_depth.
(** Only the lines of plunges differ. *)
Theorem C151_lines : forall o d d' j cs cs', drill_gen o (Some d) j = Ok cs -> drill_gen o (Some d') j = Ok cs' ->
  Forall2 (fun c c' => str_command c = str_command c' \/ (a_plunge c /\ a_plunge c')) cs cs'.
Proof. exact drill_lines. Qed.
Print Assumptions C151_lines.
(** The sign of the depth does not matter. *)
Theorem C151_sign : forall h r o d t, job_drill h r o (Some (- d)) t = job_drill h r o (Some d) t.
Proof. exact job_drill_sign. Qed.
Print Assumptions C151_sign.

(** Depths 2 and -7. *)
Example C151_example : firstn 5 (drill_texts (drill_gen (Some ex_holes) (Some (qz 2)) ex_job)) = ["G0 Z1"; "G0 X0 Y0 Z1"; "G0 X0 Y0 Z0"; "G1 X0 Y0 Z-2 F300"; "G0 X0 Y0 Z1"]%string /\
  firstn 5 (drill_texts (drill_gen (Some ex_holes) (Some (qz (-7))) ex_job)) = ["G0 Z1"; "G0 X0 Y0 Z1"; "G0 X0 Y0 Z0"; "G1 X0 Y0 Z-7 F300"; "G0 X0 Y0 Z1"]%string /\
  drill_gen (Some [DOther]) (Some (qz 2)) ex_job = Err OperationError.
Proof. exact ex_hole_depth. Qed.

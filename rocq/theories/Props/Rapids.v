(** * Property C105: rapids of printed programs on the machine *)
From Verif Require Import Base.Str Base.Py Spec.Gcode Spec.Blocks Spec.Machine Spec.Program Spec.Jobs Spec.Axes Spec.Rapids
  Model.Groups Model.Job Proofs.AxesEx Proofs.RapidsP Proofs.RapidsEx.
From Verif Require Proofs.ProgramEx.
Local Open Scope list_scope.

(** The program of a job made by the methods of Job, run on the machine from any position: the moves
    fall into one group per operation; each rapid goes straight to the travel height of its operation,
    sideways at that height, or straight down from it to the approach height. *)
Theorem C105_clear_rapids : forall h r j st, user_heap h -> hget h r = Some j -> job_printable h j -> ms_ended st = false ->
  exists s bs groups, to_gcode h r = Ok s /\ parse_program s = Some bs /\ snd (run st bs) = concat groups /\
    Forall2 (fun o es => Forall (fun e => ev_kind e = GRapid -> clear_rapid (travel_height j o) (approach_height j o) e) es)
      (j_operations j) groups.
Proof. exact user_clear. Qed.
Print Assumptions C105_clear_rapids.

(** A rapid going sideways stays at the rapid height or at the safe height, as printed. *)
Theorem C105_sideways : forall h r j st, user_heap h -> hget h r = Some j -> job_printable h j -> ms_ended st = false ->
  exists s bs, to_gcode h r = Ok s /\ parse_program s = Some bs /\
    forall e, In e (snd (run st bs)) -> ev_kind e = GRapid -> ~ same_xy e ->
      exists z, In z [j_rapid_height j; j_op_safe_height j] /\ ms_z (ev_from e) = Some (rounded 3 z) /\ ms_z (ev_to e) = Some (rounded 3 z).
Proof. exact user_sideways. Qed.
Print Assumptions C105_sideways.

(** With heights not below the surface, no rapid ends below it. *)
Theorem C105_above_surface : forall h r j st, user_heap h -> hget h r = Some j -> job_printable h j -> ms_ended st = false ->
  (0 <= j_rapid_height j)%Qc -> (0 <= j_op_safe_height j)%Qc ->
  exists s bs, to_gcode h r = Ok s /\ parse_program s = Some bs /\
    forall e, In e (snd (run st bs)) -> ev_kind e = GRapid -> exists z, ms_z (ev_to e) = Some z /\ (0 <= z)%Qc.
Proof. exact user_above. Qed.
Print Assumptions C105_above_surface.

(** A profile of an outer and two inner wires, and five holes: three and five approaches. *)
Example C105_example : user_heap two_heap /\
  (exists j, hget two_heap 3%nat = Some j /\ job_printable two_heap j /\ map op_name (j_operations j) = ["Profile"; "Tool Change"; "Drill"]%string) /\
  flat_map rapid_heights (snd (run ProgramEx.st_off two_blocks)) = wanted.
Proof. split; [exact two_user|]. split; [exact two_printable|]. exact two_rapids. Qed.

(** * Programs that differ in spindle speeds and coolant (C140) *)
From Verif Require Import Base.Str Base.Py Spec.Gcode Spec.Machine Spec.Program Spec.Alike Spec.SpinMoves Model.Groups Model.Geometry Model.Plane Model.Job
  Model.Profile Model.PocketOp Model.Drill Model.Surface Proofs.OnMachineEx Proofs.FeedMovesEx Proofs.SpinMovesP Proofs.SpinMovesEx.
From Verif Require Proofs.ProgramEx.
Local Open Scope string_scope.
Local Open Scope list_scope.

(** ** C140: two users make a job and call one operation after the other, each on the job the last one
    answered with.  They differ in spindle speeds, coolant and names alone.  Their programs make the
    machine do the same from any state, but for spindle and coolant. *)
Theorem C140_same_cuts : forall h r h' r', chains h r h' r' -> exists j j', hget h r = Some j /\ hget h' r' = Some j' /\
  (job_printable h j -> job_printable h' j' -> forall st, exists s bs s' bs', to_gcode h r = Ok s /\ parse_program s = Some bs /\
     to_gcode h' r' = Ok s' /\ parse_program s' = Some bs' /\ same_cuts (run st bs) (run st bs')).
Proof. exact chains_machine. Qed.
Print Assumptions C140_same_cuts.

(** A call answers both of them, or fails both of them with the same error. *)
Theorem C140_same_answers : forall h r h' r' t t' name name' gen, chains h r h' r' -> settled gen -> option_map unspun_tool t = option_map unspun_tool t' ->
  match fluent_op h r t name gen, fluent_op h' r' t' name' gen with
  | (h1, Ok r1), (h1', Ok r1') => chains h1 r1 h1' r1'
  | (_, Err x), (_, Err y) => x = y
  | _, _ => False
  end.
Proof. exact chains_answers. Qed.
Print Assumptions C140_same_answers.

(** All the operations can be called by such users. *)
Theorem C140_operations : (forall K TK WK os is_ oo io sd t, settled (profile_gen K TK WK os is_ oo io sd t)) /\
  (forall K TK WK ws o sd t, settled (wire_profile_gen K TK WK ws o sd t)) /\
  (forall K WK F E fuel ops avoids a, settled (pocket_gen K WK F E fuel ops avoids a)) /\
  (forall os d, settled (drill_gen os d)) /\
  (forall K C a os, settled (surface_gen K C a os)).
Proof. exact generators_settle. Qed.
Print Assumptions C140_operations.

(** It is not so for a job called on twice: the first call has changed the job itself if it needed no
    change of speed, and has left it alone otherwise.  The second call then cuts at other feed rates. *)
Theorem C140_reused_refuted : exists j j' t gen h r h' r' h1 r1 h1' r1', same_setup j j' /\ j_operations j = [] /\ j_operations j' = [] /\ settled gen /\
  fluent_op [j] 0%nat (Some t) "Drill" gen = (h, Ok r) /\ fluent_op [j'] 0%nat (Some t) "Drill" gen = (h', Ok r') /\
  fluent_op h 0%nat None "Drill" gen = (h1, Ok r1) /\ fluent_op h' 0%nat None "Drill" gen = (h1', Ok r1') /\
  exists s bs s' bs', to_gcode h1 r1 = Ok s /\ parse_program s = Some bs /\ to_gcode h1' r1' = Ok s' /\ parse_program s' = Some bs' /\
    ~ same_cuts (run ProgramEx.st_off bs) (run ProgramEx.st_off bs').
Proof. exact ex_reused. Qed.
Print Assumptions C140_reused_refuted.

Example C140_example : chains wet2 3%nat dry2 4%nat /\
  (exists j, hget wet2 3%nat = Some j /\ job_printable wet2 j) /\ (exists j, hget dry2 4%nat = Some j /\ job_printable dry2 j) /\
  speeds wet2 3%nat = repeat (Some 50, true)%Z 10 /\ speeds dry2 4%nat = repeat (Some 9000, false)%Z 10 /\
  cut_ends wet2 3%nat = cut_ends dry2 4%nat /\ rates wet2 3%nat = rates dry2 4%nat.
Proof. exact (conj ex_chains ex_speeds). Qed.

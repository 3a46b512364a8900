(** * Programs that differ in feed rates (C138) *)
From Verif Require Import Base.Str Base.Py Spec.Gcode Spec.Machine Spec.Program Spec.Alike Spec.FeedMoves Model.Groups Model.Geometry Model.Plane Model.Job
  Model.Profile Model.PocketOp Model.Drill Model.Surface Proofs.OnMachineEx Proofs.FeedMovesP Proofs.FeedMovesEx.
Local Open Scope list_scope.

(** ** C138: two users make the same jobs and calls, but for feed rates of jobs and tools.  Their programs
    make the machine do the same from any state, but for the feed rates. *)
Theorem C138_same_moves : forall h h' r j, sessions h h' -> hget h r = Some j -> exists j', hget h' r = Some j' /\ unrated j = unrated j' /\
  (job_printable h j -> job_printable h' j' -> forall st, exists s bs s' bs', to_gcode h r = Ok s /\ parse_program s = Some bs /\
     to_gcode h' r = Ok s' /\ parse_program s' = Some bs' /\ same_moves (run st bs) (run st bs')).
Proof. exact sessions_machine. Qed.
Print Assumptions C138_same_moves.

(** A call answers both with the same job or the same error. *)
Theorem C138_same_answers : forall h h' r t t' name gen, map unrated h = map unrated h' -> path_settled gen -> option_map unrated_tool t = option_map unrated_tool t' ->
  map unrated (fst (fluent_op h r t name gen)) = map unrated (fst (fluent_op h' r t' name gen)) /\ snd (fluent_op h r t name gen) = snd (fluent_op h' r t' name gen).
Proof. exact fluent_U. Qed.
Print Assumptions C138_same_answers.

(** All the operations can be called in such sessions. *)
Theorem C138_operations : (forall K TK WK os is_ oo io sd t, path_settled (profile_gen K TK WK os is_ oo io sd t)) /\
  (forall K TK WK ws o sd t, path_settled (wire_profile_gen K TK WK ws o sd t)) /\
  (forall K WK F E fuel ops avoids a, path_settled (pocket_gen K WK F E fuel ops avoids a)) /\
  (forall os d, path_settled (drill_gen os d)) /\
  (forall K C a os, path_settled (surface_gen K C a os)).
Proof. exact generators_settled. Qed.
Print Assumptions C138_operations.

Example C138_example : sessions slow_heap fast_heap /\
  (exists j, hget slow_heap 2%nat = Some j /\ job_printable slow_heap j) /\ (exists j, hget fast_heap 2%nat = Some j /\ job_printable fast_heap j) /\
  map (option_map qfloor) (rates slow_heap 2%nat) = [Some 50; Some 50; Some 50; Some 50; Some 50]%Z /\
  map (option_map qfloor) (rates fast_heap 2%nat) = [Some 900; Some 900; Some 900; Some 900; Some 900]%Z /\ cut_ends slow_heap 2%nat = cut_ends fast_heap 2%nat.
Proof. exact (conj ex_sessions ex_rates). Qed.

(** * Properties C103 and C10: coordinates of commands, and programs of jobs made by the methods of Job *)
From Verif Require Import Base.Str Base.Py Spec.Gcode Spec.Blocks Spec.Machine Spec.Program Spec.Jobs Spec.Moves Spec.Home Spec.Axes
  Model.Groups Model.Geometry Model.Plane Model.Edges Model.Job Model.Routers Model.Profile Model.Drill Model.Pocket Model.PocketOp
  Model.Strategy Model.Surface Proofs.AxesP Proofs.AxesEx.
From Verif Require Proofs.ProgramEx.
Local Open Scope list_scope.

(** Every command says where it ends in X, Y and Z, and cuts start from a known place; the only
    exception is the rapid straight to the rapid height (drilling: the safe height) when the place
    before is not known. *)
Theorem C103_profile_placed : forall K TK WK os is_ oo io sd t, placed_gen j_rapid_height (profile_gen K TK WK os is_ oo io sd t).
Proof. exact profile_placed. Qed.
Print Assumptions C103_profile_placed.
Theorem C103_wire_profile_placed : forall K TK WK ws o sd t, placed_gen j_rapid_height (wire_profile_gen K TK WK ws o sd t).
Proof. exact wire_profile_placed. Qed.
Print Assumptions C103_wire_profile_placed.
Theorem C103_pocket_placed : forall K WK F E fuel areas avoids a, placed_gen j_rapid_height (pocket_gen K WK F E fuel areas avoids a).
Proof. exact pocket_placed. Qed.
Print Assumptions C103_pocket_placed.
Theorem C103_drill_placed : forall o d, placed_gen j_op_safe_height (drill_gen o d).
Proof. exact drill_placed. Qed.
Print Assumptions C103_drill_placed.
Theorem C103_surface_placed : forall K C a objects, placed_gen j_rapid_height (surface_gen K C a objects).
Proof. exact surface_placed. Qed.
Print Assumptions C103_surface_placed.

(** A job made by the methods of Job, whatever the kernels answered: [to_gcode] cannot fail. *)
Theorem C103_to_gcode_total : forall h r j, user_heap h -> hget h r = Some j -> exists s, to_gcode h r = Ok s.
Proof. exact user_total. Qed.
Print Assumptions C103_to_gcode_total.

(** Such jobs meet the hypotheses of the theorems on programs (C08 and others) as soon as the names
    and numbers print plainly. *)
Theorem C103_reachable : forall h, user_heap h -> reachable h.
Proof. exact user_reachable. Qed.
Print Assumptions C103_reachable.
Theorem C103_printable : forall h r j, user_heap h -> hget h r = Some j ->
  comment_safe (j_name j) = true -> plain_num (j_feed j) -> plain_opt (j_speed j) ->
  Forall (fun o => Forall numbers_ok (op_commands o)) (j_operations j) -> job_printable h j.
Proof. exact user_printable. Qed.
Print Assumptions C103_printable.

(** On the machine, whatever the position before and although every home move loses it: no feed move
    starts from an unknown place, and no move from an unknown height goes sideways. *)
Theorem C103_moves_from_known : forall h r j st, user_heap h -> hget h r = Some j -> job_printable h j -> ms_ended st = false ->
  exists s bs, to_gcode h r = Ok s /\ parse_program s = Some bs /\ Forall placed_move (snd (run st bs)).
Proof. exact user_moves. Qed.
Print Assumptions C103_moves_from_known.

(** ** C10 *)
(** For these jobs the hypothesis on coordinates in C10_legal_blocks always holds. *)
Theorem C10_user_programs : forall h r j, user_heap h -> hget h r = Some j -> job_printable h j ->
  exists s bs, to_gcode h r = Ok s /\ parse_program s = Some bs /\ Forall (fun b => legal_block b = true) bs.
Proof. exact user_legal. Qed.
Print Assumptions C10_user_programs.
Example C10_user_example : user_heap two_heap /\
  exists j, hget two_heap 3%nat = Some j /\ job_printable two_heap j /\ map op_name (j_operations j) = ["Profile"; "Tool Change"; "Drill"]%string.
Proof. split; [exact two_user|exact two_printable]. Qed.

Example C103_example : user_heap two_heap /\
  (exists j, hget two_heap 3%nat = Some j /\ job_printable two_heap j /\ map op_name (j_operations j) = ["Profile"; "Tool Change"; "Drill"]%string) /\
  List.length (snd (run ProgramEx.st_off two_blocks)) = 44%nat /\
  map (fun e => (ev_kind e, option_map qfloor (ms_z (ev_from e)), option_map qfloor (ms_z (ev_to e))))
      (filter (fun e => negb (is_some (ms_x (ev_from e)))) (snd (run ProgramEx.st_off two_blocks))) =
    [(GRapid, None, Some 10%Z); (GRapid, Some 10%Z, Some 10%Z); (GRapid, None, Some 1%Z); (GRapid, Some 1%Z, Some 1%Z)].
Proof. split; [exact two_user|]. split; [exact two_printable|]. exact two_moves. Qed.

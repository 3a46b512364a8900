(** C128, C129: holes selected in another order; work done at once and in parts. *)
From Verif Require Import Base.Str Base.Py Spec.Gcode Spec.Blocks Spec.Machine Spec.Program Spec.Paths Spec.Drills Spec.Parts
  Model.Groups Model.Geometry Model.Plane Model.Edges Model.Job Model.Profile Model.Drill Model.Tabs
  Proofs.RouteEx Proofs.ProfileEx Proofs.DrillEx Proofs.OnMachineEx Proofs.PartsP Proofs.PartsEx.
From Coq Require Import Permutation.
Local Open Scope Qc_scope.
Local Open Scope list_scope.

(** ** C128 *)
(** The first hole is kept and no hole is as far from one as from another: the calls are the same, in
    what they return and in what they leave on the heap, whichever the objects the holes come from. *)
Theorem C128_drill : forall h r j os os' z tl p pts pts', hget h r = Some j ->
  wanted_holes (to_world (j_top j)) os (p :: pts) -> wanted_holes (to_world (j_top j)) os' (p :: pts') ->
  Permutation pts pts' -> no_ties (p :: pts) -> job_drill h r (Some os) z tl = job_drill h r (Some os') z tl.
Proof. exact drill_call_shuffled. Qed.
Print Assumptions C128_drill.
Example C128_example : wanted_holes (to_world (j_top ex_job)) spots [zp 0 0; zp 10 0; zp 4 3; zp 12 1] /\
  wanted_holes (to_world (j_top ex_job)) spots_shuffled [zp 0 0; zp 12 1; zp 10 0; zp 4 3] /\
  Permutation [zp 10 0; zp 4 3; zp 12 1] [zp 12 1; zp 10 0; zp 4 3] /\ no_ties [zp 0 0; zp 10 0; zp 4 3; zp 12 1] /\ spots <> spots_shuffled /\
  List.length (drill_texts (drill_gen (Some spots) (Some (qz 2)) ex_job)) = 16%nat.
Proof. exact ex_shuffled. Qed.
(** Neither condition can be left out. *)
Theorem C128_ties_refuted : exists j os os' p p' pts pts', wanted_holes (to_world (j_top j)) os (p :: pts) /\ wanted_holes (to_world (j_top j)) os' (p' :: pts') /\
  Permutation (p :: pts) (p' :: pts') /\ p = p' /\ drill_gen (Some os) (Some (qz 2)) j <> drill_gen (Some os') (Some (qz 2)) j.
Proof. exact order_shows. Qed.
Print Assumptions C128_ties_refuted.
Theorem C128_first_refuted : exists j os os' p p' pts pts', wanted_holes (to_world (j_top j)) os (p :: pts) /\ wanted_holes (to_world (j_top j)) os' (p' :: pts') /\
  Permutation (p :: pts) (p' :: pts') /\ no_ties (p :: pts) /\ drill_gen (Some os) (Some (qz 2)) j <> drill_gen (Some os') (Some (qz 2)) j.
Proof. exact first_shows. Qed.
Print Assumptions C128_first_refuted.

(** ** C129 *)
(** Some wires in one call, or in two calls: the same error, or jobs with the same settings and the
    same commands in the same order.  The second call names no tool: the first has changed it. *)
Theorem C129_wire_profile : forall K TK WK h r ws1 ws2 o sd t tl,
  in_parts (job_wire_profile K TK WK h r (ws1 ++ ws2) o sd t tl) (job_wire_profile K TK WK h r ws1 o sd t tl)
    (fun h r => job_wire_profile K TK WK h r ws2 o sd t None).
Proof. exact wire_profile_parts. Qed.
Print Assumptions C129_wire_profile.
(** Faces and wires, with one of the offsets.  Objects of other kinds are noticed before anything is
    done, so they may only be in the first part. *)
Theorem C129_profile : forall K TK WK h r s1 s2 oo io sd t tl, is_some oo && is_some io = false -> (exists p, extract_wires s2 = Ok p) ->
  in_parts (job_profile K TK WK h r (s1 ++ s2) oo io sd t tl) (job_profile K TK WK h r s1 oo io sd t tl)
    (fun h r => job_profile K TK WK h r s2 oo io sd t None).
Proof. exact profile_parts. Qed.
Print Assumptions C129_profile.
(** The same work makes the machine do the same, from any state, however it is divided. *)
Theorem C129_machine : forall h j h' j' st, same_work j j' -> job_printable h j -> job_printable h' j' ->
  exists s bs s' bs', job_to_gcode h j = Ok s /\ parse_program s = Some bs /\ job_to_gcode h' j' = Ok s' /\ parse_program s' = Some bs' /\ run st bs = run st bs'.
Proof. exact same_work_machine. Qed.
Print Assumptions C129_machine.
Example C129_example : snd (job_wire_profile K0 flat_tk flat_wk [ex_job] 0%nat ([left_wire] ++ [right_wire]) 1 None None None) = Ok 1%nat /\
  snd (job_wire_profile K0 flat_tk flat_wk [ex_job] 0%nat [left_wire] 1 None None None) = Ok 1%nat /\
  snd (job_wire_profile K0 flat_tk flat_wk first_heap 1%nat [right_wire] 1 None None None) = Ok 2%nat /\
  (exists j, hget once_heap 1%nat = Some j /\ job_printable once_heap j) /\ (exists j, hget parts_heap 2%nat = Some j /\ job_printable parts_heap j) /\
  cut_ends once_heap 1%nat = cut_ends parts_heap 2%nat /\ List.length (cut_ends parts_heap 2%nat) = 10%nat.
Proof. exact ex_parts. Qed.
(** With both offsets the order differs: in one call the holes of every plate come first. *)
Theorem C129_both_refuted : exists K TK WK h r s1 s2 oo io,
  ~ in_parts (job_profile K TK WK h r (s1 ++ s2) (Some oo) (Some io) None None None) (job_profile K TK WK h r s1 (Some oo) (Some io) None None None)
      (fun h r => job_profile K TK WK h r s2 (Some oo) (Some io) None None None).
Proof. exact both_not_parts. Qed.
Print Assumptions C129_both_refuted.

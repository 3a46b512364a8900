(** * Properties C111, C112, C113: holes, pocket floors and passes of profiles on the machine *)
From Verif Require Import Base.Str Base.Py Spec.Gcode Spec.Blocks Spec.Machine Spec.Program Spec.Jobs Spec.Drills Spec.Axes Spec.Profiles Spec.OnMachine
  Model.Groups Model.Geometry Model.Plane Model.Edges Model.Job Model.Routers Model.Tabs Model.Profile Model.Drill Model.Pocket Model.PocketOp
  Proofs.RouteEx Proofs.ProfileEx Proofs.DrillEx Proofs.PocketEx Proofs.PocketOpEx Proofs.RatesEx Proofs.OnMachineP Proofs.OnMachineEx Proofs.MadeEx.
Local Open Scope Qc_scope.
Local Open Scope list_scope.

(** ** C111 *)
(** The program of the job that drill answers ends with the moves of the holes.  Their feed moves are
    one for each hole asked for, nearest first: from the surface straight down to the depth. *)
Theorem C111_holes : forall h r os d t h' r' j' st, user_heap h -> job_drill h r (Some os) (Some d) t = (h', Ok r') ->
  hget h' r' = Some j' -> job_printable h' j' -> ms_ended st = false ->
  exists s bs before drills p pts order, to_gcode h' r' = Ok s /\ parse_program s = Some bs /\ snd (run st bs) = before ++ drills /\ continues h r st before /\
    wanted_holes (to_world (j_top j')) os (p :: pts) /\ nearest_first p pts order /\
    Forall2 (hole_made (- qabs d) (j_feed j')) (p :: order) (feed_moves drills).
Proof. exact holes_on_machine. Qed.
Print Assumptions C111_holes.
Example C111_example : user_heap [ex_job] /\ job_drill [ex_job] 0%nat (Some ex_holes) (Some (qz 2)) None = (drilled_heap, Ok 1%nat) /\
  (exists j, hget drilled_heap 1%nat = Some j /\ job_printable drilled_heap j) /\
  cut_ends drilled_heap 1%nat = [(Some 0, Some 0, Some (-2)); (Some 4, Some 3, Some (-2)); (Some 4, Some 3, Some (-2)); (Some 10, Some 0, Some (-2)); (Some 12, Some 1, Some (-2))]%Z.
Proof. exact (conj start_user ex_drilled). Qed.

(** ** C112 *)
(** The moves of a pocket end at known heights, never below a floor that all its areas (and the heights
    of the job) are above. *)
Theorem C112_floor : forall K WK F E fuel h r areas avoids a tl h' r' j' st floor, user_heap h ->
  job_pocket K WK F E fuel h r areas avoids a tl = (h', Ok r') -> hget h' r' = Some j' -> job_printable h' j' -> ms_ended st = false ->
  floor <= 0 -> (forall f, In f areas -> floor <= fk_zmax F (fk_transform F (j_top j') f)) -> floor <= j_op_safe_height j' -> floor <= j_rapid_height j' ->
  exists s bs before moves, to_gcode h' r' = Ok s /\ parse_program s = Some bs /\ snd (run st bs) = before ++ moves /\ continues h r st before /\ Forall (not_below floor) moves.
Proof. exact pocket_on_machine. Qed.
Print Assumptions C112_floor.
Example C112_example : user_heap [ex_job] /\ job_pocket K0 flat_wk rect_fk box_engine 20 [ex_job] 0%nat [rface 0 0 10 8 (-2)] None (down_args 1) None = (pocket_heap, Ok 1%nat) /\
  (exists j, hget pocket_heap 1%nat = Some j /\ job_printable pocket_heap j /\
    (forall f, In f [rface 0 0 10 8 (-2)] -> qz (-2) <= fk_zmax rect_fk (fk_transform rect_fk (j_top j) f)) /\ qz (-2) <= j_op_safe_height j /\ qz (-2) <= j_rapid_height j) /\
  runs (heights pocket_heap 1%nat) = [(Some (-1), 23); (Some (-2), 23)]%Z.
Proof. exact (conj start_user ex_pocketed). Qed.

(** ** C113 *)
(** A profile of flat wires without tabs: the program ends with one group of moves
    for each offset wire, holes first.  Each group is made of passes a stepdown apart, from the
    highest below the surface to the height of the wire (only one without a stepdown); all feed moves of a pass end at its height.
    Full statement: for every wire below the surface.  Missing (false in the code, C113_passes_refuted):
    wires met by the plane [clear_of_top] speaks about; wires that are not flat; tabs (C121). *)
Theorem C113_profile_passes_partial : forall K TK WK h r shapes oo io sd tl h' r' j' st radius inners outers, user_heap h ->
  job_profile K TK WK h r shapes oo io sd None tl = (h', Ok r') -> hget h' r' = Some j' -> job_printable h' j' -> ms_ended st = false ->
  (forall s, sd = Some s -> 0 <= s) -> rigid TK WK -> tool_radius j' = Some radius ->
  offsets_of K WK (j_top j') radius (flat_map inners_of shapes) io inners -> offsets_of K WK (j_top j') radius (flat_map outer_of shapes) oo outers ->
  (forall b, In b (inners ++ outers) -> (exists z, flat z b) /\ (stepped sd -> clear_of_top TK WK (j_top j') b)) ->
  exists p bs before groups, to_gcode h' r' = Ok p /\ parse_program p = Some bs /\ snd (run st bs) = before ++ concat groups /\ continues h r st before /\
    Forall2 (profile_made sd) (inners ++ outers) groups.
Proof. exact profile_on_machine. Qed.
Print Assumptions C113_profile_passes_partial.
Theorem C113_wire_profile_passes_partial : forall K TK WK h r ws o sd tl h' r' j' st radius bases, user_heap h ->
  job_wire_profile K TK WK h r ws o sd None tl = (h', Ok r') -> hget h' r' = Some j' -> job_printable h' j' -> ms_ended st = false ->
  (forall s, sd = Some s -> 0 <= s) -> rigid TK WK -> tool_radius j' = Some radius -> offsets_of K WK (j_top j') radius ws (Some o) bases ->
  (forall b, In b bases -> (exists z, flat z b) /\ (stepped sd -> clear_of_top TK WK (j_top j') b)) ->
  exists p bs before groups, to_gcode h' r' = Ok p /\ parse_program p = Some bs /\ snd (run st bs) = before ++ concat groups /\ continues h r st before /\
    Forall2 (profile_made sd) bases groups.
Proof. exact wire_profile_on_machine. Qed.
Print Assumptions C113_wire_profile_passes_partial.
(** A job whose top plane lies below the origin: the passes of the program are not those. *)
Theorem C113_passes_refuted : exists K TK WK h r ws o s h' r' j' st radius b p bs, user_heap h /\
  job_wire_profile K TK WK h r ws o (Some s) None None = (h', Ok r') /\ hget h' r' = Some j' /\ job_printable h' j' /\ ms_ended st = false /\
  0 < s /\ rigid TK WK /\ tool_radius j' = Some radius /\ offsets_of K WK (j_top j') radius ws (Some o) [b] /\ flat (qz (-6)) b /\
  to_gcode h' r' = Ok p /\ parse_program p = Some bs /\
  ~ (exists before es after, snd (run st bs) = before ++ es ++ after /\ profile_made (Some s) b es).
Proof. exact passes_missing. Qed.
Print Assumptions C113_passes_refuted.

Example C113_example : user_heap [ex_job] /\ job_profile K0 flat_tk flat_wk [ex_job] 0%nat [frame] (Some 1) (Some (- (1))) (Some (qz 2)) None None = (frame_heap, Ok 1%nat) /\
  (exists j inners outers, hget frame_heap 1%nat = Some j /\ job_printable frame_heap j /\ tool_radius j = Some (qq 3 2) /\
    offsets_of K0 flat_wk (j_top j) (qq 3 2) (flat_map inners_of [frame]) (Some (- (1))) inners /\
    offsets_of K0 flat_wk (j_top j) (qq 3 2) (flat_map outer_of [frame]) (Some 1) outers /\
    (forall b, In b (inners ++ outers) -> (exists z, flat z b) /\ clear_of_top flat_tk flat_wk (j_top j) b)) /\
  rigid flat_tk flat_wk /\
  runs (heights frame_heap 1%nat) = [(Some (-1), 5); (Some (-3), 5); (Some (-1), 5); (Some (-3), 5); (Some (-5), 5)]%Z.
Proof. exact (conj start_user ex_framed). Qed.

(** * C05, C06, C08-C16, C18, C65, C66: programs of jobs *)
From Verif Require Import Base.Str Spec.Gcode Spec.Blocks Spec.Machine Spec.Program Spec.Jobs Spec.Arcs
  Spec.Codes Model.Groups Model.Plane Model.Job Proofs.ProgramThmP Proofs.ProgramEx Proofs.CodesP Proofs.ReceiverP Proofs.MoreEx Proofs.SavedP Proofs.DefaultsP.
From Coq Require Import NArith.
Local Open Scope list_scope.
Local Open Scope Z_scope.

(** ** C05 *)
(** [root_le_plus a b t] is sqrt a <= sqrt b + t, so the two radii differ by at most 0.003. *)
Theorem C05_arc_radii_agree : forall cw sx sy sz ex ey ez cx cy cz mid ar f,
  let m := MArc cw (AV (Some sx) (Some sy) sz) (AV (Some ex) (Some ey) ez) (AV (Some cx) (Some cy) cz) mid ar f in
  motion_ok m -> printable m = true ->
  sq2 (sx - cx) (sy - cy) = sq2 (ex - cx) (ey - cy) ->
  exists s b, str_motion m = Ok s /\ parse_line s = Some b /\
  forall st x0 y0, ms_ended st = false -> ms_dist st = Some 900 ->
  ms_x st = Some x0 -> ms_y st = Some y0 ->
  (qabs (x0 - sx) <= qq 1 2000)%Qc -> (qabs (y0 - sy) <= qq 1 2000)%Qc ->
  exists st' ev i j x1 y1, exec_block st b = (st', [ev]) /\
    ev_kind ev = (if cw then GArcCW else GArcCCW) /\ ev_i ev = Some i /\ ev_j ev = Some j /\
    ms_x (ev_from ev) = Some x0 /\ ms_y (ev_from ev) = Some y0 /\
    ms_x (ev_to ev) = Some x1 /\ ms_y (ev_to ev) = Some y1 /\
    root_le_plus (sq2 i j) (sq2 (x1 - (x0 + i)) (y1 - (y0 + j))) (qq 3 1000) /\
    root_le_plus (sq2 (x1 - (x0 + i)) (y1 - (y0 + j))) (sq2 i j) (qq 3 1000).
Proof. exact arc_text. Qed.
Print Assumptions C05_arc_radii_agree.

Example C05_example :
  let m := MArc true (AV (Some (qq 1 3)) (Some (qz 0)) None) (AV (Some (qz 0)) (Some (qq 1 3)) None)
             (AV (Some (qz 0)) (Some (qz 0)) None) av_none false None in
  motion_ok m /\ printable m = true /\
  sq2 (qq 1 3 - qz 0) (qz 0 - qz 0) = sq2 (qz 0 - qz 0) (qq 1 3 - qz 0).
Proof. exact ex_arc. Qed.

(** ** C06 *)
Theorem C06_no_drift : forall ms st, ms <> [] -> Forall (fun m => motion_ok m /\ printable m = true) ms ->
  ms_ended st = false -> ms_dist st = Some 900 ->
  exists ss bs, mapM str_motion ms = Ok ss /\ parse_program (String.concat nl ss) = Some bs /\
    List.length bs = List.length ms /\
    forall k m, nth_error ms k = Some m ->
      let before := fst (run st (firstn k bs)) in let after := fst (run st (firstn (S k) bs)) in
      axis_near (ax (m_end m)) (ms_x before) (ms_x after) /\
      axis_near (ay (m_end m)) (ms_y before) (ms_y after) /\
      axis_near (az (m_end m)) (ms_z before) (ms_z after).
Proof. exact no_drift. Qed.
Print Assumptions C06_no_drift.

Example C06_example : Forall (fun m => motion_ok m /\ printable m = true) ex_motions.
Proof. exact ex_motions_ok. Qed.

(** ** C08 *)
Theorem C08_complete_program : forall h r j st,
  reachable h -> hget h r = Some j -> job_printable h j -> ms_ended st = false ->
  exists s bs, to_gcode h r = Ok s /\ String.get 0 s = Some "("%char /\ parse_program s = Some bs /\
    bs = [[]] ++ safety_blocks ++ [start_block (j_speed j) (j_coolant j)] ++ ops_blocks (j_operations j)
         ++ safety_blocks ++ [stop_block (j_coolant j)] ++ [[W "M" (qz 30)]] /\
    ms_ended (fst (run st bs)) = true /\ ms_ended (fst (run st (removelast bs))) = false /\
    ms_spindle (fst (run st bs)) = SpOff /\
    ((j_coolant j <> None \/ (ms_mist st = false /\ ms_flood st = false)) ->
       ms_mist (fst (run st bs)) = false /\ ms_flood (fst (run st bs)) = false).
Proof. exact complete_program. Qed.
Print Assumptions C08_complete_program.

(** Two operations, the second with another tool. *)
Example C08_example : reachable ex_heap /\ (exists j, hget ex_heap ex_ref = Some j /\ job_printable ex_heap j /\
  List.length (j_operations j) = 3%nat) /\ to_gcode ex_heap ex_ref = Ok ex_text.
Proof. exact ex_program. Qed.

(** ** C09 *)
(** [ready]: spindle clockwise, absolute, XY plane, units per minute, mm, G54, G64, no radius
    compensation, program not ended. *)
Theorem C09_moves_ready : forall h r j st,
  reachable h -> hget h r = Some j -> job_printable h j -> ms_ended st = false ->
  exists s bs, to_gcode h r = Ok s /\ parse_program s = Some bs /\
    Forall (fun e => ready (ev_from e) /\ ready (ev_to e)) (snd (run st bs)).
Proof. exact moves_ready. Qed.
Print Assumptions C09_moves_ready.

Example C09_example : exists s bs, to_gcode ex_heap ex_ref = Ok s /\ parse_program s = Some bs /\
  List.length (snd (run st_off bs)) = 4%nat.
Proof. exact ex_moves. Qed.

(** ** C10 *)
Theorem C10_legal_blocks : forall h r j, hget h r = Some j -> job_printable h j ->
  Forall (fun o => Forall command_has_axis (op_commands o)) (j_operations j) ->
  exists s bs, to_gcode h r = Ok s /\ parse_program s = Some bs /\ Forall (fun b => legal_block b = true) bs.
Proof. exact legal_text. Qed.
Print Assumptions C10_legal_blocks.

(** A motion without any coordinate prints a line without axis words. *)
Theorem C10_empty_motion_refuted : exists m s b, motion_ok m /\ str_motion m = Ok s /\
  parse_line s = Some b /\ legal_block b = false.
Proof. exact empty_motion. Qed.
Print Assumptions C10_empty_motion_refuted.

Example C10_example : exists j, hget ex_heap ex_ref = Some j /\
  Forall (fun o => Forall command_has_axis (op_commands o)) (j_operations j).
Proof. exact ex_axes. Qed.

(** ** C11 *)
(** Full statement: [ms_units (ev_from e) = Some (unit_word (j_unit j))]; missing: imperial jobs,
    for which it is false. *)
Theorem C11_metric_partial : forall h r j st,
  reachable h -> hget h r = Some j -> job_printable h j -> ms_ended st = false -> j_unit j = METRIC ->
  exists s bs, to_gcode h r = Ok s /\ parse_program s = Some bs /\
    Forall (fun e => ms_units (ev_from e) = Some (unit_word (j_unit j))) (snd (run st bs)).
Proof. exact metric_units. Qed.
Print Assumptions C11_metric_partial.

Theorem C11_always_metric : forall h r j st,
  reachable h -> hget h r = Some j -> job_printable h j -> ms_ended st = false ->
  exists s bs, to_gcode h r = Ok s /\ parse_program s = Some bs /\
    Forall (fun e => ms_units (ev_from e) = Some (unit_word METRIC)) (snd (run st bs)).
Proof. exact always_metric. Qed.
Print Assumptions C11_always_metric.

Theorem C11_imperial_refuted : exists h r j s bs e,
  reachable h /\ hget h r = Some j /\ j_unit j = IMPERIAL /\
  to_gcode h r = Ok s /\ parse_program s = Some bs /\
  In e (snd (run st_off bs)) /\ ms_units (ev_from e) <> Some (unit_word (j_unit j)).
Proof. exact imperial_refuted. Qed.
Print Assumptions C11_imperial_refuted.
(** A job the hypotheses hold of; they hold of the imperial job of the refutation, too. *)
Example C11_example : reachable ex_heap /\ exists j, hget ex_heap ex_ref = Some j /\ job_printable ex_heap j /\ j_unit j = METRIC /\
  j_coordinate j = OFFSET_1 /\ j_plane j = PLANE_XY /\ j_distance j = ABSOLUTE /\ j_controller_motion j = CONTINUOUS.
Proof. exact ex_settings. Qed.

(** ** C12 *)
(** Full statement: the same with [j_coordinate j], [j_plane j], [j_distance j],
    [j_controller_motion j]; missing: jobs with other than the default settings, for which it is
    false (the settings are never read). *)
Theorem C12_defaults_partial : forall h r j st,
  reachable h -> hget h r = Some j -> job_printable h j -> ms_ended st = false ->
  j_coordinate j = OFFSET_1 -> j_plane j = PLANE_XY -> j_distance j = ABSOLUTE -> j_controller_motion j = CONTINUOUS ->
  exists s bs, to_gcode h r = Ok s /\ parse_program s = Some bs /\
    Forall (fun e => ms_wcs (ev_from e) = Some (offset_word (j_coordinate j)) /\
                     ms_plane (ev_from e) = Some (plane_word (j_plane j)) /\
                     ms_dist (ev_from e) = Some (distance_word (j_distance j)) /\
                     ms_path (ev_from e) = Some (path_word (j_controller_motion j))) (snd (run st bs)).
Proof. exact defaults_honoured. Qed.
Print Assumptions C12_defaults_partial.

(** For each setting, every job that differs from the default gets the wrong mode; the arc
    distance mode is never selected. *)
Theorem C12_settings_ignored : forall h r j st,
  reachable h -> hget h r = Some j -> job_printable h j -> ms_ended st = false ->
  exists s bs, to_gcode h r = Ok s /\ parse_program s = Some bs /\
    (forall b a, In b bs -> member (arc_word a) (codes "G" b) = false) /\
    Forall (fun e =>
      (j_coordinate j <> OFFSET_1 -> ms_wcs (ev_from e) <> Some (offset_word (j_coordinate j))) /\
      (j_plane j <> PLANE_XY -> ms_plane (ev_from e) <> Some (plane_word (j_plane j))) /\
      (j_distance j <> ABSOLUTE -> ms_dist (ev_from e) <> Some (distance_word (j_distance j))) /\
      (j_controller_motion j <> CONTINUOUS -> ms_path (ev_from e) <> Some (path_word (j_controller_motion j))))
      (snd (run st bs)).
Proof. exact settings_ignored. Qed.
Print Assumptions C12_settings_ignored.

Theorem C12_settings_refuted : exists h r j s bs e,
  reachable h /\ hget h r = Some j /\ j_coordinate j = OFFSET_2 /\ j_controller_motion j = EXACT_PATH /\
  to_gcode h r = Ok s /\ parse_program s = Some bs /\
  In e (snd (run st_off bs)) /\ ms_wcs (ev_from e) <> Some (offset_word (j_coordinate j)) /\
  ms_path (ev_from e) <> Some (path_word (j_controller_motion j)).
Proof. exact settings_refuted. Qed.
Print Assumptions C12_settings_refuted.
(** A job made with a plane, a feed rate and a speed alone, however it is extended: the defaults it is
    made with, and a machine in the modes it says, units included. *)
Theorem C12_default_jobs : forall h r top feed speed cs j st,
  built h r (default_job top feed speed) cs -> reachable h -> hget h r = Some j -> job_printable h j -> ms_ended st = false ->
  (j_top j = top /\ j_plunge_feed j = feed /\ j_rapid_height j = qz 10 /\ j_op_safe_height j = qz 1 /\
   j_precision j = 3%nat /\ j_name j = "Job"%string /\ j_coolant j = None) /\
  exists s bs, to_gcode h r = Ok s /\ parse_program s = Some bs /\
    Forall (fun e => ms_units (ev_from e) = Some (unit_word (j_unit j)) /\
                     ms_wcs (ev_from e) = Some (offset_word (j_coordinate j)) /\
                     ms_plane (ev_from e) = Some (plane_word (j_plane j)) /\
                     ms_dist (ev_from e) = Some (distance_word (j_distance j)) /\
                     ms_path (ev_from e) = Some (path_word (j_controller_motion j))) (snd (run st bs)).
Proof. exact default_jobs. Qed.
Print Assumptions C12_default_jobs.
Example C12_default_example : exists j ms, built plain_heap 1%nat (default_job plane_xy (PInt 200) None) [Call None "Profile" ms] /\
  reachable plain_heap /\ hget plain_heap 1%nat = Some j /\ job_printable plain_heap j /\ List.length (snd (run st_off (blocks_of plain_heap 1%nat))) = 2%nat.
Proof. exact ex_default. Qed.
Example C12_example : reachable ex_heap /\ exists j, hget ex_heap ex_ref = Some j /\ job_printable ex_heap j /\ j_unit j = METRIC /\
  j_coordinate j = OFFSET_1 /\ j_plane j = PLANE_XY /\ j_distance j = ABSOLUTE /\ j_controller_motion j = CONTINUOUS.
Proof. exact ex_settings. Qed.

(** ** C13 *)
(** The program consists of a header, one part (preparation, operation) per call, and a footer;
    only operations move.  [tool_after j0 cs'] is the last tool number asked for. *)
Theorem C13_right_tool : forall h r j0 cs j st,
  built h r j0 cs -> hget h r = Some j -> job_printable h j -> ms_ended st = false ->
  (forall n, j_tool_number j0 = Some n -> ms_tool st = Some (qz n)) ->
  exists s hd segs ft,
    to_gcode h r = Ok s /\ parse_program s = Some (hd ++ flat_map seg_blocks segs ++ ft) /\
    List.length segs = List.length cs /\ snd (run st hd) = [] /\
    snd (run (fst (run st (hd ++ flat_map seg_blocks segs))) ft) = [] /\
    forall k c p b, nth_error cs k = Some c -> nth_error segs k = Some (p, b) ->
      let st1 := fst (run st (hd ++ flat_map seg_blocks (firstn k segs) ++ p)) in
      let tk := tool_after j0 (firstn (S k) cs) in
      b = call_blocks c /\
      snd (run (fst (run st (hd ++ flat_map seg_blocks (firstn k segs)))) p) = [] /\
      (existsb changes_tool p = true <-> tk <> tool_after j0 (firstn k cs)) /\
      (tk <> tool_after j0 (firstn k cs) -> ms_length st1 = tool_is (ms_tool st) tk) /\
      ms_tool st1 = tool_is (ms_tool st) tk /\
      Forall (fun ev => ms_tool (ev_from ev) = tool_is (ms_tool st) tk /\ ms_tool (ev_to ev) = tool_is (ms_tool st) tk)
             (snd (run st1 b)).
Proof. exact right_tool. Qed.
Print Assumptions C13_right_tool.

Example C13_example : exists j0 cs, built ex_heap ex_ref j0 cs /\ List.length cs = 2%nat /\
  tool_after j0 (firstn 1 cs) = Some 1 /\ tool_after j0 cs = Some 2.
Proof. exact ex_built. Qed.

(** ** C14 *)
(** Full statement: the speed during call [k] is [speed_after j0 (firstn (S k) cs)] (or the
    machine's, if none).  It holds from the first tool or speed change on; missing: the calls
    before that, which run at the FINAL speed, see the refutation. *)
Theorem C14_speed_partial : forall h r j0 cs j st,
  built h r j0 cs -> hget h r = Some j -> job_printable h j -> ms_ended st = false ->
  (forall n, j_tool_number j0 = Some n -> ms_tool st = Some (qz n)) ->
  exists s hd segs ft,
    to_gcode h r = Ok s /\ parse_program s = Some (hd ++ flat_map seg_blocks segs ++ ft) /\
    List.length segs = List.length cs /\ snd (run st hd) = [] /\
    snd (run (fst (run st (hd ++ flat_map seg_blocks segs))) ft) = [] /\
    forall k c p b, nth_error cs k = Some c -> nth_error segs k = Some (p, b) ->
      let st1 := fst (run st (hd ++ flat_map seg_blocks (firstn k segs) ++ p)) in
      let final := first_some (speed_after j0 cs) (ms_speed st) in
      b = call_blocks c /\
      snd (run (fst (run st (hd ++ flat_map seg_blocks (firstn k segs)))) p) = [] /\
      ((exists i, (i <= k)%nat /\ changes j0 cs i) ->
         Forall (fun ev => ms_speed (ev_from ev) = first_some (speed_after j0 (firstn (S k) cs)) final /\
                           ms_speed (ev_to ev) = first_some (speed_after j0 (firstn (S k) cs)) final)
                (snd (run st1 b))) /\
      (~ (exists i, (i <= k)%nat /\ changes j0 cs i) ->
         Forall (fun ev => ms_speed (ev_from ev) = final /\ ms_speed (ev_to ev) = final) (snd (run st1 b))).
Proof. exact speed_by_call. Qed.
Print Assumptions C14_speed_partial.

(** Job(speed=1000), one operation, then one with Tool(speed=2000): the first runs at 2000. *)
Theorem C14_speed_refuted : exists h r j0 cs j s bs e,
  built h r j0 cs /\ hget h r = Some j /\ j_speed j0 = Some (PInt 1000) /\
  speed_after j0 (firstn 1 cs) = Some (qz 1000) /\ speed_after j0 cs = Some (qz 2000) /\
  to_gcode h r = Ok s /\ parse_program s = Some bs /\
  nth_error (snd (run st_off bs)) 0 = Some e /\ ms_speed (ev_from e) = Some (qz 2000).
Proof. exact speed_refuted. Qed.
Print Assumptions C14_speed_refuted.
Example C14_example : exists j0 cs, built ex_heap ex_ref j0 cs /\ List.length cs = 2%nat /\ changes j0 cs 1 /\ j_speed j0 <> None.
Proof. exact ex_changes. Qed.

(** ** C15 *)
(** Full statement: the receiver is unchanged too.  Missing: tool arguments that change neither
    tool number nor speed, for which it is false: the receiver takes over feed and diameter. *)
Theorem C15_receiver_partial : forall h r t name gen,
  let h' := fst (fluent_op h r t name gen) in
  (forall r2 x, r2 <> r -> hget h r2 = Some x -> hget h' r2 = Some x) /\
  (forall r2 s, r2 <> r -> to_gcode h r2 = Ok s -> to_gcode h' r2 = Ok s) /\
  (forall j, hget h r = Some j -> t = None \/ other_tool j t \/ other_speed j t ->
     hget h' r = Some j /\ forall s, to_gcode h r = Ok s -> to_gcode h' r = Ok s) /\
  (forall j, hget h r = Some j -> exists j', hget h' r = Some j' /\
     (j' = j \/ (settings_of j' = tool_settings j t /\ same_frame j j' /\ j_operations j' = j_operations j))).
Proof. exact receiver_partial. Qed.
Print Assumptions C15_receiver_partial.

Theorem C15_receiver_refuted : exists h r t name gen j j' s s',
  reachable h /\ motion_gen gen /\ hget h r = Some j /\
  hget (fst (fluent_op h r t name gen)) r = Some j' /\ pyval (j_feed j') <> pyval (j_feed j) /\
  to_gcode h r = Ok s /\ to_gcode (fst (fluent_op h r t name gen)) r = Ok s' /\ s <> s'.
Proof. exact receiver_refuted. Qed.
Print Assumptions C15_receiver_refuted.

(** Exactly: a tool with neither another number nor another speed always goes into the receiver
    itself, which stays what it was only if the tool's settings are the ones it had. *)
Theorem C15_receiver_exactly : forall h r j t name gen,
  hget h r = Some j -> ~ other_tool j (Some t) -> ~ other_speed j (Some t) ->
  exists j', hget (fst (fluent_op h r (Some t) name gen)) r = Some j' /\
    settings_of j' = tool_settings j (Some t) /\ same_frame j j' /\ j_operations j' = j_operations j /\
    (j' = j <-> tool_settings j (Some t) = settings_of j).
Proof. exact receiver_exactly. Qed.
Print Assumptions C15_receiver_exactly.
Example C15_exactly_example : exists j, hget ex_heap0 0%nat = Some j /\
  ~ other_tool j (Some ex_feed_tool) /\ ~ other_speed j (Some ex_feed_tool) /\
  tool_settings j (Some ex_feed_tool) <> settings_of j.
Proof. exact receiver_example. Qed.

(** ** C16 *)
Theorem C16_append_only : forall h r j t name gen h' r',
  hget h r = Some j -> fluent_op h r t name gen = (h', Ok r') ->
  (hget h r' = None /\
  exists j' mid ju cmds, hget h' r' = Some j' /\
    j_operations j' = j_operations j ++ mid ++ [Op r' name cmds] /\
    gen ju = Ok cmds /\ settings_of ju = tool_settings j t /\ same_frame j ju /\
    settings_of j' = tool_settings j t /\ same_frame j j' /\
    j_operations ju = j_operations j ++ mid /\
    ((other_tool j t /\ exists r1 n, j_tool_number j' = Some n /\
        mid = [Op r1 "Tool Change" [Config (CToolChange n (j_speed j') (j_coolant j))]]) \/
     (~ other_tool j t /\ other_speed j t /\ exists r1,
        mid = [Op r1 "Speed Change" [Config (CStart (j_speed j') (j_coolant j))]]) \/
     (~ other_tool j t /\ ~ other_speed j t /\ mid = []))) /\
  (forall o s, op_text h o = Ok s -> op_text h' o = Ok s).
Proof. exact append_only. Qed.
Print Assumptions C16_append_only.

Example C16_example : exists j h', hget ex_heap0 0%nat = Some j /\
  fluent_op ex_heap0 0%nat (Some ex_tool) "Pocket" ex_gen = (h', Ok 2%nat) /\ other_tool j (Some ex_tool).
Proof. exact ex_append. Qed.

(** ** C18 *)
Theorem C18_never_the_program : forall addr h r s, to_gcode h r = Ok s -> save_gcode addr h r <> s.
Proof. exact save_never. Qed.
Print Assumptions C18_never_the_program.

(** Nor is it any other program: it cannot be read as G-code. *)
Theorem C18_no_program : forall addr h r, parse_program (save_gcode addr h r) = None.
Proof. exact saved_no_program. Qed.
Print Assumptions C18_no_program.
Example C18_example_text : forall h r, save_gcode "7f3a5c" h r = "<cq_cam.fluent.Job object at 0x7f3a5c>"%string.
Proof. exact saved_text. Qed.

Theorem C18_save_refuted : exists addr h r s, reachable h /\ to_gcode h r = Ok s /\ save_gcode addr h r <> s.
Proof. exact save_refuted. Qed.
Print Assumptions C18_save_refuted.
Example C18_example : to_gcode ex_heap ex_ref = Ok ex_text /\ String.length ex_text = 304%nat.
Proof. split; vm_compute; reflexivity. Qed.

(** ** C65 *)
(** Full statement: [listed_g_code c = true]; missing: G50, which every program contains.  All M codes
    are in a modal group. *)
Theorem C65_codes_partial : forall h r j, hget h r = Some j -> job_printable h j ->
  exists s bs, to_gcode h r = Ok s /\ parse_program s = Some bs /\
    forall b c, In b bs -> (In c (codes "G" b) -> listed_g_code c = true \/ c = 500) /\
                           (In c (codes "M" b) -> m_group c <> None).
Proof. exact listed_codes. Qed.
Print Assumptions C65_codes_partial.

Theorem C65_g50_always : forall h r j, hget h r = Some j -> job_printable h j ->
  exists s bs b, to_gcode h r = Ok s /\ parse_program s = Some bs /\ In b bs /\ member 500 (codes "G" b) = true.
Proof. exact uses_g50. Qed.
Print Assumptions C65_g50_always.

Theorem C65_listed_codes_refuted : exists h r s bs b c, reachable h /\
  to_gcode h r = Ok s /\ parse_program s = Some bs /\ In b bs /\ In c (codes "G" b) /\ listed_g_code c = false.
Proof. exact listed_refuted. Qed.
Print Assumptions C65_listed_codes_refuted.
Example C65_example : exists bs, parse_program ex_text = Some bs /\ flat_map (codes "M") bs = [30; 70; 50; 90; 10; 60; 30; 70; 50; 90; 300].
Proof. exact ex_codes. Qed.

(** ** C66 *)
(** Full statement: every code enumeration value prints as the one word it stands for.  Missing:
    ProbeMode.ON_CONTACT_ERROR, for which it is false. *)
Theorem C66_codes_partial : forall c, c <> EProbe ON_CONTACT_ERROR ->
  parse_line (str_code c) = Some [code_word c].
Proof. exact codes_text. Qed.
Print Assumptions C66_codes_partial.

Theorem C66_probe_refuted : exists c, parse_line (str_code c) <> Some [code_word c].
Proof. exact probe_refuted. Qed.
Print Assumptions C66_probe_refuted.
Example C66_example : str_code (EProbe LOSE_CONTACT) = "G38.5"%string /\ EProbe LOSE_CONTACT <> EProbe ON_CONTACT_ERROR.
Proof. split; [reflexivity|discriminate]. Qed.

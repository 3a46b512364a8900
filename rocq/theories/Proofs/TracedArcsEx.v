(** Examples for Props/TracedArcs.v. *)
From Verif Require Import Base.Str Base.Py Spec.Gcode Spec.Blocks Spec.Machine Spec.Program Spec.Jobs Spec.Axes Spec.Wires Spec.Profiles Spec.OnMachine Spec.Arcs Spec.Traced Spec.TracedArcs
  Model.Groups Model.Geometry Model.Edges Model.Plane Model.Job Model.Routers Model.Tabs Model.Profile
  Proofs.RouteEx Proofs.ProfileEx Proofs.ProfileThmP Proofs.RatesEx Proofs.OnMachineEx Proofs.TracedEx.
Local Open Scope Qc_scope.
Local Open Scope list_scope.

Lemma one_plus_sq p : 1 + p * p <> 0.
Proof. intros E. pose proof (ProgramThmP.qsq_nonneg p) as S. assert (X : p * p = - (1)) by (rewrite <- (Qcplus_0_r (p * p)); replace 0 with (1 + - (1)) by ring; rewrite Qcplus_assoc, (Qcplus_comm (p * p)), E; ring). rewrite X in S. exact (S eq_refl). Qed.
Lemma half_level cx cy cz p : sq2 (vx (half_point cx cy cz p) - qz cx) (vy (half_point cx cy cz p) - qz cy) = 1 /\ vz (half_point cx cy cz p) = qz cz.
Proof.
  split; [|reflexivity]. unfold sq2, half_point. cbn [vx vy]. assert (N := one_plus_sq p). assert (T : qz 2 = 1 + 1) by (apply Qc_is_canon; reflexivity). rewrite T. field. exact N.
Qed.
Lemma circ_level cx cy cz p : sq2 (vx (circ_point cx cy cz p) - qz cx) (vy (circ_point cx cy cz p) - qz cy) = 1 /\ vz (circ_point cx cy cz p) = qz cz.
Proof.
  unfold circ_point. destruct (qleb p (qz 2)); [apply half_level|]. split; [|reflexivity]. cbn [vx vy].
  destruct (half_level 0 0 cz (p - qz 3)) as [H _]. rewrite <- H. unfold sq2. change (qz 0) with 0. ring.
Qed.
Lemma curved_level p e : In p curved -> In e p -> circular e -> level_circle e.
Proof.
  intros [<-|[<-|[]]].
  - intros [<-|[]] _. exists 1, (qz (-1)). intros t _ _. apply circ_level.
  - intros [<-|[<-|[]]] C; [|destruct C; discriminate]. exists 1, (qz (-1)). intros t _ _. apply half_level.
Qed.

(** A quarter of a circle around (0,0,-1) in the plane through X with slope 3 : 4. *)
Definition tilted_point (p : Qc) : vec :=
  V3 ((1 - p * p) / (1 + p * p)) (qq 4 5 * (qz 2 * p / (1 + p * p))) (qz (-1) - qq 3 5 * (qz 2 * p / (1 + p * p))).
Definition tilted : edge :=
  Edge 1 GCIRCLE false (tilted_point 0) (tilted_point 1) tilted_point tilted_point 0 1 (qz 2) (zv 0 0 (-1)) (V3 0 (qq 3 5) (qq 4 5)) false.
(** It is part of a circle of radius 1 in that plane. *)
Lemma tilted_circle p : let d := vsub (tilted_point p) (e_center tilted) in dot d d = 1 /\ dot (e_normal tilted) d = 0.
Proof.
  assert (N := one_plus_sq p). assert (T : qz 2 = 1 + 1) by (apply Qc_is_canon; reflexivity).
  unfold tilted_point, tilted, vsub, dot, zv. cbn [vx vy vz e_center e_normal]. change (qz 0) with 0. rewrite T.
  assert (B : qq 3 5 * qq 3 5 = 1 - qq 4 5 * qq 4 5) by (apply Qc_is_canon; reflexivity).
  set (s := (1 + 1) * p / (1 + p * p)). set (c := (1 - p * p) / (1 + p * p)).
  assert (CS : c * c + s * s = 1) by (unfold c, s; field; exact N).
  split.
  - transitivity (c * c + s * s * (qq 4 5 * qq 4 5 + qq 3 5 * qq 3 5)); [ring|]. rewrite B. transitivity (c * c + s * s); [ring|exact CS].
  - ring.
Qed.
Definition tilted_heap : heap := fst (job_wire_profile K0 flat_tk engrave_wk [ex_job] 0%nat [[tilted]] 0 None None None).
Definition nth_move (h : heap) (r : ref) (n : nat) : event := nth n (snd (run ProgramEx.st_off (ProgramEx.blocks_of h r))) (Ev GRapid ProgramEx.st_off ProgramEx.st_off None None None).
Lemma nth_move_in h r n : (n < List.length (snd (run ProgramEx.st_off (ProgramEx.blocks_of h r))))%nat -> In (nth_move h r n) (snd (run ProgramEx.st_off (ProgramEx.blocks_of h r))).
Proof. apply nth_In. Qed.
Lemma blocks_parse h r s : to_gcode h r = Ok s -> (exists bs, parse_program s = Some bs) -> parse_program s = Some (ProgramEx.blocks_of h r).
Proof. intros H (bs & P). unfold ProgramEx.blocks_of. rewrite H, P. reflexivity. Qed.
Lemma tilted_round : round_edge tilted.
Proof. exists 1. intros t _ _. exact (tilted_circle _). Qed.
Lemma tilted_traceable safe : qz (-1) < safe -> traceable K0 safe [tilted].
Proof. intros L. split; [eexists _, _; split; [reflexivity|exact L]|]. split; [exact I|]. split; [|discriminate]. intros e [<-|[]]. sound. Qed.
Lemma engraved_paths ws h' j radius : job_wire_profile K0 flat_tk engrave_wk [ex_job] 0%nat ws 0 None None None = (h', Ok 1%nat) -> hget h' 1%nat = Some j ->
  tool_radius j = Some (qq 3 2) /\ j_op_safe_height j = j_op_safe_height ex_job /\ toolpaths_of K0 flat_tk engrave_wk j radius ws (Some 0) None None ws.
Proof.
  intros Q HJ. destruct (wire_profile_keeps K0 flat_tk engrave_wk [ex_job] 0%nat ex_job ws 0 None None h' 1%nat eq_refl Q) as (os & E).
  rewrite HJ in E. injection E as ->. split; [cbn [tool_radius with_operations j_tool_diameter]; vm_compute; reflexivity|]. split; [reflexivity|].
  exists ws, (map (fun w => [w]) ws). assert (C : concat (map (fun w : list edge => [w]) ws) = ws) by (clear; induction ws; cbn; congruence). split; [|split; [|auto]].
  - exists (map (fun w => [w]) ws). split; [|auto]. clear. induction ws; constructor; auto. unfold offset_wire. cbn [retry_offset engrave_wk wk_offset wk_transform]. unfold circle_bug_workaround.
    cbn [filter big_enough wk_area engrave_wk wk_relocate map last]. destruct (is_circle_wire K0 a); reflexivity.
  - clear. induction ws; constructor; auto.
Qed.

Lemma tilted_refuted : exists K TK WK h r ws o h' r' j' st radius paths p bs ev, user_heap h /\
  job_wire_profile K TK WK h r ws o None None None = (h', Ok r') /\ hget h' r' = Some j' /\ job_printable h' j' /\ ms_ended st = false /\
  tool_radius j' = Some radius /\ toolpaths_of K TK WK j' radius ws (Some o) None None paths /\ (forall p, In p paths -> traceable K (j_op_safe_height j') p) /\
  (forall p e, In p paths -> In e p -> round_edge e) /\
  to_gcode h' r' = Ok p /\ parse_program p = Some bs /\ In ev (snd (run st bs)) /\ is_arc ev /\ ~ radii_agree ev.
Proof.
  assert (Q : job_wire_profile K0 flat_tk engrave_wk [ex_job] 0%nat [[tilted]] 0 None None None = (tilted_heap, Ok 1%nat)).
  { rewrite (surjective_pairing (job_wire_profile _ _ _ _ _ _ _ _ _ _)). unfold tilted_heap. f_equal. }
  destruct (job_b_ok tilted_heap 1%nat) as (j & HJ & HP); [apply user_wire_profile, start_user|vm_compute; reflexivity|].
  destruct (engraved_paths _ _ _ (qq 3 2) Q HJ) as (T1 & T2 & T3).
  exists K0, flat_tk, engrave_wk, [ex_job], 0%nat, [[tilted]], 0, tilted_heap, 1%nat, j, ProgramEx.st_off, (qq 3 2), [[tilted]]. eexists _, (ProgramEx.blocks_of tilted_heap 1%nat), (nth_move tilted_heap 1%nat 4).
  split; [exact start_user|]. split; [exact Q|]. split; [exact HJ|]. split; [exact HP|]. split; [reflexivity|]. split; [exact T1|]. split; [exact T3|].
  split; [intros p [<-|[]]; rewrite T2; apply tilted_traceable; reflexivity|]. split; [intros p e [<-|[]] [<-|[]]; exact tilted_round|].
  split; [vm_compute; reflexivity|]. split; [vm_compute; reflexivity|]. split; [apply nth_move_in; apply Nat.ltb_lt; vm_compute; reflexivity|]. split; [right; vm_compute; reflexivity|].
  intros (x0 & y0 & x1 & y1 & i & j0 & A & B & C & D & E & F & R & _).
  assert (X : qeqb (match ms_x (ev_from (nth_move tilted_heap 1%nat 4)) with Some v => v | None => 0 end) 1 = true) by (vm_compute; reflexivity). rewrite A in X. apply qeqb_eq in X as ->.
  assert (X : qeqb (match ms_y (ev_from (nth_move tilted_heap 1%nat 4)) with Some v => v | None => 1 end) 0 = true) by (vm_compute; reflexivity). rewrite B in X. apply qeqb_eq in X as ->.
  assert (X : qeqb (match ms_x (ev_to (nth_move tilted_heap 1%nat 4)) with Some v => v | None => 1 end) 0 = true) by (vm_compute; reflexivity). rewrite C in X. apply qeqb_eq in X as ->.
  assert (X : qeqb (match ms_y (ev_to (nth_move tilted_heap 1%nat 4)) with Some v => v | None => 1 end) (qq 4 5) = true) by (vm_compute; reflexivity). rewrite D in X. apply qeqb_eq in X as ->.
  assert (X : qeqb (match ev_i (nth_move tilted_heap 1%nat 4) with Some v => v | None => 1 end) (- (1)) = true) by (vm_compute; reflexivity). rewrite E in X. apply qeqb_eq in X as ->.
  assert (X : qeqb (match ev_j (nth_move tilted_heap 1%nat 4) with Some v => v | None => 1 end) 0 = true) by (vm_compute; reflexivity). rewrite F in X. apply qeqb_eq in X as ->.
  specialize (R (qq 4 5)). apply R; [discriminate|discriminate|reflexivity].
Qed.
Lemma words_refuted : exists K TK WK h r ws o h' r' j' st radius paths p bs ev, user_heap h /\
  job_wire_profile K TK WK h r ws o None None None = (h', Ok r') /\ hget h' r' = Some j' /\ job_printable h' j' /\ ms_ended st = false /\
  tool_radius j' = Some radius /\ toolpaths_of K TK WK j' radius ws (Some o) None None paths /\ (forall p, In p paths -> traceable K (j_op_safe_height j') p) /\
  (forall p e, In p paths -> In e p -> circular e -> level_circle e) /\
  to_gcode h' r' = Ok p /\ parse_program p = Some bs /\ In ev (snd (run st bs)) /\ is_arc ev /\ ~ words_of_plane ev.
Proof.
  destruct ex_curved as (Q & (j & paths & HJ & HP & T1 & T3 & -> & TR) & _ & _).
  exists K0, flat_tk, engrave_wk, [ex_job], 0%nat, curved, 0, engraved_heap, 1%nat, j, ProgramEx.st_off, (qq 3 2), curved. eexists _, (ProgramEx.blocks_of engraved_heap 1%nat), (nth_move engraved_heap 1%nat 4).
  split; [exact start_user|]. split; [exact Q|]. split; [exact HJ|]. split; [exact HP|]. split; [reflexivity|]. split; [exact T1|]. split; [exact T3|]. split; [exact TR|].
  split; [exact curved_level|].
  split; [vm_compute; reflexivity|]. split; [vm_compute; reflexivity|]. split; [apply nth_move_in; apply Nat.ltb_lt; vm_compute; reflexivity|]. split; [left; vm_compute; reflexivity|].
  intros W. assert (P : ms_plane (ev_from (nth_move engraved_heap 1%nat 4)) = Some 170%Z) by (vm_compute; reflexivity). specialize (W P).
  assert (X : match ev_k (nth_move engraved_heap 1%nat 4) with Some _ => true | None => false end = true) by (vm_compute; reflexivity). rewrite W in X. discriminate.
Qed.

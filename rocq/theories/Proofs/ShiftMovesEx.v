(** Examples for Props/ShiftSessions.v. *)
From Verif Require Import Base.Str Base.Py Spec.Gcode Spec.Blocks Spec.Machine Spec.Program Spec.Jobs Spec.Axes Spec.OnMachine Spec.Alike Spec.Shift Spec.ShiftKernel Spec.ShiftMoves
  Model.Groups Model.Geometry Model.Plane Model.Edges Model.Job Model.Profile Model.Drill Model.Tabs Proofs.RouteEx Proofs.ProfileEx Proofs.DrillEx Proofs.AxesP Proofs.AxesEx Proofs.OnMachineEx Proofs.FeedMovesEx
  Proofs.RelationalEx Proofs.ShiftKernelEx Proofs.ProgramThmP Proofs.ShiftMovesP.
From Verif Require Proofs.ProgramEx.
Local Open Scope Qc_scope.
Local Open Scope list_scope.

(** A plate cut around and then drilled with another tool, and the same with the plate half a millimetre
    to the right and 7 mm further down. *)
Definition by_v : vec := V3 (qq 1 2) (qz (-7)) 0.
Definition by_d : pt := hole_shift plane_xy by_v.
Definition rim (w : list edge) : heap := fst (job_wire_profile corner_kernel piece_kernel stay_wk [ex_job] 0%nat [w] 1 None None None).
Definition plates (w : list edge) (os : list drill_object) : heap := fst (job_drill (rim w) 1%nat (Some os) (Some (qz 2)) (Some (bit (Some (PInt 50))))).
Definition here : heap := plates (zrect 0 0 40 40 (-2)) ex_holes.
Definition there : heap := plates (map (move_edge by_d) (zrect 0 0 40 40 (-2))) (map (move_object by_v) ex_holes).
Lemma here_there : moved_sessions plane_xy by_d here there.
Proof.
  destruct gens_moved as (D & P & _). destruct (D plane_xy by_v (Some ex_holes) (Some (qz 2))) as [DS DM].
  destruct (proj2 (P plane_xy by_d corner_kernel piece_kernel stay_wk (map (move_edge by_d)) (corner_kernel_moves by_d) (piece_kernel_moves by_d) (stay_wk_moves plane_xy by_d)) [zrect 0 0 40 40 (-2)] 1 None None) as [WS WM].
  apply (moved_call plane_xy by_d (rim (zrect 0 0 40 40 (-2))) (rim (map (move_edge by_d) (zrect 0 0 40 40 (-2))))); [|exact DS|exact DM].
  apply (moved_call plane_xy by_d [ex_job] [ex_job]); [|exact WS|exact WM]. apply (moved_made plane_xy by_d [] []); [constructor|reflexivity|reflexivity].
Qed.
Lemma plates_user w os : user_heap (plates w os).
Proof. apply user_drill, user_wire_profile. apply (user_new []); [constructor|reflexivity]. Qed.
Definition ends_h (h : heap) (r : ref) : list (option Z) := map (fun e => option_map (fun x => qfloor (x * qz 1000)) (ms_x (ev_to e))) (snd (run ProgramEx.st_off (ProgramEx.blocks_of h r))).
Lemma ex_moved_plates : moved_sessions plane_xy by_d here there /\ even_step (fst by_d) /\ even_step (snd by_d) /\ reachable here /\
  (exists j, hget here 3%nat = Some j /\ job_printable here j) /\ (exists j, hget there 3%nat = Some j /\ job_printable there j) /\
  firstn 7 (ends_h here 3%nat) = [None; Some 0; Some 0; Some 0; Some 40000; Some 40000; Some 0]%Z /\
  firstn 7 (ends_h there 3%nat) = [None; Some 500; Some 500; Some 500; Some 40500; Some 40500; Some 500]%Z /\
  List.length (ends_h here 3%nat) = 28%nat.
Proof.
  split; [exact here_there|]. split; [exists 250%Z; apply Qc_is_canon; vm_compute; reflexivity|]. split; [exists (-3500)%Z; apply Qc_is_canon; vm_compute; reflexivity|].
  split; [apply user_reachable, plates_user|]. split; [apply job_b_ok; [apply plates_user|vm_compute; reflexivity]|]. split; [apply job_b_ok; [apply plates_user|vm_compute; reflexivity]|].
  split; [|split]; vm_compute; reflexivity.
Qed.

(** A hole half a thousandth right of the origin, and the same moved by a thousandth: the printed
    positions are 0 and 0.002. *)
Definition inch_v : vec := V3 (qq 1 1000) 0 0.
Definition inch_d : pt := hole_shift plane_xy inch_v.
Definition one_hole (v : vec) : heap := fst (job_drill [ex_job] 0%nat (Some [DVector v]) (Some (qz 2)) None).
Definition odd_v : vec := V3 (qq 1 2000) 0 0.
Lemma hole_moved : moved_sessions plane_xy inch_d (one_hole odd_v) (one_hole (vadd odd_v inch_v)).
Proof.
  destruct (proj1 gens_moved plane_xy inch_v (Some [DVector odd_v]) (Some (qz 2))) as [S G].
  apply (moved_call plane_xy inch_d [ex_job] [ex_job]); [|exact S|exact G]. apply (moved_made plane_xy inch_d [] []); [constructor|reflexivity|reflexivity].
Qed.
Lemma hole_user v : user_heap (one_hole v).
Proof. apply user_drill. apply (user_new []); [constructor|reflexivity]. Qed.
Lemma nth_moved e d n : forall a b, Forall2 (moved_event e d) a b -> off e (fst d) (nth n (map (fun e => ms_x (ev_to e)) a) None) (nth n (map (fun e => ms_x (ev_to e)) b) None).
Proof.
  intros a b H. revert n. induction H as [|x y a b (_ & _ & (_ & X & _) & _) _ IH]; intros [|n]; cbn [map nth]; [exact I|exact I|exact X|apply IH].
Qed.
Lemma odd_step : exists top d h h' r, moved_sessions top d h h' /\ user_heap h /\ user_heap h' /\
  (exists j, hget h r = Some j /\ job_printable h j) /\ (exists j, hget h' r = Some j /\ job_printable h' j) /\
  exists s bs s' bs' st, to_gcode h r = Ok s /\ parse_program s = Some bs /\ to_gcode h' r = Ok s' /\ parse_program s' = Some bs' /\ ms_ended st = false /\
    ~ Forall2 (moved_event 0 d) (snd (run st bs)) (snd (run st bs')).
Proof.
  exists plane_xy, inch_d, (one_hole odd_v), (one_hole (vadd odd_v inch_v)), 1%nat. split; [exact hole_moved|]. split; [apply hole_user|]. split; [apply hole_user|].
  split; [apply job_b_ok; [apply hole_user|vm_compute; reflexivity]|]. split; [apply job_b_ok; [apply hole_user|vm_compute; reflexivity]|].
  destruct (job_b_ok (one_hole odd_v) 1%nat (hole_user _) ltac:(vm_compute; reflexivity)) as (j & G & P).
  destruct (job_b_ok (one_hole (vadd odd_v inch_v)) 1%nat (hole_user _) ltac:(vm_compute; reflexivity)) as (j' & G' & P').
  destruct (to_gcode_text _ _ _ G P) as (s & Es & Eb). destruct (to_gcode_text _ _ _ G' P') as (s' & Es' & Eb').
  eexists s, _, s', _, ProgramEx.st_off. split; [exact Es|]. split; [exact Eb|]. split; [exact Es'|]. split; [exact Eb'|]. split; [reflexivity|]. intros H.
  assert (B : ProgramEx.blocks_of (one_hole odd_v) 1%nat = program_blocks j) by (unfold ProgramEx.blocks_of; rewrite Es, Eb; reflexivity).
  assert (B' : ProgramEx.blocks_of (one_hole (vadd odd_v inch_v)) 1%nat = program_blocks j') by (unfold ProgramEx.blocks_of; rewrite Es', Eb'; reflexivity).
  rewrite <- B, <- B' in H. apply (nth_moved 0 inch_d 1) in H. clear - H.
  assert (Q : match nth 1 (map (fun e => ms_x (ev_to e)) (snd (run ProgramEx.st_off (ProgramEx.blocks_of (one_hole odd_v) 1%nat)))) None,
    nth 1 (map (fun e => ms_x (ev_to e)) (snd (run ProgramEx.st_off (ProgramEx.blocks_of (one_hole (vadd odd_v inch_v)) 1%nat)))) None with
    Some x, Some y => qleb (qabs (y - (x + fst inch_d))) 0 | _, _ => true end = false) by (vm_compute; reflexivity).
  revert H Q. unfold off. match goal with |- match ?a with Some _ => _ | None => _ end -> _ => destruct a as [x|] end; match goal with |- match ?a with Some _ => _ | None => _ end -> _ => destruct a as [y|] end; intros H Q.
  - apply qleb_le in H. congruence.
  - exact H.
  - exact H.
  - discriminate Q.
Qed.

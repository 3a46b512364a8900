(** Examples for Props/TurnSessions.v. *)
From Verif Require Import Base.Str Base.Py Spec.Gcode Spec.Blocks Spec.Machine Spec.Program Spec.Jobs Spec.Axes Spec.OnMachine Spec.Alike Spec.Drills Spec.Turn Spec.TurnWire Spec.TurnMoves
  Model.Groups Model.Geometry Model.Plane Model.Edges Model.Job Model.Profile Model.Drill Model.Tabs Proofs.RouteEx Proofs.ProfileEx Proofs.DrillEx Proofs.AxesP Proofs.AxesEx Proofs.OnMachineEx Proofs.FeedMovesEx
  Proofs.RelationalEx Proofs.ShiftKernelEx Proofs.ProgramThmP Proofs.ShiftMovesEx Proofs.PartsEx Proofs.TurnEx Proofs.TurnWireEx Proofs.TurnMovesP Proofs.TurnGensP.
From Verif Require Proofs.ProgramEx.
Local Open Scope Qc_scope.
Local Open Scope list_scope.

(** A half disc cut around, and four holes drilled with another tool; and the same mirrored. *)
Definition disc (w : list edge) : heap := fst (job_wire_profile near_kernel chord_kernel stay_wk [ex_job] 0%nat [w] 1 None None None).
Definition discs (w : list edge) (os : list drill_object) : heap := fst (job_drill (disc w) 1%nat (Some os) (Some (qz 2)) (Some (bit (Some (PInt 50))))).
Definition plain : heap := discs half_disc spots.
Definition mirror : heap := discs (map (turn_edge flipped (-(1))) half_disc) spots_flipped.
Lemma flipped_quarters : quarters flipped (-(1)).
Proof.
  exists 0, 1, (qz 7, qz 2). split; [left; split; [reflexivity|left; reflexivity]|]. split; [right; reflexivity|].
  split; [exists 3500%Z; apply Qc_is_canon; vm_compute; reflexivity|]. split; [exists 1000%Z; apply Qc_is_canon; vm_compute; reflexivity|reflexivity].
Qed.
Lemma plain_mirror : turned_sessions plane_xy flipped (-(1)) plain mirror.
Proof.
  destruct gens_turned as (D & P & _). destruct ex_flipped as (_ & W & W' & _).
  destruct (D plane_xy flipped (-(1)) spots spots_flipped (Some (qz 2)) _ flipped_turns W W') as [DS DM].
  destruct (proj2 (P plane_xy flipped (-(1)) near_kernel chord_kernel stay_wk (map (turn_edge flipped (-(1)))) flipped_turns (near_kernel_turns _ _ flipped_turns) (chord_kernel_turns _ _) (stay_wk_turns _ _ plane_xy)) [half_disc] 1 None None) as [WS WM].
  apply (turned_call plane_xy flipped (-(1)) (disc half_disc) (disc (map (turn_edge flipped (-(1))) half_disc))); [|exact DS|exact DM].
  apply (turned_call plane_xy flipped (-(1)) [ex_job] [ex_job]); [|exact WS|exact WM]. apply (turned_made plane_xy flipped (-(1)) [] []); [constructor|reflexivity|reflexivity].
Qed.
Lemma discs_user w os : user_heap (discs w os).
Proof. apply user_drill, user_wire_profile. apply (user_new []); [constructor|reflexivity]. Qed.
Definition kinds_h (h : heap) (r : ref) : list (gmotion * option Z * option Z) :=
  map (fun e => (ev_kind e, option_map (fun x => qfloor (x * qz 1000)) (ms_x (ev_to e)), option_map (fun x => qfloor (x * qz 1000)) (ms_y (ev_to e)))) (snd (run ProgramEx.st_off (ProgramEx.blocks_of h r))).
Lemma ex_mirrored_discs : quarters flipped (-(1)) /\ turned_sessions plane_xy flipped (-(1)) plain mirror /\ reachable plain /\
  (exists j, hget plain 3%nat = Some j /\ job_printable plain j) /\ (exists j, hget mirror 3%nat = Some j /\ job_printable mirror j) /\
  firstn 6 (kinds_h plain 3%nat) = [(GRapid, None, None); (GRapid, Some 0, Some (-1000)); (GRapid, Some 0, Some (-1000)); (GLinear, Some 0, Some (-1000)); (GArcCCW, Some 0, Some 1000); (GLinear, Some 0, Some (-1000))]%Z /\
  firstn 6 (kinds_h mirror 3%nat) = [(GRapid, None, None); (GRapid, Some 8000, Some 2000); (GRapid, Some 8000, Some 2000); (GLinear, Some 8000, Some 2000); (GArcCW, Some 6000, Some 2000); (GLinear, Some 8000, Some 2000)]%Z /\
  List.length (kinds_h plain 3%nat) = 22%nat.
Proof.
  split; [exact flipped_quarters|]. split; [exact plain_mirror|]. split; [apply user_reachable, discs_user|].
  split; [apply job_b_ok; [apply discs_user|vm_compute; reflexivity]|]. split; [apply job_b_ok; [apply discs_user|vm_compute; reflexivity]|].
  split; [|split]; vm_compute; reflexivity.
Qed.

(** A hole a thousandth right of the origin, turned by the angle of the triangle 3, 4, 5. *)
Definition near_v : vec := V3 (qq 1 1000) 0 0.
Definition near_turned : vec := V3 (qq 3 5000) (qq 4 5000) 0.
Lemma spot_turned : turned_sessions plane_xy turn345 1 (one_hole near_v) (one_hole near_turned).
Proof.
  destruct (proj1 gens_turned plane_xy turn345 1 [DVector near_v] [DVector near_turned] (Some (qz 2)) [(qq 1 1000, 0)] turn345_turns) as [S G].
  - exists [[to_world plane_xy near_v]]. split; [repeat constructor|]. cbn [map concat app]. apply f_equal2; [|reflexivity]. apply f_equal2; apply Qc_is_canon; vm_compute; reflexivity.
  - exists [[to_world plane_xy near_turned]]. split; [repeat constructor|]. cbn [map concat app]. apply f_equal2; [|reflexivity]. unfold turn345, turned. cbn [fst snd]. apply f_equal2; apply Qc_is_canon; vm_compute; reflexivity.
  - apply (turned_call plane_xy turn345 1 [ex_job] [ex_job]); [|exact S|exact G]. apply (turned_made plane_xy turn345 1 [] []); [constructor|reflexivity|reflexivity].
Qed.
Lemma nth_turned e T o n : forall a b, Forall2 (turned_event e T o) a b ->
  turned_pair e T (nth n (map (fun e => ms_x (ev_to e)) a) None) (nth n (map (fun e => ms_y (ev_to e)) a) None) (nth n (map (fun e => ms_x (ev_to e)) b) None) (nth n (map (fun e => ms_y (ev_to e)) b) None).
Proof.
  intros a b H. revert n. induction H as [|x y a b (_ & _ & (_ & _ & X) & _) _ IH]; intros [|n]; cbn [map nth]; [exact I|exact I|exact X|apply IH].
Qed.
Definition close_b (T : pt -> pt) (a b a' b' : option Qc) : bool :=
  match a, b, a', b' with Some x, Some y, Some x', Some y' => qleb (qabs (x' - fst (T (x, y)))) 0 | _, _, _, _ => true end.
Lemma close_b_ok T a b a' b' : turned_pair 0 T a b a' b' -> close_b T a b a' b' = true.
Proof. destruct a, b, a', b'; cbn [turned_pair close_b]; try reflexivity. intros [H _]. apply qleb_le. exact H. Qed.
Lemma slant : exists top T o h h' r, turns T o /\ turned_sessions top T o h h' /\ user_heap h /\ user_heap h' /\
  (exists j, hget h r = Some j /\ job_printable h j) /\ (exists j, hget h' r = Some j /\ job_printable h' j) /\
  exists s bs s' bs' st, to_gcode h r = Ok s /\ parse_program s = Some bs /\ to_gcode h' r = Ok s' /\ parse_program s' = Some bs' /\ ms_ended st = false /\
    ~ Forall2 (turned_event 0 T o) (snd (run st bs)) (snd (run st bs')).
Proof.
  exists plane_xy, turn345, 1, (one_hole near_v), (one_hole near_turned), 1%nat. split; [exact turn345_turns|]. split; [exact spot_turned|]. split; [apply hole_user|]. split; [apply hole_user|].
  split; [apply job_b_ok; [apply hole_user|vm_compute; reflexivity]|]. split; [apply job_b_ok; [apply hole_user|vm_compute; reflexivity]|].
  destruct (job_b_ok (one_hole near_v) 1%nat (hole_user _) ltac:(vm_compute; reflexivity)) as (j & G & P).
  destruct (job_b_ok (one_hole near_turned) 1%nat (hole_user _) ltac:(vm_compute; reflexivity)) as (j' & G' & P').
  destruct (to_gcode_text _ _ _ G P) as (s & Es & Eb). destruct (to_gcode_text _ _ _ G' P') as (s' & Es' & Eb').
  eexists s, _, s', _, ProgramEx.st_off. split; [exact Es|]. split; [exact Eb|]. split; [exact Es'|]. split; [exact Eb'|]. split; [reflexivity|]. intros H.
  assert (B : ProgramEx.blocks_of (one_hole near_v) 1%nat = program_blocks j) by (unfold ProgramEx.blocks_of; rewrite Es, Eb; reflexivity).
  assert (B' : ProgramEx.blocks_of (one_hole near_turned) 1%nat = program_blocks j') by (unfold ProgramEx.blocks_of; rewrite Es', Eb'; reflexivity).
  rewrite <- B, <- B' in H. apply (nth_turned 0 turn345 1 1) in H. apply close_b_ok in H. clear - H.
  assert (Q : close_b turn345 (nth 1 (map (fun e => ms_x (ev_to e)) (snd (run ProgramEx.st_off (ProgramEx.blocks_of (one_hole near_v) 1%nat)))) None) (nth 1 (map (fun e => ms_y (ev_to e)) (snd (run ProgramEx.st_off (ProgramEx.blocks_of (one_hole near_v) 1%nat)))) None)
    (nth 1 (map (fun e => ms_x (ev_to e)) (snd (run ProgramEx.st_off (ProgramEx.blocks_of (one_hole near_turned) 1%nat)))) None) (nth 1 (map (fun e => ms_y (ev_to e)) (snd (run ProgramEx.st_off (ProgramEx.blocks_of (one_hole near_turned) 1%nat)))) None) = false) by (vm_compute; reflexivity).
  exact (diff_true_false (eq_trans (eq_sym H) Q)).
Qed.

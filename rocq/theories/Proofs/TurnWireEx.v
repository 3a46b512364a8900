(** Examples for turned and mirrored profiles (C143). *)
From Verif Require Import Base.Str Base.Py Model.Groups Model.Geometry Model.Plane Model.Edges Model.Command Model.Job Model.Routers Model.Tabs Model.Profile
  Spec.Turn Spec.TurnWire Proofs.ShiftP Proofs.TurnP Proofs.TurnWireP Proofs.RouteEx Proofs.TabsEx Proofs.ProfileEx Proofs.RelationalEx Proofs.ShiftKernelEx Proofs.TurnEx.
Local Open Scope Qc_scope.
Local Open Scope list_scope.

Lemma turn345_turns : turns turn345 1.
Proof. exists (qq 3 5), (qq 4 5), (0, 0). split; [apply Qc_is_canon; reflexivity|]. split; [left; reflexivity|reflexivity]. Qed.
Lemma flipped_turns : turns flipped (-(1)).
Proof. exists 0, 1, (qz 7, qz 2). split; [ring|]. split; [right; reflexivity|reflexivity]. Qed.

(** Pieces without an axis. *)
Definition chord (c : Qc -> vec) (p q : Qc) (rev : bool) : result edge :=
  Ok (Edge 0 GLINE rev (c p) (c q) c (fun d => c ((1 - d) * p + d * q)) p q 1 (c p) (V3 0 0 0) false).
Definition chord_kernel : tab_kernel := {|
  tk_param_at := fun e d => (1 - d) * e_param0 e + d * e_param1 e; tk_curve := e_param; tk_location := fun _ v => v;
  tk_make := chord; tk_line := fun a b => chord (fun p => V3 (vx a) (vy a) (vz a + p * (vz b - vz a))) 0 1 false; tk_assemble := Some; tk_zmin := flat_zmin; tk_length := fun es => sum_lengths (map e_length es) |}.
Lemma no_axis T o : turn_axis T o (V3 0 0 0) = V3 0 0 0.
Proof. unfold turn_axis. cbn [vx vy vz]. f_equal; ring. Qed.
Lemma chord_kernel_turns T o : tab_kernel_turns T o chord_kernel.
Proof.
  split; [reflexivity|]. split; [reflexivity|]. split; [reflexivity|].
  split; [intros; cbn [chord_kernel tk_make chord]; unfold rmap, chord; cbn [rbind]; unfold turn_edge; cbn [e_id e_geom e_reversed e_startPoint e_endPoint e_param e_pos e_param0 e_param1 e_length e_center e_normal e_closed]; rewrite no_axis; reflexivity|].
  split; [intros; cbn [chord_kernel tk_line]; unfold rmap, chord; cbn [rbind]; unfold turn_edge; cbn [e_id e_geom e_reversed e_startPoint e_endPoint e_param e_pos e_param0 e_param1 e_length e_center e_normal e_closed]; rewrite no_axis; reflexivity|].
  split; [reflexivity|]. split.
  - intros es. destruct es as [|e es]; [reflexivity|]. cbn [chord_kernel tk_zmin flat_zmin map]. change (low (turn_edge T o e)) with (low e). generalize (low e). intros q.
    induction es as [|x es IH]; [reflexivity|]. cbn [map fold_right]. rewrite IH. reflexivity.
  - intros es. cbn. rewrite map_map. reflexivity.
Qed.
Lemma stay_wk_turns T o top : wire_kernel_turns T o stay_wk top (map (turn_edge T o)).
Proof.
  repeat (split; [reflexivity|]). split.
  - intros w z. cbn. rewrite !map_map. reflexivity.
  - intros w. cbn. f_equal. induction w as [|e w IH]; [reflexivity|]. cbn [map existsb]. rewrite IH. reflexivity.
Qed.
(** Corners of wires, by their distance in the plane. *)
Definition near_kernel : kernel := Kernel
  (fun a b => pt_eqb (vx a, vy a) (vx b, vy b) && qeqb (vz a) (vz b))
  (fun v w => match wire_edges w with
              | [] => None
              | e :: _ => let c := edge_start_point e in Some (dist2 (vx v, vy v) (vx c, vy c), TVertex c)
              end).
Lemma near_kernel_turns T o : turns T o -> kernel_turns T o near_kernel.
Proof.
  intros TO. pose proof (turns_rigid T o TO) as R.
  assert (P : forall v, (vx (turn_vec T v), vy (turn_vec T v)) = T (vx v, vy v)) by (intros v; unfold turn_vec; cbn [vx vy]; destruct (T (vx v, vy v)); reflexivity).
  split.
  - intros a b. cbn [near_kernel k_veq]. rewrite !P, (pt_eqb_turn T R). reflexivity.
  - intros v w. cbn [near_kernel k_nearest]. rewrite wire_edges_turned. destruct (wire_edges w) as [|e es]; [reflexivity|]. cbn [map]. cbn zeta.
    rewrite start_turned, !P, (dist2_turn T R). reflexivity.
Qed.
(** A half disc. *)
Definition half_disc : list edge := [half 1 false 0 0 (-5); line 2 false (zv 0 1 (-5)) (zv 0 (-1) (-5))].
Definition turned_profile (w : list edge) : result (list command) :=
  profile_gen near_kernel chord_kernel stay_wk [w] [zrect 2 2 4 4 (-5)] (Some 1) (Some 1) (Some (qz 2)) None ex_job.
Definition arc_ways (r : result (list command)) : list bool :=
  match r with Ok cs => flat_map (fun c => match c with Motion (MArc cw _ _ _ _ _ _) => [cw] | _ => [] end) cs | Err _ => [] end.
Lemma ex_mirror : turns turn345 1 /\ turns flipped (-(1)) /\ (forall T o, turns T o -> kernel_turns T o near_kernel) /\
  (forall T o, tab_kernel_turns T o chord_kernel) /\ (forall T o top, wire_kernel_turns T o stay_wk top (map (turn_edge T o))) /\
  count_of (turned_profile half_disc) = Some 38%nat /\
  arc_ways (turned_profile half_disc) = [false; false; false] /\
  arc_ways (turned_profile (map (turn_edge flipped (-(1))) half_disc)) = [true; true; true].
Proof.
  split; [exact turn345_turns|]. split; [exact flipped_turns|]. split; [exact near_kernel_turns|]. split; [exact chord_kernel_turns|]. split; [exact stay_wk_turns|].
  split; [|split]; vm_compute; reflexivity.
Qed.

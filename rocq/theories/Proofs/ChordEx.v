(** A pocket with two arms: the tool cuts through what is between them (Props/TracedPocket.v). *)
From Verif Require Import Base.Str Base.Py Spec.Gcode Spec.Blocks Spec.Machine Spec.Program Spec.Paths Spec.Jobs Spec.Axes Spec.OnMachine Spec.Contours Spec.Pockets Spec.PocketCq Spec.Wires Spec.Sides Spec.TracedPocket
  Model.Groups Model.Geometry Model.Plane Model.Edges Model.Job Model.Routers Model.PocketOp
  Proofs.PocketP Proofs.StepdownP Proofs.PocketOpP Proofs.RouteEx Proofs.PocketEx Proofs.PocketOpEx Proofs.ProfileEx Proofs.AxesP Proofs.AxesEx Proofs.OnMachineEx Proofs.TracedEx Proofs.ProgramThmP.
From Verif Require Proofs.ProgramEx.
Import Model.Pocket.
Local Open Scope Qc_scope.
Local Open Scope list_scope.

(** The contours the code makes are those of the specification. *)
Definition made_contours (K : kernel) (F : face_kernel) (E : engine) (fuel : nat) (j : job) (r : Qc) (areas : list (fk_face F)) (avoids : option (list (fk_face F))) (a : pocket_args) : result (list (list pathface)) :=
  do ps <- mapM (fun f => from_cq_face K F (j_precision j) (fk_transform F (j_top j) f)) areas;
  do qs <- mapM (fun f => from_cq_face K F (j_precision j) (fk_transform F (j_top j) f)) (listed avoids);
  do ops <- mapM (fun f => offset_polyface E f (outer_distance r avoids a) (distance r (pa_inner a) 1) (j_precision j)) ps;
  do avs <- mapM (fun f => offset_polyface E f (distance r (pa_avoid_outer a) 1) (distance r (pa_avoid_inner a) (- (1))) (j_precision j)) qs;
  do pockets <- build_pocket_ops E (concat ops) (concat avs);
  fill_ops E fuel (j_precision j) (distance r (pa_stepover a) (qq 1 2)) (pa_stepdown a) [] pockets.
Lemma made_contours_spec K F E fuel j r areas avoids a ss : tool_radius j = Some r -> made_contours K F E fuel j r areas avoids a = Ok ss -> pocket_contours K F E j areas avoids a ss.
Proof.
  intros HR H. unfold made_contours in H. apply rbind_ok in H as (ps & E1 & H). apply rbind_ok in H as (qs & E2 & H). apply rbind_ok in H as (ops & E3 & H). apply rbind_ok in H as (avs & E4 & H).
  apply rbind_ok in H as (pockets & E5 & H). pose proof (build_pocket_spec _ _ _ _ E5) as (ds & rs & L1 & L2 & L3 & L4 & L5).
  exists r, ps, qs, ops, avs, pockets. split; [exact HR|]. split; [apply mapM_ok, E1|]. split; [apply mapM_ok, E2|].
  split; [apply mapM_ok in E3; eapply Forall2_impl; [|exact E3]; intros x y; apply offset_face_spec|].
  split; [apply mapM_ok in E4; eapply Forall2_impl; [|exact E4]; intros x y; apply offset_face_spec|].
  split; [exists ds, rs; auto|]. exact (fill_ops_spec _ _ _ _ _ _ _ _ H).
Qed.

(** An outline with two arms 10 wide, 10 apart, and the same offset inwards by [t] with sharp corners;
    the outlines start at different corners. *)
Definition arms (t : Qc) : path :=
  let left := [(qz 10 - t, qz 20 - t); (t, qz 20 - t); (t, t); (qz 30 - t, t)] in
  let right := [(qz 30 - t, qz 20 - t); (qz 20 + t, qz 20 - t); (qz 20 + t, qz 10 - t); (qz 10 - t, qz 10 - t)] in
  if qltb t (qz 2) then match right with p :: ps => ps ++ left ++ [p] | [] => [] end else left ++ right.
Definition arms_engine : engine := Engine
  (fun p o _ => let '(a, _, _, _) := box_of p in if qltb (a - o) (qz 5) then Ok [arms (a - o)] else Ok [])
  (en_union box_engine) (en_difference box_engine) (en_contains box_engine).
(** The area. *)
Definition outline : list edge := 
  [line 1 false (zv 0 0 (-2)) (zv 30 0 (-2)); line 2 false (zv 30 0 (-2)) (zv 30 20 (-2)); line 3 false (zv 30 20 (-2)) (zv 20 20 (-2)); line 4 false (zv 20 20 (-2)) (zv 20 10 (-2));
   line 5 false (zv 20 10 (-2)) (zv 10 10 (-2)); line 6 false (zv 10 10 (-2)) (zv 10 20 (-2)); line 7 false (zv 10 20 (-2)) (zv 0 20 (-2)); line 8 false (zv 0 20 (-2)) (zv 0 0 (-2))].
Definition wide_args : pocket_args := PA None None None None (Some (OPair 0 (qz 2))) None.
Definition arms_area : rect_face := RF outline [] (qz (-2)).
Definition arms_heap : heap := fst (job_pocket K0 flat_wk rect_fk arms_engine 20 [ex_job] 0%nat [arms_area] None wide_args None).
Lemma with_fst {A B} (x : A * B) b : snd x = b -> x = (fst x, b).
Proof. intros <-. apply surjective_pairing. Qed.
Lemma arms_made : job_pocket K0 flat_wk rect_fk arms_engine 20 [ex_job] 0%nat [arms_area] None wide_args None = (arms_heap, Ok 1%nat).
Proof. apply with_fst. vm_compute. reflexivity. Qed.
Definition arms_contours : list (list pathface) :=
  match made_contours K0 rect_fk arms_engine 20 ex_job (qq 3 2) [arms_area] None wide_args with Ok ss => ss | Err _ => [] end.
(** Between the arms, and on upwards: no point of the outline is there. *)
Definition between_arms (c : pt) : Prop := qz 10 < fst c /\ fst c < qz 20 /\ qz 10 < snd c.
(** Segments that miss the gap: beside it or below. *)
Definition missesb (a b : pt) : bool :=
  (qleb (fst a) (qz 10) && qleb (fst b) (qz 10)) || (qleb (qz 20) (fst a) && qleb (qz 20) (fst b)) || (qleb (snd a) (qz 10) && qleb (snd b) (qz 10)).
Lemma misses a b c : missesb a b = true -> on_segment c a b -> ~ between_arms c.
Proof.
  intros H (t & T0 & T1 & ->) (A & B & C). cbn [fst snd] in *. unfold missesb in H. rewrite !orb_true_iff, !andb_true_iff, !qleb_le in H.
  destruct H as [[[H1 H2]|[H1 H2]]|[H1 H2]]; revert H1 H2 A B C; generalize (qz 10) (qz 20) (fst a) (fst b) (snd a) (snd b); intros; qc2q; nra.
Qed.
Lemma line_between i a b v : of_edge (map_edge (to_local plane_xy) (line i false a b)) v -> on_segment (vx v, vy v) (vx a, vy a) (vx b, vy b).
Proof.
  assert (X : forall u, vx (to_local plane_xy u) = vx u /\ vy (to_local plane_xy u) = vy u).
  { intros u. unfold to_local, plane_xy, dot, vsub. cbn [vx vy vz p_origin p_xdir p_ydir p_zdir]. split; ring. }
  intros [->|[->|(t & T0 & T1 & ->)]];
    unfold travel_start, travel_end, travel_pos, map_edge, line; cbn [e_reversed e_startPoint e_endPoint e_pos]; rewrite !(proj1 (X _)), !(proj2 (X _)).
  - exists 0. split; [discriminate|]. split; [discriminate|]. cbn [fst snd]. f_equal; ring.
  - exists 1. split; [discriminate|]. split; [discriminate|]. cbn [fst snd]. f_equal; ring.
  - exists t. repeat split; assumption.
Qed.
Definition wall_b (e : event) : bool :=
  match ev_kind e, ms_x (ev_from e), ms_y (ev_from e), ms_z (ev_from e), ms_x (ev_to e), ms_y (ev_to e), ms_z (ev_to e) with
  | GLinear, Some x0, Some y0, Some z0, Some x1, Some y1, Some z1 =>
      qeqb x0 (qq 43 2) && qeqb y0 (qq 37 2) && qeqb z0 (qz (-2)) && qeqb x1 (qq 17 2) && qeqb y1 (qq 33 2) && qeqb z1 (qz (-2))
  | _, _, _, _, _, _, _ => false
  end.
Lemma wall_b_ok e : wall_b e = true -> ev_kind e = GLinear /\ ms_x (ev_from e) = Some (qq 43 2) /\ ms_y (ev_from e) = Some (qq 37 2) /\ ms_z (ev_from e) = Some (qz (-2)) /\
  ms_x (ev_to e) = Some (qq 17 2) /\ ms_y (ev_to e) = Some (qq 33 2) /\ ms_z (ev_to e) = Some (qz (-2)).
Proof.
  unfold wall_b. destruct (ev_kind e); try discriminate. destruct (ms_x (ev_from e)), (ms_y (ev_from e)), (ms_z (ev_from e)), (ms_x (ev_to e)), (ms_y (ev_to e)), (ms_z (ev_to e)); try discriminate.
  rewrite !andb_true_iff, !qeqb_eq. intros (((((-> & ->) & ->) & ->) & ->) & ->). repeat split.
Qed.
Lemma wall_cut : exists K WK F E fuel h r areas a h' r' j' st sequences p bs ev x0 y0 x1 y1 z c, user_heap h /\
  job_pocket K WK F E fuel h r areas None a None = (h', Ok r') /\ hget h' r' = Some j' /\ job_printable h' j' /\ ms_ended st = false /\
  pocket_contours K F E j' areas None a sequences /\
  (forall f e v, In f areas -> In e (fk_outer F (fk_transform F (j_top j') f)) -> of_edge e v -> ~ between_arms (vx v, vy v)) /\
  (forall f u v q, In f (concat sequences) -> In (u, v) (steps (pf_outer f)) -> on_segment q u v -> ~ between_arms q) /\
  to_gcode h' r' = Ok p /\ parse_program p = Some bs /\ In ev (snd (run st bs)) /\ ev_kind ev = GLinear /\
  ms_x (ev_from ev) = Some x0 /\ ms_y (ev_from ev) = Some y0 /\ ms_z (ev_from ev) = Some z /\ ms_x (ev_to ev) = Some x1 /\ ms_y (ev_to ev) = Some y1 /\ ms_z (ev_to ev) = Some z /\ z < 0 /\
  on_segment c (x0, y0) (x1, y1) /\ between_arms c.
Proof.
  assert (HU : user_heap arms_heap) by (apply user_pocket, start_user).
  destruct (job_b_ok arms_heap 1%nat HU ltac:(vm_compute; reflexivity)) as (j & HJ & HP).
  destruct (to_gcode_text _ _ _ HJ HP) as (p & Ep & Eb).
  assert (X : match hget arms_heap 1%nat with Some j => tool_radius j = Some (qq 3 2) /\ j_top j = plane_xy /\ j_precision j = j_precision ex_job | None => False end) by (vm_compute; repeat split).
  rewrite HJ in X. destruct X as (R & TP & PR).
  assert (B : ProgramEx.blocks_of arms_heap 1%nat = program_blocks j) by (unfold ProgramEx.blocks_of; rewrite Ep, Eb; reflexivity).
  assert (W : existsb wall_b (snd (run ProgramEx.st_off (ProgramEx.blocks_of arms_heap 1%nat))) = true) by (vm_compute; reflexivity).
  rewrite B in W. apply existsb_exists in W as (ev & IN & W). apply wall_b_ok in W as (W1 & W2 & W3 & W4 & W5 & W6 & W7).
  exists K0, flat_wk, rect_fk, arms_engine, 20%nat, [ex_job], 0%nat, [arms_area], wide_args, arms_heap, 1%nat, j, ProgramEx.st_off, arms_contours, p, (program_blocks j), ev, (qq 43 2), (qq 37 2), (qq 17 2), (qq 33 2), (qz (-2)), (qz 15, qq 35 2).
  split; [exact start_user|]. split; [exact arms_made|].
  split; [exact HJ|]. split; [exact HP|]. split; [reflexivity|]. split.
  { apply (made_contours_spec _ _ _ 20 _ _ _ _ _ _ R). unfold made_contours. rewrite TP, PR. vm_compute. reflexivity. }
  split.
  { intros f e v [<-|[]] He Hv. rewrite TP in He. cbn [rect_fk fk_outer fk_transform rf_outer arms_area outline map] in He.
    destruct He as [<-|[<-|[<-|[<-|[<-|[<-|[<-|[<-|[]]]]]]]]]; (eapply misses; [|eapply line_between; exact Hv]); vm_compute; reflexivity. }
  split.
  { intros f u v q Hf Hs. apply misses.
    assert (D : forallb (fun f => forallb (fun s => missesb (fst s) (snd s)) (steps (pf_outer f))) (concat arms_contours) = true) by (vm_compute; reflexivity).
    rewrite forallb_forall in D. specialize (D f Hf). rewrite forallb_forall in D. exact (D (u, v) Hs). }
  split; [exact Ep|]. split; [exact Eb|]. split; [exact IN|]. repeat (split; [assumption|]). split; [reflexivity|]. split.
  - exists (qq 1 2). split; [discriminate|]. split; [discriminate|]. apply f_equal2; apply Qc_is_canon; vm_compute; reflexivity.
  - repeat split.
Qed.

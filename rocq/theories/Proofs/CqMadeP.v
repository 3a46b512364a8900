(** Pockets of faces (engine "cq") on the machine. *)
From Verif Require Import Base.Str Base.Py Spec.Gcode Spec.Blocks Spec.Machine Spec.Program Spec.Paths Spec.Jobs Spec.Moves Spec.Wires Spec.Curves Spec.OnMachine Spec.Arcs Spec.Traced Spec.LinksMade Spec.PocketCq
  Model.Groups Model.Geometry Model.Plane Model.Edges Model.Job Model.Routers Model.PocketOp
  Proofs.MachineP Proofs.JobP Proofs.GeomP Proofs.RouteP Proofs.EdgeP Proofs.WireP Proofs.RouteThmP Proofs.OnMachineP Proofs.TracedP Proofs.LinksMadeP Proofs.FillP Proofs.StepdownP Proofs.FillWireP Proofs.PocketCqP Proofs.PocketOpP.
Local Open Scope Qc_scope.
Local Open Scope list_scope.

Lemma linkable_routed K j ws so pp cmds : route_wires K j ws so (Some pp) = Ok cmds -> (forall w, In w ws -> linkable K so (j_op_safe_height j) w) ->
  exists gs, cmds = concat gs /\ continuous pp cmds /\ Forall2 (visited_cut K (j_precision j) so (j_op_safe_height j) (j_plunge_feed j) (j_feed j)) ws gs.
Proof.
  intros H HL.
  assert (NE : forall w, In w ws -> wire_edges w <> []) by (intros w I; apply (HL w I)).
  assert (HS : forall w e, In w ws -> In e (wire_edges w) -> edge_sound e) by (intros w e I; apply (HL w I)).
  assert (HC : forall w, In w ws -> connected (wire_edges w)) by (intros w I; apply (HL w I)).
  assert (HO : so <> None -> forall w, In w ws -> loop (wire_edges w)) by (intros _ w I; apply (HL w I)).
  assert (HZ : forall w e rest, In w ws -> wire_edges w = e :: rest -> vz (travel_start e) < j_op_safe_height j) by (intros w e rest I; apply (HL w I)).
  assert (HG : forall w u, In w ws -> good_answer so w (k_nearest K u w)) by (intros w u I; apply (HL w I)).
  assert (HI : forall w, In w ws -> answers_in_range K w) by (intros w I; apply (HL w I)).
  assert (C := wires_continuous _ _ _ _ _ _ H HS HC HO HZ HG). cbn [dflt] in C. destruct (wires_split _ _ _ _ _ _ H NE) as (gs & -> & HW). cbn [dflt] in HW.
  exists gs. split; [reflexivity|]. split; [exact C|]. exact (wires_visited_cut _ _ _ _ _ _ _ HW ltac:(discriminate) HS HC HO HZ HG HI).
Qed.
Lemma sequences_routed K j so ss : forall d pp cmds, route_wire_sequences K j so d pp ss = Ok cmds -> (forall w, In w (concat ss) -> linkable K (Some so) (j_op_safe_height j) (WWire w)) ->
  exists gs, cmds = concat gs /\ continuous pp cmds /\ Forall2 (visited_cut K (j_precision j) (Some so) (j_op_safe_height j) (j_plunge_feed j) (j_feed j)) (map WWire (concat ss)) gs.
Proof.
  induction ss as [|s ss IH]; intros d pp cmds H HL; cbn [route_wire_sequences] in H.
  - injection H as <-. exists []. split; [reflexivity|]. split; [exact I|constructor].
  - apply rbind_ok in H as (g & EG & H).
    assert (H2 : exists rest, route_wire_sequences K j so true (last_end g pp) ss = Ok rest /\ cmds = g ++ rest).
    { destruct g as [|m g], d; try discriminate H; apply rbind_ok in H as (rest & ER & H); injection H as <-; exists rest; auto. }
    destruct H2 as (rest & ER & ->). rewrite last_end_after in ER.
    destruct (linkable_routed _ _ _ _ _ _ EG) as (g1 & -> & C1 & V1); [intros w Hw; apply in_map_iff in Hw as (x & <- & Hx); apply HL; cbn [concat]; apply in_app_iff; auto|].
    destruct (IH _ _ _ ER) as (g2 & -> & C2 & V2); [intros w Hw; apply HL; cbn [concat]; apply in_app_iff; auto|].
    exists (g1 ++ g2). split; [symmetry; apply concat_app|]. split; [apply continuous_app; auto|]. cbn [concat]. rewrite map_app. apply Forall2_app; assumption.
Qed.
Lemma pocket_cq_made K WK F fuel j areas avoids oo io ao ai so cmds st :
  pocket_cq K WK F fuel j areas avoids oo io ao ai so = Ok cmds -> ready st ->
  exists offs avs pockets fills,
    Forall2 (cq_offset K WK F oo io) areas offs /\ Forall2 (cq_offset K WK F ao ai) avoids avs /\
    cq_levels F (j_top j) (concat offs) (concat avs) pockets /\
    Forall2 (fun p ss => exists islands, Forall2 (fun w f => fk_make F w [] = Ok f) (fk_inners F p) islands /\
               wire_filling (cq_inward K WK F so islands) (fk_outer F p) ss) pockets fills /\
    ((forall w, In w (concat (concat fills)) -> linkable K (Some so) (j_op_safe_height j) (WWire w)) ->
     exists groups, snd (run st (flat_map command_blocks (map Motion cmds))) = concat groups /\
       Forall2 (wire_visited K (Some so) (j_op_safe_height j) (j_plunge_feed j) (j_feed j)) (map WWire (concat (concat fills))) groups).
Proof.
  unfold pocket_cq. intros H RD. apply rbind_ok in H as (offs & E1 & H). apply rbind_ok in H as (avs & E2 & H).
  apply rbind_ok in H as (pockets & E3 & H). apply rbind_ok in H as (fills & E4 & H).
  apply mapM_iff in E1, E2, E4. apply face_ops_spec in E3. exists offs, avs, pockets, fills.
  split; [eapply Forall2_impl; [|exact E1]; intros a b; apply offset_cq_face_iff|].
  split; [eapply Forall2_impl; [|exact E2]; intros a b; apply offset_cq_face_iff|].
  split; [exact E3|]. split; [eapply Forall2_impl; [|exact E4]; intros a b; apply fill_face_spec|].
  intros HL. destruct (sequences_routed _ _ _ _ _ _ _ H HL) as (gs & -> & C & V).
  destruct (made_from (concat gs) st av_none RD (matches_none st) C) as [_ M]. destruct (Forall2_split _ _ _ M) as (ess & -> & FF). exists ess. split; [reflexivity|].
  clear - V FF. revert ess FF. induction V; intros ess FF; inversion FF; subst; constructor; [eapply visited_events; eassumption|auto].
Qed.

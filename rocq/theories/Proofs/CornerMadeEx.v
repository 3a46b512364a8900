(** Counterexample for C121: a tab that ends at a corner, on the machine. *)
From Verif Require Import Base.Str Base.Py Spec.Gcode Spec.Blocks Spec.Machine Spec.Program Spec.Jobs Spec.Axes Spec.Wires Spec.Tabs Spec.Profiles Spec.Rapids Spec.OnMachine Spec.Traced Spec.TabsMade
  Model.Groups Model.Geometry Model.Edges Model.Plane Model.Job Model.Routers Model.Tabs Model.Profile
  Proofs.RouteEx Proofs.TabsEx Proofs.ProfileEx Proofs.ProfileTabsP Proofs.WireTabsMeetP Proofs.ProfileThmP Proofs.RatesEx Proofs.OnMachineEx Proofs.TracedEx Proofs.TracedArcsEx Proofs.TabsMadeEx Proofs.ChordEx.
From Verif Require Proofs.ProgramEx.
Local Open Scope Qc_scope.
Local Open Scope list_scope.

Definition corner_heap : heap := fst (job_wire_profile K0 flat_tk follow_wk [ex_job] 0%nat [tab_square] 0 None (Some corner_tabs) None).
Lemma corner_made : job_wire_profile K0 flat_tk follow_wk [ex_job] 0%nat [tab_square] 0 None (Some corner_tabs) None = (corner_heap, Ok 1%nat).
Proof. unfold corner_heap. apply with_fst. vm_compute. reflexivity. Qed.
Definition slanted (n : nat) (a b : Qc) : bool :=
  match ms_y (ev_from (nth_move corner_heap 1%nat n)), ms_y (ev_to (nth_move corner_heap 1%nat n)), ms_z (ev_from (nth_move corner_heap 1%nat n)), ms_z (ev_to (nth_move corner_heap 1%nat n)) with
  | Some y, Some y', Some z, Some z' => negb (qeqb y y') && qeqb z a && qeqb z' b
  | _, _, _, _ => false end.
Lemma slanted_ok n a b : slanted n a b = true -> ~ same_xy (nth_move corner_heap 1%nat n) /\ ms_z (ev_from (nth_move corner_heap 1%nat n)) = Some a /\ ms_z (ev_to (nth_move corner_heap 1%nat n)) = Some b.
Proof.
  unfold slanted, same_xy. destruct (nth_move corner_heap 1%nat n) as [k f t i j c]. cbn [ev_from ev_to]. destruct (ms_y f) as [y|]; [|discriminate]. destruct (ms_y t) as [y'|]; [|discriminate]. destruct (ms_z f) as [z|]; [|discriminate]. destruct (ms_z t) as [z'|]; [|discriminate].
  intros H. apply andb_true_iff in H as (H & H3). apply andb_true_iff in H as (H1 & H2). apply qeqb_eq in H2, H3. subst. split; [|split; reflexivity].
  intros (_ & E). injection E as ->. assert (R : qeqb y y = true) by (apply qeqb_eq; reflexivity). rewrite R in H1. discriminate.
Qed.
Lemma corner_cut_refuted : exists K TK WK h r ws o c width height h' r' j' st radius b d p bs ev, user_heap h /\
  job_wire_profile K TK WK h r ws o None (Some (WireTabs c width height)) None = (h', Ok r') /\ hget h' r' = Some j' /\ job_printable h' j' /\ ms_ended st = false /\
  only_ends K /\ makes_edges TK /\ (forall l, tk_assemble TK l = Some l) /\ rigid TK WK /\
  tool_radius j' = Some radius /\ offsets_of K WK (j_top j') radius ws (Some o) [b] /\ flat d b /\ loop b /\ (forall e, In e b -> edge_sound e /\ e_geom e = GLINE /\ 0 < e_length e) /\
  0 < width /\ width * qz (Z.of_nat c) < qsum (map e_length b) /\
  to_gcode h' r' = Ok p /\ parse_program p = Some bs /\ In ev (snd (run st bs)) /\ ev_kind ev = GLinear /\ ~ same_xy ev /\
  ms_z (ev_from ev) = Some (d + height) /\ ms_z (ev_to ev) = Some d.
Proof.
  destruct (job_b_ok corner_heap 1%nat) as (j & HJ & HP); [apply user_wire_profile, start_user|vm_compute; reflexivity|].
  assert (X : tool_radius j = Some (qq 3 2) /\ j_top j = plane_xy).
  { destruct (wire_profile_keeps K0 flat_tk follow_wk [ex_job] 0%nat ex_job [tab_square] 0 None (Some corner_tabs) corner_heap 1%nat eq_refl corner_made) as (os & E).
    rewrite HJ in E. injection E as ->. split; [cbn [tool_radius with_operations j_tool_diameter]; vm_compute; reflexivity|reflexivity]. }
  destruct X as (X1 & X2).
  exists K0, flat_tk, follow_wk, [ex_job], 0%nat, [tab_square], 0, 1%nat, (qz 8), 1, corner_heap, 1%nat, j, ProgramEx.st_off, (qq 3 2), tab_square, (qz (-5)).
  eexists _, (ProgramEx.blocks_of corner_heap 1%nat), (nth_move corner_heap 1%nat 5).
  split; [exact start_user|]. split; [exact corner_made|]. split; [exact HJ|]. split; [exact HP|]. split; [reflexivity|]. split; [exact ex_only_ends|].
  split; [apply ex_tab_kernels|]. split; [exact ex_assemble|]. split; [exact follow_rigid|]. split; [exact X1|].
  split. { rewrite X2. exists [[tab_square]]. split; [constructor; [reflexivity|constructor]|reflexivity]. }
  split; [exact tab_square_flat|]. split; [repeat split|].
  split. { destruct tab_square_ok as (_ & A & B). intros e He. split; [apply (A e He)|]. split; [|apply (B e He)]. destruct He as [<-|[<-|[<-|[<-|[]]]]]; reflexivity. }
  split; [reflexivity|]. split; [reflexivity|].
  split; [vm_compute; reflexivity|]. split; [vm_compute; reflexivity|]. split; [apply nth_move_in; apply Nat.ltb_lt; vm_compute; reflexivity|]. split; [vm_compute; reflexivity|].
  apply slanted_ok. vm_compute. reflexivity.
Qed.

(** Counterexample for C116, from the boxes of C122. *)
From Verif Require Import Base.Str Base.Py Spec.Gcode Spec.Blocks Spec.Machine Spec.Program Spec.Jobs Spec.Axes Spec.Wires Spec.Curves Spec.Profiles Spec.OnMachine Spec.Arcs Spec.Traced Spec.Strays
  Model.Groups Model.Geometry Model.Edges Model.Plane Model.Job Model.Routers Model.Tabs Model.Profile
  Proofs.RouteEx Proofs.ProfileEx Proofs.ProfileThmP Proofs.RatesEx Proofs.OnMachineEx Proofs.TracedEx Proofs.TracedArcsEx Proofs.StraysEx.
From Verif Require Proofs.ProgramEx.
Local Open Scope Qc_scope.
Local Open Scope list_scope.

(** A traced wire is left where its last edge ends. *)
Lemma traced_end K safe pf feed w es e front : wire_traced K safe pf feed w es -> w = front ++ [e] ->
  exists evs final, es = evs ++ [final] /\ stands_at (travel_end e) (ev_to final).
Proof.
  intros (entry & down & bodies & -> & _ & _ & _ & _ & _ & F) ->. apply Forall2_app_inv_l in F as (b1 & b2 & _ & F & ->).
  inversion F as [|? b ? r (_ & _ & (fr & fin & -> & S) & _) R]; subst. inversion R; subst. exists (entry ++ concat b1 ++ fr), fin. split; [|exact S].
  rewrite concat_app. cbn [concat]. rewrite app_nil_r, !app_assoc. reflexivity.
Qed.
Lemma stray_end : match ms_x (ev_to (last (snd (run ProgramEx.st_off (ProgramEx.blocks_of stray_heap 1%nat))) (nth_move stray_heap 1%nat 16))) with Some x => qeqb x 0 | None => true end = false.
Proof. vm_compute. reflexivity. Qed.
Lemma untraced_refuted : exists K TK WK h r ws o h' r' j' st radius paths p bs, user_heap h /\
  job_wire_profile K TK WK h r ws o None None None = (h', Ok r') /\ hget h' r' = Some j' /\ job_printable h' j' /\ ms_ended st = false /\
  tool_radius j' = Some radius /\ toolpaths_of K TK WK j' radius ws (Some o) None None paths /\
  (forall w, In w paths -> loop w /\ forall e, In e w -> edge_sound e /\ e_geom e = GLINE /\ vz (travel_start e) < j_op_safe_height j') /\
  (forall w u d id q, In w paths -> k_nearest K u (WWire w) = Some (d, TEdge id q) -> nearest_inside w u d id q) /\
  to_gcode h' r' = Ok p /\ parse_program p = Some bs /\
  forall before groups, snd (run st bs) = before ++ concat groups -> ~ Forall2 (wire_traced K (j_op_safe_height j') (j_plunge_feed j') (j_feed j')) paths groups.
Proof.
  destruct (job_b_ok stray_heap 1%nat) as (j & HJ & HP); [apply user_wire_profile, start_user|vm_compute; reflexivity|].
  destruct (pair_paths _ _ _ _ _ _ _ _ (qq 3 2) stray_made eq_refl HJ) as (T1 & T2 & T3).
  exists stray_kernel, flat_tk, stray_wk, [ex_job], 0%nat, [small_box], 1, stray_heap, 1%nat, j, ProgramEx.st_off, (qq 3 2), [small_box; tall_box].
  eexists _, (ProgramEx.blocks_of stray_heap 1%nat).
  split; [exact start_user|]. split; [exact stray_made|]. split; [exact HJ|]. split; [exact HP|]. split; [reflexivity|]. split; [exact T1|]. split; [exact T3|].
  split. { rewrite T2. intros w Hw. split; [destruct Hw as [<-|[<-|[]]]; apply box_loop|]. intros e He. split; [destruct Hw as [<-|[<-|[]]]; revert e He; apply box_sound; reflexivity|].
    destruct Hw as [<-|[<-|[]]]; destruct He as [<-|[<-|[<-|[<-|[]]]]]; split; reflexivity. }
  split; [exact stray_nearest|]. split; [vm_compute; reflexivity|]. split; [vm_compute; reflexivity|].
  intros before groups E F. inversion F as [|? g1 ? r1 _ F1]; subst. inversion F1 as [|? g2 ? r2 G F2]; subst. inversion F2; subst. clear F F1 F2.
  destruct (traced_end _ _ _ _ _ _ (span 4 (zv 0 20 (-5)) (zv 0 0 (-5)) (qz 20)) (firstn 3 tall_box) G eq_refl) as (evs & final & -> & S & _).
  assert (X := stray_end). rewrite E in X. cbn [concat] in X. rewrite app_nil_r, !app_assoc, last_last in X. rewrite S in X. discriminate X.
Qed.

(** Counterexamples for Props/OnMachine.v. *)
From Verif Require Import Base.Str Base.Py Spec.Gcode Spec.Blocks Spec.Machine Spec.Program Spec.Axes Spec.OnMachine Spec.Profiles
  Model.Groups Model.Geometry Model.Plane Model.Edges Model.Job Model.Routers Model.Tabs Model.Profile Proofs.RouteEx Proofs.ProfileEx Proofs.AxesP Proofs.OnMachineEx Proofs.TracedEx.
From Verif Require Proofs.ProgramEx.
Local Open Scope Qc_scope.
Local Open Scope list_scope.

Definition low_heap : heap := fst (job_wire_profile K0 flat_tk flat_wk [low_job] 0%nat [zrect 0 0 20 10 (-8)] (- (1)) (Some (qz 2)) None None).
Lemma low_user : user_heap [low_job].
Proof. apply (user_new []); [constructor|reflexivity]. Qed.
Definition none_at (z : Qc) (es : list event) : bool := forallb (fun e => match ms_z (ev_to e) with Some y => negb (qeqb y z) | None => true end) (feed_moves es).

Lemma passes_missing : exists K TK WK h r ws o s h' r' j' st radius b p bs, user_heap h /\
  job_wire_profile K TK WK h r ws o (Some s) None None = (h', Ok r') /\ hget h' r' = Some j' /\ job_printable h' j' /\ ms_ended st = false /\
  0 < s /\ rigid TK WK /\ tool_radius j' = Some radius /\ offsets_of K WK (j_top j') radius ws (Some o) [b] /\ flat (qz (-6)) b /\
  to_gcode h' r' = Ok p /\ parse_program p = Some bs /\
  ~ (exists before es after, snd (run st bs) = before ++ es ++ after /\ profile_made (Some s) b es).
Proof.
  assert (Q : job_wire_profile K0 flat_tk flat_wk [low_job] 0%nat [zrect 0 0 20 10 (-8)] (- (1)) (Some (qz 2)) None None = (low_heap, Ok 1%nat)).
  { rewrite (surjective_pairing (job_wire_profile _ _ _ _ _ _ _ _ _ _)). unfold low_heap. f_equal. }
  destruct (job_b_ok low_heap 1%nat) as (j & HJ & HP); [apply user_wire_profile, low_user|vm_compute; reflexivity|].
  assert (T : j_top j = low_plane /\ tool_radius j = Some (qz 2 / qz 2)).
  { destruct (wire_profile_keeps K0 flat_tk flat_wk [low_job] 0%nat low_job _ _ _ _ low_heap 1%nat eq_refl Q) as (os & E).
    rewrite HJ in E. injection E as ->. split; [reflexivity|]. cbn [tool_radius with_operations j_tool_diameter]. vm_compute. reflexivity. }
  destruct T as [T1 T2].
  destruct (rect_offset_wire (wk_transform flat_wk low_plane (zrect 0 0 20 10 (-8))) (- (1) * (qz 2 / qz 2)) (qz (-6))) as (x0 & y0 & x1 & y1 & E);
    [vm_compute; reflexivity|vm_compute; reflexivity|].
  assert (G : exists p, to_gcode low_heap 1%nat = Ok p /\ parse_program p = Some (ProgramEx.blocks_of low_heap 1%nat)).
  { assert (G1 : match to_gcode low_heap 1%nat with Ok p => match parse_program p with Some _ => true | None => false end | Err _ => false end = true) by (vm_compute; reflexivity).
    unfold ProgramEx.blocks_of. destruct (to_gcode low_heap 1%nat) as [p|]; [|discriminate G1]. exists p. split; [reflexivity|]. destruct (parse_program p); [reflexivity|discriminate G1]. }
  destruct G as (p & G1 & G2).
  exists K0, flat_tk, flat_wk, [low_job], 0%nat, [zrect 0 0 20 10 (-8)], (- (1)), (qz 2), low_heap, 1%nat, j, ProgramEx.st_off, (qz 2 / qz 2), (rectangle x0 y0 x1 y1 (qz (-6))), p, (ProgramEx.blocks_of low_heap 1%nat).
  split; [exact low_user|]. split; [exact Q|]. split; [exact HJ|]. split; [exact HP|]. split; [reflexivity|]. split; [reflexivity|]. split; [exact flat_tk_rigid|]. split; [exact T2|].
  split. { rewrite T1. exists [[rectangle x0 y0 x1 y1 (qz (-6))]]. split; [constructor; [exact E|constructor]|reflexivity]. }
  split; [apply rectangle_flat|]. split; [exact G1|]. split; [exact G2|].
  assert (N : none_at (rounded 3 (qz (-2))) (snd (run ProgramEx.st_off (ProgramEx.blocks_of low_heap 1%nat))) = true) by (vm_compute; reflexivity).
  clear Q HJ HP T1 T2 E G1 G2. generalize dependent (snd (run ProgramEx.st_off (ProgramEx.blocks_of low_heap 1%nat))). intros evs N (before & es & after & E & z & s & n & passes & F & P & EP & L & H).
  assert (Z : z = qz (-6)).
  { pose proof (rectangle_flat x0 y0 x1 y1 (qz (-6))) as [W1 W2]. destruct F as [_ F]. destruct (rectangle x0 y0 x1 y1 (qz (-6))) as [|e w]; [destruct W1; reflexivity|].
    pose proof (F e (or_introl eq_refl)) as [F1 _]. pose proof (W2 e (or_introl eq_refl)) as [F2 _]. congruence. }
  subst z. destruct P as [(P1 & P2 & P3 & P4)|(P & _)]; [|destruct P; exists (qz 2); split; [reflexivity|discriminate]].
  assert (S2 : s = qz 2) by congruence. subst s.
  assert (N2 : n = 2%nat).
  { unfold layers_needed in *. destruct n as [|[|[|n]]]; [exfalso; apply (Qcle_not_lt _ _ P4); reflexivity|exfalso; apply (Qcle_not_lt _ _ P4); reflexivity|reflexivity|exfalso].
    destruct P3 as [P3|P3]; [discriminate|]. revert P3. apply Qcle_not_lt.
    replace (qz (-6) + qz (Z.of_nat (S (S (S n)))) * qz 2) with (qz (Z.of_nat n * 2)%Z).
    - apply Qcle_trans with 0; [discriminate|]. change 0 with (qz 0). apply qz_le. lia.
    - rewrite <- qz_mult, <- qz_plus. f_equal. lia. }
  subst n. destruct passes as [|q0 passes]; [discriminate L|]. specialize (H 0%nat q0 eq_refl). destruct H as [H1 H2].
  destruct (feed_moves q0) as [|e r] eqn:EF; [destruct H1; reflexivity|]. apply Forall_inv in H2.
  unfold none_at in N. rewrite forallb_forall in N. specialize (N e).
  assert (I1 : In e (feed_moves evs)).
  { assert (I0 : In e (feed_moves q0)) by (rewrite EF; left; reflexivity). unfold feed_moves in *. apply filter_In in I0 as [I0 I1]. apply filter_In. split; [|exact I1].
    rewrite E. apply in_or_app. right. apply in_or_app. left. rewrite EP. cbn [concat]. apply in_or_app. left. exact I0. }
  specialize (N I1). rewrite H2 in N. vm_compute in N. discriminate.
Qed.

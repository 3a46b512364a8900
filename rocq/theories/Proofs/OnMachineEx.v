(** Examples for Props/OnMachine.v. *)
From Verif Require Import Base.Str Base.Py Spec.Gcode Spec.Blocks Spec.Machine Spec.Program Spec.Jobs Spec.Axes Spec.Profiles Spec.OnMachine
  Model.Groups Model.Geometry Model.Edges Model.Plane Model.Job Model.Routers Model.Tabs Model.Profile Model.Drill Model.Pocket Model.PocketOp
  Proofs.RouteEx Proofs.ProfileEx Proofs.DrillEx Proofs.PocketEx Proofs.PocketOpEx Proofs.AxesP Proofs.AxesEx Proofs.RatesEx.
From Verif Require Proofs.ProgramEx Proofs.HistoryP Proofs.JobP.
Local Open Scope Qc_scope.
Local Open Scope list_scope.

Definition job_b (h : heap) (r : ref) : bool :=
  match hget h r with
  | Some j => comment_safe (j_name j) && plain_b (Some (j_feed j)) && plain_b (j_speed j) && forallb (fun o => forallb numbers_b (op_commands o)) (j_operations j)
  | None => false
  end.
Lemma job_b_ok h r : user_heap h -> job_b h r = true -> exists j, hget h r = Some j /\ job_printable h j.
Proof.
  intros HU X. unfold job_b in X. destruct (hget h r) as [j|] eqn:E; [|discriminate]. exists j. split; [reflexivity|].
  apply andb_prop in X as [X X4]. apply andb_prop in X as [X X3]. apply andb_prop in X as [X1 X2].
  apply (user_printable h r j HU E); [exact X1|apply (plain_b_ok (Some _)), X2|apply plain_b_ok, X3|].
  apply Forall_forall. intros o Ho. apply Forall_forall. intros c Hc. apply numbers_b_ok.
  rewrite forallb_forall in X4. specialize (X4 o Ho). rewrite forallb_forall in X4. exact (X4 c Hc).
Qed.
Definition cut_ends (h : heap) (r : ref) : list (option Z * option Z * option Z) :=
  map (fun e => (option_map qfloor (ms_x (ev_to e)), option_map qfloor (ms_y (ev_to e)), option_map qfloor (ms_z (ev_to e))))
    (feed_moves (snd (run ProgramEx.st_off (ProgramEx.blocks_of h r)))).
Definition heights (h : heap) (r : ref) : list (option Z) :=
  map (fun e => option_map qfloor (ms_z (ev_to e))) (feed_moves (snd (run ProgramEx.st_off (ProgramEx.blocks_of h r)))).

Lemma start_user : user_heap [ex_job].
Proof. apply (user_new []); [constructor|reflexivity]. Qed.

Definition drilled_heap : heap := fst (job_drill [ex_job] 0%nat (Some ex_holes) (Some (qz 2)) None).
Lemma ex_drilled : job_drill [ex_job] 0%nat (Some ex_holes) (Some (qz 2)) None = (drilled_heap, Ok 1%nat) /\
  (exists j, hget drilled_heap 1%nat = Some j /\ job_printable drilled_heap j) /\
  cut_ends drilled_heap 1%nat = [(Some 0, Some 0, Some (-2)); (Some 4, Some 3, Some (-2)); (Some 4, Some 3, Some (-2)); (Some 10, Some 0, Some (-2)); (Some 12, Some 1, Some (-2))]%Z.
Proof.
  split; [rewrite (surjective_pairing (job_drill _ _ _ _ _)); unfold drilled_heap; f_equal; vm_compute; reflexivity|]. split.
  - apply job_b_ok; [apply user_drill, start_user|vm_compute; reflexivity].
  - vm_compute. reflexivity.
Qed.

Definition pocket_heap : heap := fst (job_pocket K0 flat_wk rect_fk box_engine 20 [ex_job] 0%nat [rface 0 0 10 8 (-2)] None (down_args 1) None).
Lemma ex_pocketed : job_pocket K0 flat_wk rect_fk box_engine 20 [ex_job] 0%nat [rface 0 0 10 8 (-2)] None (down_args 1) None = (pocket_heap, Ok 1%nat) /\
  (exists j, hget pocket_heap 1%nat = Some j /\ job_printable pocket_heap j /\
    (forall f, In f [rface 0 0 10 8 (-2)] -> qz (-2) <= fk_zmax rect_fk (fk_transform rect_fk (j_top j) f)) /\ qz (-2) <= j_op_safe_height j /\ qz (-2) <= j_rapid_height j) /\
  runs (heights pocket_heap 1%nat) = [(Some (-1), 23); (Some (-2), 23)]%Z.
Proof.
  split; [rewrite (surjective_pairing (job_pocket _ _ _ _ _ _ _ _ _ _ _)); unfold pocket_heap; f_equal; vm_compute; reflexivity|]. split.
  - destruct (job_b_ok pocket_heap 1%nat) as (j & HJ & HP); [apply user_pocket, start_user|vm_compute; reflexivity|]. exists j. split; [exact HJ|]. split; [exact HP|].
    assert (X : match hget pocket_heap 1%nat with
                | Some j => qleb (qz (-2)) (fk_zmax rect_fk (fk_transform rect_fk (j_top j) (rface 0 0 10 8 (-2)))) && (qleb (qz (-2)) (j_op_safe_height j) && qleb (qz (-2)) (j_rapid_height j))
                | None => false end = true) by (vm_compute; reflexivity).
    rewrite HJ in X. apply andb_prop in X as [X1 X]. apply andb_prop in X as [X2 X3]. apply qleb_le in X1, X2, X3.
    split; [intros f [<-|[]]; exact X1|]. split; assumption.
  - vm_compute. reflexivity.
Qed.

Lemma profile_keeps K TK WK h r j shapes oo io sd t h' r' : hget h r = Some j -> job_profile K TK WK h r shapes oo io sd t None = (h', Ok r') ->
  exists os, hget h' r' = Some (with_operations j os).
Proof.
  intros HJ H. unfold job_profile in H. rewrite HJ in H. destruct (negb (is_some (j_tool_diameter j))); [discriminate|]. destruct (negb (is_some oo) && negb (is_some io)); [discriminate|].
  destruct (extract_wires shapes) as [[os is_]|]; [|discriminate].
  pose proof (HistoryP.fluent_op_spec h r j None "Profile" (profile_gen K TK WK os is_ oo io sd t) HJ) as F. rewrite H in F.
  inversion F as [|h1 r1 j1 cmds U E1 Eg]; subst. inversion U; subst; try discriminate. rewrite E1 in HJ. injection HJ as ->. eexists. apply JobP.hget_new.
Qed.
Definition frame : shape := SFace (zrect 0 0 40 40 (-5)) [zrect 5 5 15 15 (-3)].
Definition frame_heap : heap := fst (job_profile K0 flat_tk flat_wk [ex_job] 0%nat [frame] (Some 1) (Some (- (1))) (Some (qz 2)) None None).
Lemma ex_framed : job_profile K0 flat_tk flat_wk [ex_job] 0%nat [frame] (Some 1) (Some (- (1))) (Some (qz 2)) None None = (frame_heap, Ok 1%nat) /\
  (exists j inners outers, hget frame_heap 1%nat = Some j /\ job_printable frame_heap j /\ tool_radius j = Some (qq 3 2) /\
    offsets_of K0 flat_wk (j_top j) (qq 3 2) (flat_map inners_of [frame]) (Some (- (1))) inners /\
    offsets_of K0 flat_wk (j_top j) (qq 3 2) (flat_map outer_of [frame]) (Some 1) outers /\
    (forall b, In b (inners ++ outers) -> (exists z, flat z b) /\ clear_of_top flat_tk flat_wk (j_top j) b)) /\
  rigid flat_tk flat_wk /\
  runs (heights frame_heap 1%nat) = [(Some (-1), 5); (Some (-3), 5); (Some (-1), 5); (Some (-3), 5); (Some (-5), 5)]%Z.
Proof.
  assert (Q : job_profile K0 flat_tk flat_wk [ex_job] 0%nat [frame] (Some 1) (Some (- (1))) (Some (qz 2)) None None = (frame_heap, Ok 1%nat)).
  { rewrite (surjective_pairing (job_profile _ _ _ _ _ _ _ _ _ _ _)). unfold frame_heap. f_equal. }
  split; [exact Q|]. split; [|split; [exact flat_tk_rigid|vm_compute; reflexivity]].
  destruct (job_b_ok frame_heap 1%nat) as (j & HJ & HP); [apply user_profile, start_user|vm_compute; reflexivity|].
  assert (T : j_top j = plane_xy /\ tool_radius j = Some (qq 3 2)).
  { destruct (profile_keeps K0 flat_tk flat_wk [ex_job] 0%nat ex_job [frame] (Some 1) (Some (- (1))) (Some (qz 2)) None frame_heap 1%nat eq_refl Q) as (os & E).
    rewrite HJ in E. injection E as ->. split; [reflexivity|]. cbn [tool_radius with_operations j_tool_diameter]. vm_compute. reflexivity. }
  destruct T as [T1 T2].
  destruct (rect_offset_wire (wk_transform flat_wk plane_xy (zrect 5 5 15 15 (-3))) (- (1) * qq 3 2) (qz (-3))) as (a0 & b0 & a1 & b1 & EI); [vm_compute; reflexivity|vm_compute; reflexivity|].
  destruct (rect_offset_wire (wk_transform flat_wk plane_xy (zrect 0 0 40 40 (-5))) (1 * qq 3 2) (qz (-5))) as (c0 & d0 & c1 & d1 & EO); [vm_compute; reflexivity|vm_compute; reflexivity|].
  exists j, [rectangle a0 b0 a1 b1 (qz (-3))], [rectangle c0 d0 c1 d1 (qz (-5))]. split; [exact HJ|]. split; [exact HP|]. split; [exact T2|]. rewrite T1.
  split; [exists [[rectangle a0 b0 a1 b1 (qz (-3))]]; split; [constructor; [exact EI|constructor]|reflexivity]|].
  split; [exists [[rectangle c0 d0 c1 d1 (qz (-5))]]; split; [constructor; [exact EO|constructor]|reflexivity]|].
  intros b [<-|[<-|[]]]; (split; [eexists; apply rectangle_flat|apply rectangle_clear]).
Qed.

(** Examples for Props/Finer.v. *)
From Verif Require Import Base.Str Base.Py Model.Geometry Model.Plane Model.Edges Model.Job Model.Routers Model.Tabs Model.Profile Model.PocketOp
  Spec.Paths Spec.Moves Spec.Wires Spec.Profiles Spec.Layers Spec.OnMachine Spec.Traced Spec.Finer
  Proofs.RouteEx Proofs.TabsEx Proofs.ProfileEx Proofs.ProfileTabsP Proofs.LayersEx Proofs.PocketEx Proofs.PocketOpEx Proofs.TabsMadeEx Proofs.FinerP.
Local Open Scope Qc_scope.
Local Open Scope list_scope.

Definition floors (r : result (list (list edge))) : list Z := match r with Ok ls => map (fun w => qfloor (tk_zmin flat_tk w)) ls | Err _ => [] end.
Definition run_heights (r : result (list motion)) : list Z := match r with Ok cmds => cut_heights cmds | Err _ => [] end.
Lemma ex_finer :
  lifts flat_tk follow_wk tab_square /\ clear_of_top flat_tk follow_wk (j_top ex_job) tab_square /\ qz 2 = qz (Z.of_nat 2) * 1 /\
  offsets_of K0 follow_wk (j_top ex_job) (qq 3 2) [tab_square] (Some 0) [tab_square] /\
  floors (profile_toolpaths flat_tk follow_wk ex_job (Some (qz 2)) edge_tabs tab_square) = [-1; -3; -5]%Z /\
  floors (profile_toolpaths flat_tk follow_wk ex_job (Some 1) edge_tabs tab_square) = [-1; -2; -3; -4; -5]%Z.
Proof.
  split; [exact tab_square_lifts|]. split; [exact tab_square_clear|]. split; [apply Qc_is_canon; reflexivity|]. split; [exists [[tab_square]]; split; [constructor; [reflexivity|constructor]|reflexivity]|]. split; vm_compute; reflexivity.
Qed.
Lemma ex_finer_pocket : 
  run_heights (pocket K0 flat_wk rect_fk box_engine 20 EngClipper ex_job [rface 0 0 10 8 (-4)] None (down_args (qz 2))) = [-2; -4]%Z /\
  run_heights (pocket K0 flat_wk rect_fk box_engine 20 EngClipper ex_job [rface 0 0 10 8 (-4)] None (down_args 1)) = [-1; -2; -3; -4]%Z.
Proof. split; vm_compute; reflexivity. Qed.
Lemma finer_plane_refuted : exists TK WK j base m s s' ls ls' w, lifts TK WK base /\ (1 <= m)%nat /\ 0 < s' /\ s = qz (Z.of_nat m) * s' /\
  profile_layers TK WK j base (Some s) = Ok ls /\ profile_layers TK WK j base (Some s') = Ok ls' /\ In w ls /\
  forall v, In v ls' -> tk_zmin TK v + (s' + s') <= tk_zmin TK w.
Proof.
  set (base := zrect 0 0 20 10 (-6)).
  assert (X : match profile_layers flat_tk flat_wk low_job base (Some (qz 5)), profile_layers flat_tk flat_wk low_job base (Some 1) with
    Ok ls, Ok ls' => existsb (fun w => qeqb (tk_zmin flat_tk w) (- (1))) ls && forallb (fun v => qleb (tk_zmin flat_tk v + (1 + 1)) (- (1))) ls' | _, _ => false end = true) by (vm_compute; reflexivity).
  destruct (profile_layers flat_tk flat_wk low_job base (Some (qz 5))) as [ls|] eqn:E; [|discriminate]. destruct (profile_layers flat_tk flat_wk low_job base (Some 1)) as [ls'|] eqn:E'; [|discriminate].
  apply andb_true_iff in X as (X & Y). apply existsb_exists in X as (w & Hw & X). apply qeqb_eq in X. rewrite forallb_forall in Y.
  exists flat_tk, flat_wk, low_job, base, 5%nat, (qz 5), 1, ls, ls', w. split; [apply rectangle_lifts|]. split; [repeat constructor|]. split; [reflexivity|]. split; [apply Qc_is_canon; reflexivity|]. split; [exact E|]. split; [exact E'|]. split; [exact Hw|].
  intros v Hv. rewrite X. apply qleb_le, Y, Hv.
Qed.

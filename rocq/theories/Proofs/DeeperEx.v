(** Examples for Props/Deeper.v. *)
From Verif Require Import Base.Str Base.Py Model.Geometry Model.Plane Model.Edges Model.Job Model.Routers Model.Tabs Model.Profile Model.Pocket
  Spec.Paths Spec.Profiles Spec.Layers Spec.Deeper Proofs.RouteEx Proofs.TabsEx Proofs.ProfileEx Proofs.LayersEx Proofs.PocketEx Proofs.FinerEx.
Local Open Scope Qc_scope.
Local Open Scope list_scope.

Lemma box_flat : contains_flat box_engine. Proof. intros f g d. reflexivity. Qed.
Lemma ex_deeper : contains_flat box_engine /\
  run_heights (pocket_clipper box_engine 10 ex_job (map (with_depth (qz (-3))) [box_pocket]) [] 0 0 0 0 1 (Some (qz 2))) = [-2; -3]%Z /\
  run_heights (pocket_clipper box_engine 10 ex_job (map (with_depth (qz (-7))) [box_pocket]) [] 0 0 0 0 1 (Some (qz 2))) = [-2; -4; -6; -7]%Z.
Proof. split; [exact box_flat|]. split; vm_compute; reflexivity. Qed.
Lemma deeper_profile : exists TK WK j base base' s d ls ls', lifts TK WK base /\ lifts TK WK base' /\ 0 < d /\ 0 < s /\ base = wk_moved WK base' d /\
  profile_layers TK WK j base (Some s) = Ok ls /\ profile_layers TK WK j base' (Some s) = Ok ls' /\ (2 <= length ls)%nat /\
  forall w w', In w ls -> In w' ls' -> tk_zmin TK w <> tk_zmin TK w'.
Proof.
  set (base' := zrect 0 0 20 10 (-5)). set (base := wk_moved flat_wk base' 1).
  assert (X : match profile_layers flat_tk flat_wk ex_job base (Some (qz 2)), profile_layers flat_tk flat_wk ex_job base' (Some (qz 2)) with
    Ok ls, Ok ls' => Nat.leb 2 (length ls) && forallb (fun w => forallb (fun v => negb (qeqb (tk_zmin flat_tk w) (tk_zmin flat_tk v))) ls') ls | _, _ => false end = true) by (vm_compute; reflexivity).
  destruct (profile_layers flat_tk flat_wk ex_job base (Some (qz 2))) as [ls|] eqn:E; [|discriminate]. destruct (profile_layers flat_tk flat_wk ex_job base' (Some (qz 2))) as [ls'|] eqn:E'; [|discriminate].
  apply andb_true_iff in X as (X & Y). rewrite forallb_forall in Y.
  exists flat_tk, flat_wk, ex_job, base, base', (qz 2), 1, ls, ls'.
  split; [unfold base, base', zrect; intros dz; destruct flat_tk_rigid as [R1 R2]; pose proof (R2 _ _ 1 (rectangle_flat (qz 0) (qz 0) (qz 20) (qz 10) (qz (-5)))) as F; rewrite (R1 _ _ (R2 _ _ dz F)), (R1 _ _ F); reflexivity|]. split; [apply rectangle_lifts|]. split; [reflexivity|]. split; [reflexivity|]. split; [reflexivity|].
  split; [exact E|]. split; [exact E'|]. split; [apply Nat.leb_le, X|].
  intros w w' Hw Hw' Q. specialize (Y w Hw). rewrite forallb_forall in Y. specialize (Y w' Hw'). rewrite Q, qeqb_refl in Y. discriminate Y.
Qed.
(** An avoid area that covers everything. *)
Definition cover_engine : engine := Engine
  (fun p o _ => if qeqb o 0 then Ok [p] else Ok [])
  (fun ss _ => Ok (map (fun s => PNode s []) ss))
  (fun ss cs => match cs with [] => Ok (map (fun s => PNode s []) ss) | _ => Ok [] end)
  (fun _ _ => Ok false).
Lemma avoid_between : exists E fuel j areas avoids so s d d' cmds, contains_flat E /\ 0 < s /\ d' <= d /\ d <= 0 /\ (forall f, In f avoids -> d' < pf_depth f) /\
  pocket_clipper E fuel j (map (with_depth d) areas) avoids 0 0 0 0 so (Some s) = Ok cmds /\ (4 < length cmds)%nat /\
  pocket_clipper E fuel j (map (with_depth d') areas) avoids 0 0 0 0 so (Some s) = Ok [].
Proof.
  assert (X : match pocket_clipper cover_engine 10 ex_job (map (with_depth (qz (-2))) [box_pocket]) [with_depth (qz (-4)) box_pocket] 0 0 0 0 1 (Some 1) with
    Ok cmds => Nat.ltb 4 (length cmds) | Err _ => false end = true) by (vm_compute; reflexivity).
  destruct (pocket_clipper cover_engine 10 ex_job (map (with_depth (qz (-2))) [box_pocket]) [with_depth (qz (-4)) box_pocket] 0 0 0 0 1 (Some 1)) as [cmds|] eqn:E; [|discriminate].
  exists cover_engine, 10%nat, ex_job, [box_pocket], [with_depth (qz (-4)) box_pocket], 1, 1, (qz (-2)), (qz (-6)), cmds.
  split; [intros f g z; reflexivity|]. split; [reflexivity|]. split; [discriminate|]. split; [discriminate|]. split; [intros f [<-|[]]; reflexivity|]. split; [exact E|]. split; [apply Nat.ltb_lt, X|].
  vm_compute. reflexivity.
Qed.
Definition high_avoid : pathface := with_depth (qz (-1)) box_pocket.
Definition beside_engine : engine := Engine (en_offset box_engine) (en_union box_engine) (fun ss _ => Ok (map (fun s => PNode s []) ss)) (en_contains box_engine).
Lemma ex_beside : contains_flat beside_engine /\ qz (-3) <= pf_depth high_avoid /\
  run_heights (pocket_clipper beside_engine 10 ex_job (map (with_depth (qz (-3))) [box_pocket]) [high_avoid] 0 0 0 0 1 (Some (qz 2))) = [-2; -3]%Z /\
  run_heights (pocket_clipper beside_engine 10 ex_job (map (with_depth (qz (-7))) [box_pocket]) [high_avoid] 0 0 0 0 1 (Some (qz 2))) = [-2; -4; -6; -7]%Z.
Proof. split; [intros f g d; reflexivity|]. split; [discriminate|]. split; vm_compute; reflexivity. Qed.
Lemma box_one_piece os vs r : mapM (fun f => offset_polyface box_engine f 0 0 (j_precision ex_job)) (map (with_depth (qz (-3))) [box_pocket]) = Ok os ->
  mapM (fun f => offset_polyface box_engine f 0 0 (j_precision ex_job)) [] = Ok vs -> build_pocket_ops box_engine (concat os) (concat vs) = Ok r -> exists g, r = [g].
Proof.
  intros H V B. injection V as <-. cbn [concat] in B. assert (X : match mapM (fun f => offset_polyface box_engine f 0 0 (j_precision ex_job)) (map (with_depth (qz (-3))) [box_pocket]) with
    Ok os => match build_pocket_ops box_engine (concat os) [] with Ok r => Nat.eqb (length r) 1 | Err _ => false end | Err _ => false end = true) by (vm_compute; reflexivity).
  rewrite H, B in X. destruct r as [|g [|g' r]]; try discriminate X. exists g. reflexivity.
Qed.

(** A kernel that makes straight edges anew when it moves them. *)
Definition relift (dz : Qc) (e : edge) : edge := line (e_id e) (e_reversed e) (lift dz (e_startPoint e)) (lift dz (e_endPoint e)).
Definition anew_wk : wire_kernel := {|
  wk_transform := wk_transform flat_wk; wk_offset := wk_offset flat_wk; wk_area := wk_area flat_wk; wk_relocate := wk_relocate flat_wk;
  wk_moved := fun w dz => map (relift dz) w; wk_below := wk_below flat_wk |}.
Lemma anew_adds w a b : wk_moved anew_wk (wk_moved anew_wk w a) b = wk_moved anew_wk w (a + b).
Proof.
  cbn [anew_wk wk_moved]. rewrite map_map. apply map_ext. intros e. unfold relift, line, lift. cbn [e_startPoint e_endPoint e_id e_reversed vx vy vz].
  rewrite <- !Qcplus_assoc. reflexivity.
Qed.
Lemma anew_lifts x0 y0 x1 y1 z : lifts flat_tk anew_wk (rectangle x0 y0 x1 y1 z).
Proof. exact (rectangle_lifts x0 y0 x1 y1 z). Qed.
Lemma ex_deeper_profile : let base' := zrect 0 0 20 10 (-7) in let base := wk_moved anew_wk base' (qz 2 * qz (Z.of_nat 2)) in
  (forall a b, wk_moved anew_wk (wk_moved anew_wk base' a) b = wk_moved anew_wk base' (a + b)) /\ lifts flat_tk anew_wk base' /\ clear_of_top flat_tk anew_wk (j_top ex_job) base' /\
  tk_zmin flat_tk base < qq (-1) 1000 /\
  floors (profile_layers flat_tk anew_wk ex_job base (Some (qz 2))) = [-1; -3]%Z /\ floors (profile_layers flat_tk anew_wk ex_job base' (Some (qz 2))) = [-1; -3; -5; -7]%Z.
Proof.
  cbv zeta. split; [intros a b; apply anew_adds|]. split; [apply anew_lifts|]. split; [exact (rectangle_clear (qz 0) (qz 0) (qz 20) (qz 10) (qz (-7)))|].
  split; [vm_compute; reflexivity|]. split; vm_compute; reflexivity.
Qed.

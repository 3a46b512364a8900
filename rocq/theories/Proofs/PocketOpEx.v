(** Examples and witnesses for Props/PocketOp.v. *)
From Verif Require Import Base.Str Base.Py Model.Geometry Model.Plane Model.Tree Model.Edges Model.Routers Model.Groups Model.Interp Model.PocketOp
  Spec.Paths Spec.Moves Spec.Wires Spec.Contours Spec.Pockets Spec.PocketCq
  Proofs.GeomP Proofs.RouteEx Proofs.ProfileEx Proofs.PocketEx Proofs.PocketOpP.
Import Model.Pocket.
Local Open Scope Qc_scope.
Local Open Scope list_scope.

(** Level faces with straight sides; faces further apart than a box are not changed by a cut. *)
Record rect_face := RF { rf_outer : list edge; rf_inners : list (list edge); rf_z : Qc }.
Definition shift (v : vec) (u : vec) : vec := vadd u v.
Definition moved_by (v : vec) (f : rect_face) : rect_face :=
  RF (map (map_edge (shift v)) (rf_outer f)) (map (map (map_edge (shift v))) (rf_inners f)) (rf_z f + vz v).
Definition boxes_apart (f g : rect_face) : bool :=
  let c := corners (rf_outer f) in let d := corners (rf_outer g) in
  qltb (hi vx c) (lo vx d) || qltb (hi vx d) (lo vx c) || qltb (hi vy c) (lo vy d) || qltb (hi vy d) (lo vy c).
Definition rect_fk : face_kernel := {|
  fk_face := rect_face;
  fk_transform := fun top f =>
    RF (map (map_edge (to_local top)) (rf_outer f)) (map (map (map_edge (to_local top))) (rf_inners f))
       (lo vz (map (to_local top) (corners (rf_outer f))));
  fk_zmin := rf_z; fk_zmax := rf_z; fk_outer := rf_outer; fk_inners := rf_inners;
  fk_basis := fun _ => Err KeyError;
  fk_make := fun o ins => Ok (RF o ins (lo vz (corners o)));
  fk_translate := fun f v => moved_by v f;
  fk_combine := fun fs => Ok fs;
  fk_cut := fun f tools => if forallb (boxes_apart f) tools then Ok [f] else Err KernelError |}.
Lemma rect_fk_moves : moves_faces rect_fk.
Proof. intros f v. split; reflexivity. Qed.

Definition rface (x0 y0 x1 y1 z : Z) : rect_face := RF (zrect x0 y0 x1 y1 z) [] (qz z).
Definition no_args : pocket_args := PA None None None None None None.
Definition down_args (s : Qc) : pocket_args := PA None None None None None (Some s).

(** ** Engine clipper *)
Definition clipper_cmds : list motion :=
  motions (pocket K0 flat_wk rect_fk box_engine 20 EngClipper ex_job [rface 0 0 10 8 (-2)] None (down_args 1)).
Lemma clipper_runs : pocket K0 flat_wk rect_fk box_engine 20 EngClipper ex_job [rface 0 0 10 8 (-2)] None (down_args 1) = Ok clipper_cmds /\
  cut_heights clipper_cmds = [-1; -2]%Z /\ clipper_cmds <> [].
Proof. split; [apply motions_ok; vm_compute; reflexivity|]. split; [vm_compute; reflexivity|]. intros C. vm_compute in C. discriminate C. Qed.

(** ** Engine cq *)
Definition cq_cmds (s : option Qc) : list motion :=
  motions (pocket K0 flat_wk rect_fk box_engine 20 EngCq ex_job [rface 0 0 10 8 (-5)] None (PA None None None None None s)).
Lemma cq_runs : pocket K0 flat_wk rect_fk box_engine 20 EngCq ex_job [rface 0 0 10 8 (-5)] None (down_args 1) = Ok (cq_cmds (Some 1)) /\
  cut_heights (cq_cmds (Some 1)) = [-5]%Z.
Proof. split; [apply motions_ok; vm_compute; reflexivity|]. vm_compute; reflexivity. Qed.

(** Cuts and what they reach. *)
Definition is_rapid (m : motion) : bool := match m with MRapid _ _ _ _ => true | _ => false end.
Lemma is_rapid_iff m : is_rapid m = true <-> rapid m.
Proof. destruct m; cbn; split; intros H; try exact I; try discriminate H; try destruct H; reflexivity. Qed.
Definition az_is (z : Qc) (v : avec) : bool := match az v with Some x => qeqb x z | None => false end.
Lemma az_is_eq z v : az_is z v = true -> az v = Some z.
Proof. unfold az_is. destruct (az v) as [x|]; [|discriminate]. intros H. apply qeqb_eq in H. subst. reflexivity. Qed.
Lemma all_cuts_at z cmds : forallb (fun m => is_rapid m || az_is z (m_end m)) cmds = true ->
  Forall (fun m => ~ rapid m -> az (m_end m) = Some z) cmds.
Proof.
  intros H. apply Forall_forall. intros m Hm N. rewrite forallb_forall in H. specialize (H m Hm). apply orb_true_iff in H.
  destruct H as [H|H]; [apply is_rapid_iff in H; contradiction|]. apply az_is_eq, H.
Qed.
Definition cut_beyond (f : pt -> bool) (m : motion) : bool :=
  negb (is_rapid m) && match xy (m_end m) with Some p => f p | None => false end.
Lemma some_cut_beyond f cmds : existsb (cut_beyond f) cmds = true ->
  exists m p, In m cmds /\ ~ rapid m /\ xy (m_end m) = Some p /\ f p = true.
Proof.
  intros H. apply existsb_exists in H. destruct H as (m & Hm & H). unfold cut_beyond in H. apply andb_true_iff in H. destruct H as [H1 H2].
  destruct (xy (m_end m)) as [p|] eqn:E; [|discriminate H2]. exists m, p. split; [exact Hm|]. split; [|auto].
  intros C. apply is_rapid_iff in C. rewrite C in H1. discriminate H1.
Qed.

(** A stepdown of 1 mm, and all cuts at -5. *)
Lemma cq_one_pass : exists K WK F E fuel j areas a s z cmds,
  pa_stepdown a = Some s /\ 0 < s /\ z < - s /\ moves_faces F /\
  pocket K WK F E fuel EngCq j areas None a = Ok cmds /\
  Forall (fun m => ~ rapid m -> az (m_end m) = Some z) cmds /\ (exists m, In m cmds /\ ~ rapid m).
Proof.
  exists K0, flat_wk, rect_fk, box_engine, 20%nat, ex_job, [rface 0 0 10 8 (-5)], (down_args 1), 1, (qz (-5)), (cq_cmds (Some 1)).
  split; [reflexivity|]. split; [reflexivity|]. split; [reflexivity|]. split; [apply rect_fk_moves|]. split; [apply cq_runs|].
  split; [apply all_cuts_at; vm_compute; reflexivity|].
  destruct (some_cut_beyond (fun _ => true) (cq_cmds (Some 1))) as (m & p & H1 & H2 & _); [vm_compute; reflexivity|]. exists m. split; [exact H1|exact H2].
Qed.

(** A job on the YZ plane: faces are lifted along the global X axis, which is the local Z axis. *)
Definition plane_yz : plane := PL (V3 0 0 0) (V3 0 1 0) (V3 0 0 1) (V3 1 0 0).
Definition yz_job : job :=
  new_job plane_yz (PInt 300) None (Some (qz 3)) None "part" (Some (PInt 100)) None None 3 METRIC
          PLANE_XY OFFSET_1 ABSOLUTE ARC_ABSOLUTE CONTINUOUS None.
Definition on_yz (v : vec) : vec := V3 (vz v) (vx v) (vy v).
Definition yz_face (x0 y0 x1 y1 z : Z) : rect_face := RF (map (map_edge on_yz) (zrect x0 y0 x1 y1 z)) [] 0.
Definition yz_cmds : list motion :=
  motions (pocket K0 flat_wk rect_fk box_engine 20 EngCq yz_job [yz_face 0 0 10 8 (-1); yz_face 0 0 10 8 (-4)] None no_args).
Lemma yz_runs : pocket K0 flat_wk rect_fk box_engine 20 EngCq yz_job [yz_face 0 0 10 8 (-1); yz_face 0 0 10 8 (-4)] None no_args = Ok yz_cmds.
Proof. apply motions_ok. vm_compute. reflexivity. Qed.

Definition edges_within (lim : Qc) (es : list edge) : bool :=
  forallb (fun e => qleb (vx (e_startPoint e)) lim && qleb (vx (e_endPoint e)) lim) es.
Lemma edges_within_ok lim es : edges_within lim es = true ->
  forall e, In e es -> vx (e_startPoint e) <= lim /\ vx (e_endPoint e) <= lim.
Proof.
  intros H e He. unfold edges_within in H. rewrite forallb_forall in H. specialize (H e He). apply andb_true_iff in H.
  destruct H as [H1 H2]. apply qleb_le in H1, H2. auto.
Qed.
Lemma cq_sideways : exists K WK F E fuel j areas r lim cmds m p,
  moves_faces F /\ tool_radius j = Some r /\
  (forall f e, In f areas -> In e (fk_outer F (fk_transform F (j_top j) f)) -> vx (e_startPoint e) <= lim /\ vx (e_endPoint e) <= lim) /\
  pocket K WK F E fuel EngCq j areas None no_args = Ok cmds /\
  In m cmds /\ ~ rapid m /\ xy (m_end m) = Some p /\ lim < fst p + r.
Proof.
  destruct (some_cut_beyond (fun p => qltb (qz 10) (fst p + qq 3 2)) yz_cmds) as (m & p & H1 & H2 & H3 & H4); [vm_compute; reflexivity|].
  exists K0, flat_wk, rect_fk, box_engine, 20%nat, yz_job, [yz_face 0 0 10 8 (-1); yz_face 0 0 10 8 (-4)], (qq 3 2), (qz 10), yz_cmds, m, p.
  split; [apply rect_fk_moves|].
  split; [reflexivity|].
  split. { intros f e [<-|[<-|[]]] He; (eapply edges_within_ok; [|exact He]); vm_compute; reflexivity. }
  split; [exact yz_runs|]. split; [exact H1|]. split; [exact H2|]. split; [exact H3|]. apply qltb_lt, H4.
Qed.

(** An area to avoid elsewhere (and deeper): the outline is now cut by the tool's centre. *)
Definition avoid_cmds : list motion :=
  motions (pocket K0 flat_wk rect_fk box_engine 20 EngClipper ex_job [rface 0 0 10 8 (-2)] (Some [rface 50 0 60 8 (-4)]) no_args).
Lemma outline_overrun : exists K WK F E fuel j areas avoids r lim cmds cmds' m p,
  tool_radius j = Some r /\
  (forall f e, In f areas -> In e (fk_outer F (fk_transform F (j_top j) f)) -> vx (e_startPoint e) <= lim /\ vx (e_endPoint e) <= lim) /\
  pocket K WK F E fuel EngClipper j areas None no_args = Ok cmds /\
  (forall m p, In m cmds -> ~ rapid m -> xy (m_end m) = Some p -> fst p + r <= lim) /\
  pocket K WK F E fuel EngClipper j areas (Some avoids) no_args = Ok cmds' /\
  In m cmds' /\ ~ rapid m /\ xy (m_end m) = Some p /\ lim < fst p + r.
Proof.
  destruct (some_cut_beyond (fun p => qltb (qz 10) (fst p + qq 3 2)) avoid_cmds) as (m & p & H1 & H2 & H3 & H4); [vm_compute; reflexivity|].
  set (free := motions (pocket K0 flat_wk rect_fk box_engine 20 EngClipper ex_job [rface 0 0 10 8 (-2)] None no_args)).
  exists K0, flat_wk, rect_fk, box_engine, 20%nat, ex_job, [rface 0 0 10 8 (-2)], [rface 50 0 60 8 (-4)], (qq 3 2), (qz 10), free, avoid_cmds, m, p.
  split; [reflexivity|].
  split. { intros f e [<-|[]] He; (eapply edges_within_ok; [|exact He]); vm_compute; reflexivity. }
  split; [apply motions_ok; vm_compute; reflexivity|].
  split. { intros m' p' Hm' N' Hp'.
    assert (B : existsb (cut_beyond (fun p => qltb (qz 10) (fst p + qq 3 2))) free = false) by (vm_compute; reflexivity).
    destruct (qltb (qz 10) (fst p' + qq 3 2)) eqn:E; [|apply qltb_nlt, E]. exfalso.
    assert (C : existsb (cut_beyond (fun p => qltb (qz 10) (fst p + qq 3 2))) free = true).
    { apply existsb_exists. exists m'. split; [exact Hm'|]. unfold cut_beyond. rewrite Hp', E. destruct (is_rapid m') eqn:R; [apply is_rapid_iff in R; contradiction|reflexivity]. }
    rewrite B in C. discriminate C. }
  split; [apply motions_ok; vm_compute; reflexivity|].
  split; [exact H1|]. split; [exact H2|]. split; [exact H3|]. apply qltb_lt, H4.
Qed.

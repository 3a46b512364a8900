(** * Proofs: the pocket operation, both engines *)
From Verif Require Import Base.Str Base.Py Model.Geometry Model.Plane Model.Tree Model.Edges Model.Routers Model.Interp Model.PocketOp
  Spec.Paths Spec.Moves Spec.Wires Spec.Contours Spec.Pockets Spec.PocketCq
  Proofs.GeomP Proofs.RouteP Proofs.RouteThmP Proofs.FillP Proofs.PocketP Proofs.StepdownP Proofs.FillWireP Proofs.PocketCqP.
Import Model.Pocket.
From Coq Require Import Permutation Arith Lia.
Local Open Scope Qc_scope.
Local Open Scope list_scope.

(** ** Filling a face *)
Lemma cut_outers_spec F islands : forall cand l, cut_outers F islands cand = Ok l <->
  exists parts, Forall2 (fun c ws => fk_make F c [] = Err KernelError /\ ws = [] \/
                  exists f fs, fk_make F c [] = Ok f /\ fk_cut F f islands = Ok fs /\ ws = map (fk_outer F) fs) cand parts /\
    l = concat parts.
Proof.
  induction cand as [|c cand IH]; intros l; cbn [cut_outers].
  - split; [intros H; injection H as <-; exists []; split; [constructor|reflexivity]|].
    intros (parts & HF & ->). inversion HF. reflexivity.
  - split.
    + intros H. destruct (fk_make F c []) as [f|x] eqn:EM.
      * apply rbind_ok in H. destruct H as (fs & EC & H). apply rbind_ok in H. destruct H as (rest & ER & H). injection H as <-.
        apply IH in ER. destruct ER as (parts & HF & ->). exists (map (fk_outer F) fs :: parts). split; [|reflexivity].
        constructor; [right; exists f, fs; auto|exact HF].
      * destruct x; try discriminate H. apply IH in H. destruct H as (parts & HF & ->). exists ([] :: parts). split; [|reflexivity].
        constructor; [left; auto|exact HF].
    + intros (parts & HF & ->). inversion HF as [|c0 ws cand0 parts0 HC HF0]; subst.
      assert (ER : cut_outers F islands cand = Ok (concat parts0)) by (apply IH; eauto).
      destruct HC as [[EM ->]|(f & fs & EM & EC & ->)]; rewrite EM; [rewrite ER; reflexivity|].
      rewrite EC. cbn [rbind]. rewrite ER. reflexivity.
Qed.
Lemma next_wires_iff K WK F islands step w l : next_wires K WK F islands step w = Ok l <-> cq_inward K WK F step islands w l.
Proof.
  unfold next_wires, cq_inward. split.
  - intros H. apply rbind_ok in H. destruct H as (cand & EO & H). exists cand. split; [exact EO|].
    destruct islands as [|i is]; [left; injection H as <-; auto|right]. split; [discriminate|]. apply cut_outers_spec, H.
  - intros (cand & EO & H). rewrite EO. cbn [rbind]. destruct H as [[-> ->]|(NE & H)]; [reflexivity|].
    destruct islands as [|i is]; [contradiction|]. apply cut_outers_spec, H.
Qed.

Lemma reached_iff {C} (P Q : C -> list C -> Prop) o : (forall c l, P c l <-> Q c l) -> forall a c, reached P o a c -> reached Q o a c.
Proof. intros H a c. induction 1 as [|a c l k c' Hr IH HN HK]; [constructor|]. econstructor; [exact IH|apply H, HN|exact HK]. Qed.
Lemma wire_filling_iff (P Q : list edge -> list (list edge) -> Prop) o ss : (forall c l, P c l <-> Q c l) ->
  wire_filling P o ss -> wire_filling Q o ss.
Proof.
  intros H (addrs & H1 & H2 & H3 & H4).
  assert (H' : forall c l, Q c l <-> P c l) by (intros; symmetry; apply H).
  exists addrs. split; [|split; [exact H2|split]].
  - clear - H1 H. induction H1 as [|s fs addrs ss Hs _ IH]; constructor; [|exact IH].
    induction Hs as [|a f s fs Ha _ IH2]; constructor; [apply (reached_iff P Q _ H), Ha|exact IH2].
  - intros a c Hr. eapply H3. apply (reached_iff Q P _ H'), Hr.
  - eapply Forall_impl; [|exact H4]. intros s (Ho & a & rest & -> & Hn). split; [exact Ho|]. exists a, rest. split; [reflexivity|].
    intros c Hr. apply H, Hn, (reached_iff Q P _ H'), Hr.
Qed.

Lemma fill_face_spec K WK F fuel p step ss : fill_face K WK F fuel p step = Ok ss ->
  exists islands, Forall2 (fun w f => fk_make F w [] = Ok f) (fk_inners F p) islands /\
    wire_filling (cq_inward K WK F step islands) (fk_outer F p) ss.
Proof.
  unfold fill_face. intros H. apply rbind_ok in H. destruct H as (islands & EI & H). apply mapM_iff in EI.
  apply rbind_ok in H. destruct H as (t & HL & H). destruct (fill_spec _ _ _ _ HL) as (s & ES & HF & _).
  rewrite ES in H. cbn [rbind] in H. injection H as <-. exists islands. split; [exact EI|].
  eapply wire_filling_iff; [|exact HF]. intros c l. apply next_wires_iff.
Qed.

(** The loop ends if there are finitely many wires and the kernel has no errors on them. *)
Lemma fill_face_ends K WK F fuel p step islands (B : list (list nat)) :
  Forall2 (fun w f => fk_make F w [] = Ok f) (fk_inners F p) islands ->
  (forall a c, reached (cq_inward K WK F step islands) (fk_outer F p) a c -> In a B /\ exists l, cq_inward K WK F step islands c l) ->
  (length B < fuel)%nat -> exists ss, fill_face K WK F fuel p step = Ok ss.
Proof.
  intros HI HB HF. unfold fill_face. rewrite (proj2 (mapM_iff _ _ _) HI). cbn [rbind].
  assert (HR : forall a c, reached (fun c l => next_wires K WK F islands step c = Ok l) (fk_outer F p) a c ->
                           reached (cq_inward K WK F step islands) (fk_outer F p) a c)
    by (apply reached_iff; intros; apply next_wires_iff).
  destruct (fill_ends (next_wires K WK F islands step) (fk_outer F p) B) with (fuel := fuel) (t := new_tree (O, fk_outer F p))
    (ad := [@nil nat]) (done := @nil nat) as (t & HL).
  - intros a c H. eapply HB, HR, H.
  - intros a c H. destruct (HB a c (HR a c H)) as (_ & l & K1). exists l. apply next_wires_iff, K1.
  - apply inv_init.
  - constructor.
  - intros i [].
  - cbn [length]. lia.
  - rewrite HL. cbn [rbind]. destruct (fill_spec _ _ _ _ HL) as (s & ES & _). rewrite ES. cbn [rbind]. eauto.
Qed.

(** ** Offsetting faces *)
Lemma offset_cq_face_iff K WK F f oo io fs : offset_cq_face K WK F f oo io = Ok fs <-> cq_offset K WK F oo io f fs.
Proof.
  unfold offset_cq_face, cq_offset. split.
  - intros H. apply rbind_ok in H. destruct H as (outers & EO & H). apply rbind_ok in H. destruct H as (ins & EI & H).
    apply mapM_iff in EI, H. exists outers, ins. auto.
  - intros (outers & ins & EO & EI & H). rewrite EO. cbn [rbind]. rewrite (proj2 (mapM_iff _ _ _) EI). cbn [rbind]. apply mapM_iff, H.
Qed.

(** ** Routing *)
Lemma route_wire_sequences_spec K j so : forall ss d pp cmds, route_wire_sequences K j so d pp ss = Ok cmds ->
  exists gs, cmds = concat gs /\
    Forall2 (fun s g => exists p, route_wires K j (map WWire s) (Some so) (Some p) = Ok g) ss gs.
Proof.
  induction ss as [|s ss IH]; intros d pp cmds H; cbn [route_wire_sequences] in H.
  - injection H as <-. exists []. split; [reflexivity|constructor].
  - apply rbind_ok in H. destruct H as (g & EG & H).
    assert (H2 : exists rest, route_wire_sequences K j so true (last_end g pp) ss = Ok rest /\ cmds = g ++ rest).
    { destruct g as [|m g], d; try discriminate H; apply rbind_ok in H; destruct H as (rest & ER & H); injection H as <-; exists rest; auto. }
    destruct H2 as (rest & ER & ->). destruct (IH _ _ _ ER) as (gs & -> & HF). exists (g :: gs). split; [reflexivity|].
    constructor; [eauto|exact HF].
Qed.
Lemma route_wire_sequences_empty K j so s ss pp : route_wires K j (map WWire s) (Some so) (Some pp) = Ok [] ->
  route_wire_sequences K j so false pp (s :: ss) = Err IndexError.
Proof. intros H. cbn [route_wire_sequences]. rewrite H. reflexivity. Qed.

Lemma pocket_cq_spec K WK F fuel j areas avoids oo io ao ai so cmds :
  pocket_cq K WK F fuel j areas avoids oo io ao ai so = Ok cmds ->
  exists offs avs pockets fills gs,
    Forall2 (cq_offset K WK F oo io) areas offs /\ Forall2 (cq_offset K WK F ao ai) avoids avs /\
    cq_levels F (j_top j) (concat offs) (concat avs) pockets /\
    Forall2 (fun p ss => exists islands, Forall2 (fun w f => fk_make F w [] = Ok f) (fk_inners F p) islands /\
               wire_filling (cq_inward K WK F so islands) (fk_outer F p) ss) pockets fills /\
    cmds = concat gs /\ Forall2 (cq_routed K j) (concat fills) gs /\
    Forall (fun m => (rapid m -> safe_rapid (j_rapid_height j) (j_op_safe_height j) m) /\
                     (~ rapid m -> feed_ok (j_op_safe_height j) (j_plunge_feed j) (j_feed j) m)) cmds.
Proof.
  unfold pocket_cq. intros H. apply rbind_ok in H. destruct H as (offs & E1 & H). apply rbind_ok in H. destruct H as (avs & E2 & H).
  apply rbind_ok in H. destruct H as (pockets & E3 & H). apply rbind_ok in H. destruct H as (fills & E4 & H).
  apply mapM_iff in E1, E2, E4. apply face_ops_spec in E3.
  destruct (route_wire_sequences_spec _ _ _ _ _ _ _ H) as (gs & -> & HG).
  exists offs, avs, pockets, fills, gs.
  split; [eapply Forall2_impl; [|exact E1]; intros a b; apply offset_cq_face_iff|].
  split; [eapply Forall2_impl; [|exact E2]; intros a b; apply offset_cq_face_iff|].
  split; [exact E3|].
  split; [eapply Forall2_impl; [|exact E4]; intros a b; apply fill_face_spec|].
  split; [reflexivity|]. split.
  - eapply Forall2_impl; [|exact HG]. intros s g (p & ER). split.
    + intros HN. eapply wires_covered; [exact ER|]. intros w Hw. apply in_map_iff in Hw. destruct Hw as (es & <- & Hes). apply HN, Hes.
    + intros (w & Hw & ->). eapply (wires_dropped _ _ _ _ _ _ (WWire [])); [exact ER| |reflexivity]. apply in_map. exact Hw.
  - clear - HG. induction HG as [|s g ss gs (p & ER) _ IH]; [constructor|]. cbn [concat]. apply Forall_app. split; [|exact IH].
    eapply wires_safe. exact ER.
Qed.

(** ** Heights of raised faces *)
Lemma raised_upright F top d f : moves_faces F -> p_zdir top = V3 0 0 1 ->
  fk_zmax F (raised_to F top d f) = d /\ fk_zmax F (moved_to F top d f) = d.
Proof.
  intros HM HZ.
  assert (K : fk_zmax F (moved_to F top d f) = d).
  { unfold moved_to. rewrite (proj1 (HM f _)), HZ. unfold vscale. cbn [vz]. ring. }
  split; [|exact K]. unfold raised_to. destruct (qeqb (fk_zmax F f) d) eqn:E; [apply qeqb_eq, E|exact K].
Qed.
(** In general a face ends up short of (or beyond) its level. *)
Lemma moved_height F top d f : moves_faces F ->
  fk_zmax F (moved_to F top d f) = fk_zmax F f + (d - fk_zmax F f) * vz (p_zdir top).
Proof. intros HM. unfold moved_to. rewrite (proj1 (HM f _)). unfold vscale. cbn [vz]. reflexivity. Qed.

Lemma moved_exactly F top d f : moves_faces F ->
  (fk_zmax F (moved_to F top d f) = d <-> fk_zmax F f = d \/ vz (p_zdir top) = 1).
Proof.
  intros HM. rewrite (moved_height F top d f HM). generalize (fk_zmax F f), (vz (p_zdir top)). intros h v. split.
  - intros E. destruct (Qc_eq_dec h d) as [->|N]; [left; reflexivity|right].
    assert (P : (d - h) * (v - 1) = 0) by (transitivity (h + (d - h) * v - d); [ring|rewrite E; ring]).
    apply Qcmult_integral in P as [P|P]; [exfalso; apply N|]; [transitivity (d - (d - h)); [ring|rewrite P; ring]|transitivity (v - 1 + 1); [ring|rewrite P; ring]].
  - intros [->| ->]; ring.
Qed.

(** ** Arguments *)
Lemma pocket_no_tool K WK F E fuel eng j areas avoids a : tool_radius j = None ->
  pocket K WK F E fuel eng j areas avoids a = Err TypeError.
Proof. intros H. unfold pocket. rewrite H. reflexivity. Qed.
Lemma pocket_other K WK F E fuel j areas avoids a r : tool_radius j = Some r ->
  pocket K WK F E fuel EngOther j areas avoids a = Err ValueError.
Proof. 
  intros H. unfold pocket. rewrite H.
  destruct (match avoids with None => [] | Some l => l end), (pa_outer a) as [[]|], (pa_inner a) as [[]|], (pa_avoid_outer a) as [[]|], (pa_avoid_inner a) as [[]|], (pa_stepover a) as [[]|]; reflexivity.
Qed.

Lemma calculate_offset_distance r o d : calculate_offset (Some r) o (Some (OMul d)) = Ok (distance r o d).
Proof.
  unfold calculate_offset, distance. destruct o as [[]|]; try reflexivity. destruct (qeqb d 0) eqn:E; [|reflexivity]. apply qeqb_eq in E. subst. reflexivity.
Qed.

Lemma pocket_clipper_spec K WK F E fuel j areas avoids a r : tool_radius j = Some r ->
  pocket K WK F E fuel EngClipper j areas avoids a =
  (do op_paths <- mapM (from_cq_face K F (j_precision j)) (map (fk_transform F (j_top j)) areas);
   do avoid_paths <- mapM (from_cq_face K F (j_precision j)) (map (fk_transform F (j_top j)) (listed avoids));
   pocket_clipper E fuel j op_paths avoid_paths (outer_distance r avoids a) (distance r (pa_inner a) 1)
     (distance r (pa_avoid_outer a) 1) (distance r (pa_avoid_inner a) (- (1))) (distance r (pa_stepover a) (qq 1 2)) (pa_stepdown a)).
Proof.
  intros H. unfold pocket. rewrite H, !calculate_offset_distance. cbn [rbind]. unfold outer_distance, listed.
  destruct avoids as [[|x l]|]; try reflexivity. destruct (pa_outer a) as [[]|]; reflexivity.
Qed.
Lemma pocket_cq_args K WK F E fuel j areas avoids a r : tool_radius j = Some r ->
  pocket K WK F E fuel EngCq j areas avoids a =
  pocket_cq K WK F fuel j (map (fk_transform F (j_top j)) areas) (map (fk_transform F (j_top j)) (listed avoids))
     (outer_distance r avoids a) (distance r (pa_inner a) 1)
     (distance r (pa_avoid_outer a) 1) (distance r (pa_avoid_inner a) (- (1))) (distance r (pa_stepover a) (qq 1 2)).
Proof.
  intros H. unfold pocket. rewrite H, !calculate_offset_distance. cbn [rbind]. unfold outer_distance, listed.
  destruct avoids as [[|x l]|]; try reflexivity. destruct (pa_outer a) as [[]|]; reflexivity.
Qed.

Lemma from_cq_face_ok K F pr f p : from_cq_face K F pr f = Ok p ->
  round_units (fk_zmin F f) 3 = round_units (fk_zmax F f) 3 /\ pf_depth p = fk_zmax F f /\
  wire_to_path (k_veq K) (fk_basis F) (fk_outer F f) pr = Ok (pf_outer p) /\
  Forall2 (fun w q => wire_to_path (k_veq K) (fk_basis F) w pr = Ok q) (fk_inners F f) (pf_inners p).
Proof.
  unfold from_cq_face. destruct (Z.eqb_spec (round_units (fk_zmin F f) 3) (round_units (fk_zmax F f) 3)) as [E|E]; cbn [negb]; [|discriminate].
  intros H. apply rbind_ok in H. destruct H as (o & EO & H). apply rbind_ok in H. destruct H as (ins & EI & H). injection H as <-.
  apply mapM_iff in EI. auto.
Qed.

Lemma radius_of K WK F E fuel eng j areas avoids a cmds : pocket K WK F E fuel eng j areas avoids a = Ok cmds ->
  exists r, tool_radius j = Some r.
Proof. intros H. destruct (tool_radius j) as [r|] eqn:ER; [eauto|]. rewrite pocket_no_tool in H by exact ER. discriminate H. Qed.

Lemma pocket_clipper_ok K WK F E fuel j areas avoids a cmds : pocket K WK F E fuel EngClipper j areas avoids a = Ok cmds ->
  exists r ps qs, tool_radius j = Some r /\
    Forall2 (fun f p => from_cq_face K F (j_precision j) (fk_transform F (j_top j) f) = Ok p) areas ps /\
    Forall2 (fun f p => from_cq_face K F (j_precision j) (fk_transform F (j_top j) f) = Ok p) (listed avoids) qs /\
    pocket_clipper E fuel j ps qs (outer_distance r avoids a) (distance r (pa_inner a) 1)
     (distance r (pa_avoid_outer a) 1) (distance r (pa_avoid_inner a) (- (1))) (distance r (pa_stepover a) (qq 1 2)) (pa_stepdown a) = Ok cmds.
Proof.
  intros H. destruct (radius_of _ _ _ _ _ _ _ _ _ _ _ H) as (r & ER). rewrite (pocket_clipper_spec _ _ _ _ _ _ _ _ _ _ ER) in H.
  apply rbind_ok in H. destruct H as (ps & E1 & H). apply rbind_ok in H. destruct H as (qs & E2 & H).
  exists r, ps, qs. split; [exact ER|].
  assert (M : forall l ps, mapM (from_cq_face K F (j_precision j)) (map (fk_transform F (j_top j)) l) = Ok ps ->
     Forall2 (fun f p => from_cq_face K F (j_precision j) (fk_transform F (j_top j) f) = Ok p) l ps).
  { intros l. induction l as [|f l IH]; intros us HU; cbn [map] in HU; [injection HU as <-; constructor|].
    apply mapM_iff in HU. inversion HU; subst. constructor; [assumption|]. apply IH, mapM_iff. assumption. }
  auto.
Qed.

Lemma pocket_flat K WK F E fuel j areas avoids a cmds f : pocket K WK F E fuel EngClipper j areas avoids a = Ok cmds ->
  In f (areas ++ listed avoids) ->
  round_units (fk_zmin F (fk_transform F (j_top j) f)) 3 = round_units (fk_zmax F (fk_transform F (j_top j) f)) 3.
Proof.
  intros H Hf. destruct (pocket_clipper_ok _ _ _ _ _ _ _ _ _ _ H) as (r & ps & qs & _ & H1 & H2 & _).
  apply in_app_or in Hf. destruct Hf as [Hf|Hf].
  - destruct (Forall2_in_l _ _ _ _ H1 Hf) as (p & _ & K1). apply (from_cq_face_ok _ _ _ _ _ K1).
  - destruct (Forall2_in_l _ _ _ _ H2 Hf) as (p & _ & K1). apply (from_cq_face_ok _ _ _ _ _ K1).
Qed.

Lemma whole_pocket_floor K WK F E fuel j areas avoids a cmds floor :
  pocket K WK F E fuel EngClipper j areas avoids a = Ok cmds ->
  floor <= 0 -> (forall f, In f areas -> floor <= fk_zmax F (fk_transform F (j_top j) f)) ->
  floor <= j_op_safe_height j -> floor <= j_rapid_height j ->
  continuous av_none cmds /\ Forall (above floor) cmds /\
  Forall (fun m => rapid m -> safe_rapid (j_rapid_height j) (j_op_safe_height j) m) cmds /\
  Forall (fun m => ~ rapid m -> exists d, floor <= d /\ ok_feed (j_op_safe_height j) (j_plunge_feed j) (j_feed j) d m) cmds.
Proof.
  intros H F0 HA HS HR. destruct (pocket_clipper_ok _ _ _ _ _ _ _ _ _ _ H) as (r & ps & qs & _ & H1 & H2 & HP).
  eapply pocket_floor; [exact HP|exact F0| |exact HS|exact HR].
  intros p Hp. destruct (Forall2_in_r _ _ _ _ H1 Hp) as (f & Hf & K1). destruct (from_cq_face_ok _ _ _ _ _ K1) as (_ & -> & _). apply HA, Hf.
Qed.

Lemma pocket_cq_stepdown K WK F E fuel j areas avoids a s : 
  pocket K WK F E fuel EngCq j areas avoids a =
  pocket K WK F E fuel EngCq j areas avoids (PA (pa_outer a) (pa_inner a) (pa_avoid_outer a) (pa_avoid_inner a) (pa_stepover a) s).
Proof. reflexivity. Qed.

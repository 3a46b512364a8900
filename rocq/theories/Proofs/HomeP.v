(** Proofs about home moves and the beginning of operations. *)
From Verif Require Import Base.Str Base.Py Spec.Gcode Spec.Blocks Spec.Machine Spec.Program Spec.Jobs Spec.Arcs Spec.Feeds Spec.Moves Spec.Pockets Spec.Home
  Model.Groups Model.Geometry Model.Plane Model.Edges Model.Job Model.Routers Model.Profile Model.Drill Model.Pocket Model.PocketOp Model.Strategy Model.Surface
  Spec.Drills Spec.Surfaces Proofs.MachineP Proofs.JobP Proofs.ProgramThmP Proofs.RouteP Proofs.PocketP Proofs.StepdownP Proofs.ProfileThmP Proofs.RouteThmP Proofs.DrillP Proofs.SurfaceP Proofs.SurfaceThmP Proofs.FeedP.
Local Open Scope list_scope.

(** ** Home moves *)
Lemma homes_app st a b : homes st (a ++ b) = homes st a ++ homes (fst (run st a)) b.
Proof.
  revert st. induction a as [|x a IH]; intros st; [reflexivity|]. cbn [app homes]. rewrite IH, run_cons, app_assoc. reflexivity.
Qed.
(** The last home move is the one of the closing safety block, from where the last motion ended. *)
Lemma homes_footer st j : ms_ended st = false ->
  exists st', homes st (footer_blocks j) = [st'] /\ ms_x st' = ms_x st /\ ms_y st' = ms_y st /\ ms_z st' = ms_z st /\ ms_spindle st' = ms_spindle st.
Proof.
  intros H. exists (fst (run st (firstn 3 safety_blocks))). destruct st. cbn in H. subst. split; [|repeat split].
  unfold footer_blocks. destruct (j_coolant j) as [[]|]; vm_compute; reflexivity.
Qed.

Lemma ops_blocks_last os r n cs c : ops_blocks (os ++ [Op r n (cs ++ [c])]) = ops_blocks (os ++ [Op r n cs]) ++ command_blocks c.
Proof.
  induction os as [|o os IH].
  - cbn [app ops_blocks]. unfold op_blocks. cbn [op_commands]. rewrite flat_map_app. cbn [flat_map]. rewrite app_nil_r. reflexivity.
  - cbn [app]. destruct (os ++ [Op r n (cs ++ [c])]) as [|o1 k1] eqn:E1; [destruct os; discriminate|].
    destruct (os ++ [Op r n cs]) as [|o2 k2] eqn:E2; [destruct os; discriminate|].
    change (ops_blocks (o :: o1 :: k1)) with (op_blocks o ++ [[]; []] ++ ops_blocks (o1 :: k1)).
    change (ops_blocks (o :: o2 :: k2)) with (op_blocks o ++ [[]; []] ++ ops_blocks (o2 :: k2)). rewrite IH, <- !app_assoc. reflexivity.
Qed.
Lemma home_from_end h r j st os r0 n cs m : reachable h -> hget h r = Some j -> job_printable h j -> ms_ended st = false ->
  j_operations j = os ++ [Op r0 n (cs ++ [Motion m])] ->
  exists s bs hs st', to_gcode h r = Ok s /\ parse_program s = Some bs /\ homes st bs = hs ++ [st'] /\ ms_spindle st' = SpCW /\
    (forall x, ax (m_end m) = Some x -> exists v, ms_x st' = Some v /\ (qabs (v - x) <= qq 1 2000)%Qc) /\
    (forall y, ay (m_end m) = Some y -> exists v, ms_y st' = Some v /\ (qabs (v - y) <= qq 1 2000)%Qc) /\
    (forall z, az (m_end m) = Some z -> exists v, ms_z st' = Some v /\ (qabs (v - z) <= qq 1 2000)%Qc).
Proof.
  intros Hr Hj Hp He Ho. destruct (to_gcode_text h r j Hj Hp) as (s & Es & Eb). exists s, (program_blocks j).
  pose proof (reachable_job_wf h r j Hr Hj) as W. unfold wf_job in W. rewrite Ho in W. apply Forall_app in W as [W1 W2].
  inversion W2 as [|? ? W3 _]; subst. cbn [op_commands] in W3. apply Forall_app in W3 as [W3 _].
  set (st0 := after_start (after_safety st) (j_speed j) (j_coolant j)).
  destruct (makes_ops (j_coolant j) (os ++ [Op r0 n cs]) st0) as [R _].
  { apply Forall_app. split; [exact W1|]. constructor; [exact W3|constructor]. } { apply ready_header. }
  set (st1 := fst (run st0 (ops_blocks (os ++ [Op r0 n cs])))) in *.
  assert (E2 : fst (run st0 (ops_blocks (j_operations j))) = fst (run st1 (command_blocks (Motion m)))).
  { rewrite Ho, ops_blocks_last, run_app_fst. reflexivity. }
  destruct (makes_command (j_coolant j) (Motion m) st1 I R) as [R2 T].
  cbn [command_blocks] in *. rewrite run_cons, exec_motion in E2, T, R2 by apply R. cbn [run fst snd app] in E2, T, R2.
  set (st2 := fst (run st0 (ops_blocks (j_operations j)))) in *.
  destruct (homes_footer st2 j) as (st' & EH & X & Y & Z & SP); [rewrite E2; apply R2|].
  exists (homes st (header_blocks j) ++ homes st0 (ops_blocks (j_operations j))), st'.
  split; [exact Es|]. split; [exact Eb|]. split.
  { unfold program_blocks. rewrite !homes_app, run_header by exact He. cbn [fst]. fold st0. fold st2. rewrite EH, app_assoc. reflexivity. }
  split; [rewrite SP, E2; apply R2|]. inversion T as [|? ? ? e ? ? _ _ NX NY NZ _ ]; subst. cbn [ev_to] in *.
  rewrite E2 in X, Y, Z. repeat split; intros c Hc.
  - rewrite Hc in NX. destruct NX as (v & NX & NV). exists v. rewrite X. auto.
  - rewrite Hc in NY. destruct NY as (v & NY & NV). exists v. rewrite Y. auto.
  - rewrite Hc in NZ. destruct NZ as (v & NZ & NV). exists v. rewrite Z. auto.
Qed.

(** ** Beginnings *)
Lemma straight_app R a b : starts_straight R a -> (a = [] -> starts_straight R b) -> starts_straight R (a ++ b).
Proof. destruct a as [|m [|m2 a]]; [intros _ H; apply H; reflexivity|intros [_ []]|intros H _; exact H]. Qed.
Lemma straight_concat R gs : Forall (starts_straight R) gs -> starts_straight R (concat gs).
Proof. induction 1; [exact I|]. cbn [concat]. apply straight_app; auto. Qed.
Lemma rapid_to_straight e R S pf : starts_straight R (rapid_to av_none e R S pf).
Proof. repeat split. cbn. eauto. Qed.
Lemma route_wires_straight K j ws so cmds pp : dflt pp av_none = av_none -> route_wires K j ws so pp = Ok cmds -> starts_straight (j_rapid_height j) cmds.
Proof.
  intros HP H. unfold route_wires in H. rewrite HP in H. apply rbind_ok in H as (r & H & E). injection E as <-. destruct r as [cmds|]; [|exact I].
  destruct ws as [|w ws]; cbn [route_wires_from] in H; [injection H as <-; exact I|].
  apply rbind_ok in H as (r & H1 & H). destruct r as [[[c p] e]|]; [|discriminate H].
  apply rbind_ok in H as (rest & _ & H). destruct rest as [rest|]; [|discriminate H]. injection H as <-.
  unfold route_wire in H1. destruct (wire_edges w) as [|e0 es]; [discriminate H1|].
  apply rbind_ok in H1 as ((access & es') & H1 & H2). cbn in H1. injection H1 as <- <-.
  apply rbind_ok in H2 as (body & _ & H2). apply rbind_ok in H2 as ((closing & e2) & _ & H2). injection H2 as <- <- <-.
  repeat split. cbn. eauto.
Qed.
Lemma polyfaces_straight j fs so cmds : route_polyface_outers j fs so (Some av_none) = Ok cmds -> starts_straight (j_rapid_height j) cmds.
Proof.
  unfold route_polyface_outers. destruct fs as [|f fs]; cbn [route_polyfaces_from dflt]; [intros [= <-]; exact I|]. intros H.
  apply rbind_ok in H as (((c & p) & e) & H1 & H). apply rbind_ok in H as (rest & _ & H). injection H as <-.
  unfold route_polyface in H1. destruct (pf_outer f) as [|p0 ps] eqn:E0; [discriminate H1|]. cbn in H1. injection H1 as <- <- <-. repeat split. cbn. eauto.
Qed.
Lemma profile_group_straight K TK WK j sd t ws o ms : profile_group K TK WK j sd t ws o = Ok ms -> starts_straight (j_rapid_height j) ms.
Proof.
  unfold profile_group. destruct o as [o|]; [|intros [= <-]; exact I]. intros H. apply rbind_ok in H as (cs & H & E). injection E as <-.
  apply straight_concat. apply mapM_ok in H. induction H as [|w c ws cs H _ IH]; constructor; [|exact IH].
  destruct (profile_inv _ _ _ _ _ _ _ _ _ H) as (r & bs & ps & _ & _ & _ & HR). eapply (route_wires_straight K j _ _ _ None); [reflexivity|exact HR].
Qed.
Lemma profile_straight K TK WK os is_ oo io sd t : straight_gen j_rapid_height (profile_gen K TK WK os is_ oo io sd t).
Proof.
  intros j cmds H. unfold profile_gen in H. apply rbind_ok in H as (ci & Hi & H). apply rbind_ok in H as (co & Ho & H). injection H as <-.
  eexists. split; [reflexivity|]. apply straight_app; [|intros _]; eapply profile_group_straight; eassumption.
Qed.
Lemma wire_profile_straight K TK WK ws o sd t : straight_gen j_rapid_height (wire_profile_gen K TK WK ws o sd t).
Proof.
  intros j cmds H. unfold wire_profile_gen in H. apply rbind_ok in H as (ci & Hi & H). injection H as <-.
  eexists. split; [reflexivity|]. eapply profile_group_straight; eassumption.
Qed.
Lemma first_sequence {A} (route : list A -> avec -> result (list motion)) R (all : bool -> avec -> list (list A) -> result (list motion)) ss cmds :
  (forall s c, route s av_none = Ok c -> starts_straight R c) ->
  (forall done pos, all done pos [] = Ok []) ->
  (forall pos s ss, all false pos (s :: ss) = do c <- route s pos; match c with [] => Err IndexError | _ => do rest <- all true (last_end c pos) ss; Ok (c ++ rest) end) ->
  all false av_none ss = Ok cmds -> starts_straight R cmds.
Proof.
  intros HR H0 H1 H. destruct ss as [|s ss]; [rewrite H0 in H; injection H as <-; exact I|]. rewrite H1 in H. apply rbind_ok in H as (c & HC & H).
  specialize (HR _ _ HC). destruct c as [|m [|m2 c]]; [discriminate H|destruct HR as [_ []]|]. apply rbind_ok in H as (rest & _ & H). injection H as <-. exact HR.
Qed.
Lemma pocket_starts K WK F E fuel eng j areas avoids a cmds : pocket K WK F E fuel eng j areas avoids a = Ok cmds -> starts_straight (j_rapid_height j) cmds.
Proof.
  unfold pocket. intros H. do 5 (apply rbind_ok in H as (? & _ & H)). destruct eng; [| |discriminate H].
  - apply rbind_ok in H as (? & _ & H). apply rbind_ok in H as (? & _ & H). unfold pocket_clipper in H. do 4 (apply rbind_ok in H as (? & _ & H)).
    match type of H with route_sequences j ?so _ _ _ = _ =>
      refine (first_sequence (fun s pos => route_polyface_outers j s (Some so) (Some pos)) _ (fun done pos ss => route_sequences j so done pos ss) _ _ _ _ _ H) end.
    + intros s c. apply polyfaces_straight.
    + reflexivity.
    + intros pos s ss. cbn [route_sequences]. destruct (route_polyface_outers j s _ (Some pos)) as [[|]|]; reflexivity.
  - unfold pocket_cq in H. do 4 (apply rbind_ok in H as (? & _ & H)).
    match type of H with route_wire_sequences K j ?so _ _ _ = _ =>
      refine (first_sequence (fun s pos => route_wires K j (map WWire s) (Some so) (Some pos)) _ (fun done pos ss => route_wire_sequences K j so done pos ss) _ _ _ _ _ H) end.
    + intros s c. apply route_wires_straight. reflexivity.
    + reflexivity.
    + intros pos s ss. cbn [route_wire_sequences]. destruct (route_wires K j (map WWire s) _ (Some pos)) as [[|]|]; reflexivity.
Qed.
Lemma pocket_straight K WK F E fuel areas avoids a : straight_gen j_rapid_height (pocket_gen K WK F E fuel areas avoids a).
Proof.
  intros j cmds H. unfold pocket_gen in H. apply rbind_ok in H as (ms & H & E'). injection E' as <-. exists ms. split; [reflexivity|].
  eapply pocket_starts; exact H.
Qed.
Lemma surface_passes_straight j seqs all ds : forall i, starts_straight (j_rapid_height j) (surface_passes j seqs all i ds av_none).
Proof.
  induction ds as [|d ds IH]; intros i; cbn [surface_passes]; [exact I|]. apply straight_app.
  - pose proof (chop_nonempty (depth_limit all i) seqs) as NE. destruct (chop_sequences_by_depth seqs (depth_limit all i)) as [|run runs]; [exact I|].
    inversion NE as [|? ? N _]; subst. destruct run as [|p ps]; [congruence|]. repeat split. cbn. eauto.
  - intros ->. apply IH.
Qed.
Lemma surface_straight K C a objects : straight_gen j_rapid_height (surface_gen K C a objects).
Proof.
  intros j cmds H. destruct (surface_gen_inv _ _ _ _ _ _ H) as (faces & zmin & base & bs & mss & _ & _ & _ & _ & F & ->).
  eexists. split; [reflexivity|]. apply straight_concat. clear - F. induction F as [|b ms bs1 mss1 H _ IH]; constructor; [|exact IH].
  unfold surface_boundary in H. apply rbind_ok in H as (seqs & _ & H). apply rbind_ok in H as (ds & _ & H). injection H as <-. apply surface_passes_straight.
Qed.
Lemma drill_straight o d : straight_gen j_op_safe_height (drill_gen o d).
Proof.
  intros j cmds H. destruct o as [os|]; [|discriminate]. destruct d as [d|]; [|discriminate].
  destruct (drill_gen_spec _ _ _ _ H) as (p & pts & order & groups & _ & _ & -> & F & C). eexists. split; [reflexivity|].
  inversion F as [|? g ? gs D _]; subst. destruct D as (up & across & down & cut & -> & (R1 & [V1 V2] & V3) & (R2 & [_ Z2] & P2) & _).
  cbn in C. destruct C as (C & C2 & _). rewrite C in V1, V2. cbn in V1, V2.
  assert (EU : m_end up = AV None None (Some (j_op_safe_height j))) by (destruct (m_end up) as [x y z]; cbn in *; congruence).
  cbn. split; [auto|]. split; [exact R2|]. split; [congruence|]. unfold xy in P2. destruct (m_end across) as [[x|] [y|] z]; cbn in *; try discriminate. exists x, y. congruence.
Qed.

(** ** Ends *)
Lemma drill_ends os d j cmds : drill_gen (Some os) (Some d) j = Ok cmds ->
  exists cs m, cmds = cs ++ [Motion m] /\ straight_cut m /\ az (m_end m) = Some (- qabs d)%Qc.
Proof.
  intros H. destruct (drill_gen_spec _ _ _ _ H) as (p & pts & order & groups & _ & _ & -> & F & _).
  assert (N : groups <> []) by (intros ->; inversion F). destruct (exists_last N) as (gs & g & ->).
  apply Forall2_app_inv_r in F as (l1 & l2 & _ & F & _). inversion F as [|? ? ? ? D _]; subst.
  destruct D as (up & across & down & cut & -> & _ & _ & _ & (K & _ & _ & Z & _)).
  exists (map Motion (concat gs ++ [up; across; down])), cut. split; [|auto].
  rewrite concat_app. cbn [concat]. rewrite app_nil_r. change [up; across; down; cut] with ([up; across; down] ++ [cut]). rewrite app_assoc, map_app. reflexivity.
Qed.

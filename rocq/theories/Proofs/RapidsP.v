(** Proofs for Spec/Rapids.v. *)
From Verif Require Import Base.Str Base.Py Spec.Gcode Spec.Blocks Spec.Machine Spec.Program Spec.Jobs Spec.Feeds Spec.Moves Spec.Wires Spec.Contours Spec.Drills Spec.Surfaces Spec.Axes Spec.Rapids
  Model.Groups Model.Geometry Model.Plane Model.Edges Model.Job Model.Routers Model.Profile Model.Drill Model.Pocket Model.PocketOp Model.Strategy Model.Surface
  Proofs.MachineP Proofs.JobP Proofs.ProgramThmP Proofs.GeomP Proofs.RouteP Proofs.EdgeP Proofs.WireP Proofs.ProfileThmP Proofs.RouteThmP Proofs.DrillP Proofs.SurfaceP Proofs.SurfaceThmP Proofs.FeedP Proofs.HomeP Proofs.AxesP.
From Coq Require Import Lia.
Local Open Scope list_scope.

(** ** Rapids start where the command before ended, as far as they say where they start. *)
Definition agrees (p s : avec) : Prop :=
  (ax s = None \/ ax s = ax p) /\ (ay s = None \/ ay s = ay p) /\ (az s = None \/ az s = az p).
Fixpoint rapids_from (p : avec) (ms : list motion) : Prop :=
  match ms with [] => True | m :: ms => (rapid m -> agrees p (m_start m)) /\ rapids_from (m_end m) ms end.
Lemma rapids_app p a b : rapids_from p (a ++ b) <-> rapids_from p a /\ rapids_from (after p a) b.
Proof. revert p. induction a as [|m a IH]; intros p; cbn [app rapids_from after]; [tauto|]. rewrite IH. tauto. Qed.
Lemma rapids_continuous ms : forall p, continuous p ms -> rapids_from p ms.
Proof. induction ms as [|m ms IH]; intros p; [auto|]. intros [E C]. split; [intros _; rewrite E; unfold agrees; auto|apply IH, C]. Qed.
Lemma rapids_none ms : forall p, Forall (fun m => ~ rapid m) ms -> rapids_from p ms.
Proof. induction ms as [|m ms IH]; intros p H; [exact I|]. inversion H; subst. split; [tauto|apply IH; assumption]. Qed.
Lemma rapids_anywhere p ms : rapids_from av_none ms -> rapids_from p ms.
Proof.
  destruct ms as [|m ms]; [auto|]. intros [A B]. split; [|exact B]. intros HR. destruct (A HR) as (X & Y & Z). cbn in X, Y, Z. unfold agrees. intuition.
Qed.
Lemma rapids_concat gs : Forall (rapids_from av_none) gs -> rapids_from av_none (concat gs).
Proof.
  induction 1 as [|g gs H _ IH]; [exact I|]. cbn [concat]. apply rapids_app. split; [exact H|apply rapids_anywhere, IH].
Qed.

(** Motions whose rapids are safe and linked. *)
Definition linked (H L : Qc) (p : avec) (ms : list motion) : Prop :=
  rapids_from p ms /\ Forall (fun m => rapid m -> safe_rapid H L m) ms.
Lemma linked_app H L p a b : linked H L p a -> linked H L (after p a) b -> linked H L p (a ++ b).
Proof. intros [A1 A2] [B1 B2]. split; [apply rapids_app; auto|apply Forall_app; auto]. Qed.
Lemma linked_concat H L gs : Forall (linked H L av_none) gs -> linked H L av_none (concat gs).
Proof.
  intros G. split; [apply rapids_concat|apply Forall_concat]; (eapply Forall_impl; [|exact G]); intros g [A B]; assumption.
Qed.

(** ** Routers *)
Lemma wires_rapids K j so ws : forall pe pp gs, wires_routed K j so pe pp ws gs -> rapids_from pp (concat gs).
Proof.
  induction ws as [|w ws IH]; intros pe pp gs H; inversion H; subst; [exact I|]. cbn [concat]. apply rapids_app.
  split; [|match goal with HR : wires_routed _ _ _ _ _ ws _ |- _ => exact (IH _ _ _ HR) end].
  match goal with H1 : wire_routed _ _ _ _ _ _ _ _ _ _ _ _ |- _ => rename H1 into HW end. clear - HW.
  assert (Body : forall es' p b, route_edges K j true p es' = Ok b -> Forall (fun m => ~ rapid m) b).
  { intros es' p b Hb. destruct (route_edges_cuts _ _ _ _ _ _ Hb) as (gs & -> & HF).
    clear - HF. induction HF as [|? ? ? ? H _ IH]; [constructor|]. cbn [concat]. rewrite Forall_app. split; [|exact IH]. eapply Forall_impl; [|apply H]. intros m Hm. apply Hm. }
  assert (X : rapids_from pp access /\ Forall (fun m => ~ rapid m) body /\ Forall (fun m => ~ rapid m) closing).
  { destruct HW as [e0 es body closing param v _ _ _ HB HC|u d t s e0 es body closing param v _ _ _ _ _ _ _ _ HB HC].
    all: split; [|split; [eapply Body; exact HB|]].
    1: apply rapids_continuous; apply (rapid_to_safe pp (travel_start e0) (j_rapid_height j) (j_op_safe_height j) (j_plunge_feed j)).
    2: apply rapids_none; fall; cbn; tauto.
    all: destruct (truthy param); [|destruct HC as [-> _]; constructor].
    all: destruct (route_edge_cuts _ _ _ _ _ _ _ _ _ HC) as (_ & A & _); eapply Forall_impl; [|exact A]; intros m Hm; apply Hm. }
  destruct X as (X1 & X2 & X3). apply rapids_app. split; [exact X1|]. apply rapids_none, Forall_app. auto.
Qed.
Lemma route_wires_linked K j ws so pp cmds : route_wires K j ws so pp = Ok cmds -> linked (j_rapid_height j) (j_op_safe_height j) (dflt pp av_none) cmds.
Proof.
  intros H. split.
  - unfold route_wires in H. apply rbind_ok in H as (r & H & E). injection E as <-.
    pose proof (route_wires_routed _ _ _ _ _ _ _ H) as HR. destruct r as [cmds|]; [|exact I].
    destruct HR as (gs & HG & ->). eapply wires_rapids; exact HG.
  - eapply Forall_impl; [|exact (wires_safe _ _ _ _ _ _ H)]. intros m Hm. apply Hm.
Qed.
Lemma outers_linked j fs so pp cmds : route_polyface_outers j fs so pp = Ok cmds -> linked (j_rapid_height j) (j_op_safe_height j) (dflt pp av_none) cmds.
Proof. intros H. destruct (outers_safe _ _ _ _ _ H) as (A & B & _). split; [apply rapids_continuous, A|exact B]. Qed.

(** ** Operations *)
Definition linked_gen (H L : job -> Qc) (gen : job -> result (list command)) : Prop :=
  forall j cmds, gen j = Ok cmds -> exists ms, cmds = map Motion ms /\ linked (H j) (L j) av_none ms.
Lemma profile_group_linked K TK WK j sd t ws o ms : profile_group K TK WK j sd t ws o = Ok ms -> linked (j_rapid_height j) (j_op_safe_height j) av_none ms.
Proof.
  unfold profile_group. destruct o as [o|]; [|intros [= <-]; split; constructor]. intros H. apply rbind_ok in H as (cs & H & E). injection E as <-.
  apply mapM_ok in H. apply linked_concat. induction H as [|w c ws cs H _ IH]; [constructor|]. constructor; [|exact IH].
  destruct (profile_inv _ _ _ _ _ _ _ _ _ H) as (r & bs & ps & _ & _ & _ & HR). exact (route_wires_linked K j _ _ None _ HR).
Qed.
Lemma profile_linked K TK WK os is_ oo io sd t : linked_gen j_rapid_height j_op_safe_height (profile_gen K TK WK os is_ oo io sd t).
Proof.
  intros j cmds H. unfold profile_gen in H. apply rbind_ok in H as (ci & Hi & H). apply rbind_ok in H as (co & Ho & H). injection H as <-.
  eexists. split; [reflexivity|]. apply profile_group_linked in Hi, Ho. apply linked_app; [assumption|]. split; [apply rapids_anywhere|]; apply Ho || apply Hi.
Qed.
Lemma wire_profile_linked K TK WK ws o sd t : linked_gen j_rapid_height j_op_safe_height (wire_profile_gen K TK WK ws o sd t).
Proof.
  intros j cmds H. unfold wire_profile_gen in H. apply rbind_ok in H as (ci & Hi & H). injection H as <-.
  eexists. split; [reflexivity|]. eapply profile_group_linked; eassumption.
Qed.
Lemma sequences_linked {A} H L (route : list A -> avec -> result (list motion)) (all : bool -> avec -> list (list A) -> result (list motion)) :
  (forall s pos c, route s pos = Ok c -> linked H L pos c) ->
  (forall done pos, all done pos [] = Ok []) ->
  (forall done pos s ss, all done pos (s :: ss) = do c <- route s pos; match c, done with [], false => Err IndexError | _, _ => do rest <- all true (last_end c pos) ss; Ok (c ++ rest) end) ->
  forall ss done pos cmds, all done pos ss = Ok cmds -> linked H L pos cmds.
Proof.
  intros HR H0 H1. induction ss as [|s ss IH]; intros done pos cmds E; [rewrite H0 in E; injection E as <-; split; constructor|].
  rewrite H1 in E. apply rbind_ok in E as (c & HC & E). pose proof (HR _ _ _ HC) as A1.
  assert (X : exists rest, all true (last_end c pos) ss = Ok rest /\ cmds = c ++ rest).
  { destruct c as [|m c]; [destruct done; [|discriminate]|]; apply rbind_ok in E as (rest & H2 & E); exists rest; (split; [exact H2|congruence]). }
  destruct X as (rest & H2 & ->). rewrite last_end_after in H2. apply linked_app; [exact A1|]. eapply IH; exact H2.
Qed.
Lemma pocket_all_linked K WK F E fuel eng j areas avoids a cmds : pocket K WK F E fuel eng j areas avoids a = Ok cmds -> linked (j_rapid_height j) (j_op_safe_height j) av_none cmds.
Proof.
  unfold pocket. intros H. do 5 (apply rbind_ok in H as (? & _ & H)). destruct eng; [| |discriminate H].
  - apply rbind_ok in H as (? & _ & H). apply rbind_ok in H as (? & _ & H). unfold pocket_clipper in H. do 4 (apply rbind_ok in H as (? & _ & H)).
    match type of H with route_sequences j ?so _ _ _ = _ =>
      refine (sequences_linked _ _ (fun s pos => route_polyface_outers j s (Some so) (Some pos)) (fun done pos ss => route_sequences j so done pos ss) _ _ _ _ _ _ _ H) end.
    + intros s pos c HC. exact (outers_linked _ _ _ _ _ HC).
    + reflexivity.
    + intros done pos s ss. cbn [route_sequences]. destruct (route_polyface_outers j s _ (Some pos)) as [[|]|]; destruct done; reflexivity.
  - unfold pocket_cq in H. do 4 (apply rbind_ok in H as (? & _ & H)).
    match type of H with route_wire_sequences K j ?so _ _ _ = _ =>
      refine (sequences_linked _ _ (fun s pos => route_wires K j (map WWire s) (Some so) (Some pos)) (fun done pos ss => route_wire_sequences K j so done pos ss) _ _ _ _ _ _ _ H) end.
    + intros s pos c HC. exact (route_wires_linked K j _ _ (Some pos) _ HC).
    + reflexivity.
    + intros done pos s ss. cbn [route_wire_sequences]. destruct (route_wires K j (map WWire s) _ (Some pos)) as [[|]|]; destruct done; reflexivity.
Qed.
Lemma pocket_linked K WK F E fuel areas avoids a : linked_gen j_rapid_height j_op_safe_height (pocket_gen K WK F E fuel areas avoids a).
Proof.
  intros j cmds H. unfold pocket_gen in H. apply rbind_ok in H as (ms & H & E'). injection E' as <-. exists ms. split; [reflexivity|].
  eapply pocket_all_linked; exact H.
Qed.
Lemma drill_linked o d : linked_gen j_op_safe_height (fun _ => 0%Qc) (drill_gen o d).
Proof.
  intros j cmds H. destruct o as [os|]; [|discriminate]. destruct d as [d|]; [|discriminate].
  destruct (drill_safe _ _ _ _ H) as (order & groups & -> & C & D & _). eexists. split; [reflexivity|]. split; [apply rapids_continuous, C|].
  apply Forall_concat. clear - D. induction D as [|p g l l' D _ IH]; [constructor|]. constructor; [|exact IH].
  destruct D as (up & across & down & cut & -> & (_ & U1 & U2) & (_ & A1 & _) & (_ & D1 & D2 & D3) & (C1 & _)). unfold safe_rapid. fall; auto 6.
  intros HR. destruct cut; contradiction.
Qed.
Lemma surface_linked K C a objects : linked_gen j_rapid_height j_op_safe_height (surface_gen K C a objects).
Proof.
  intros j cmds H. destruct (surface_moves _ _ _ _ _ _ H) as (faces & zmin & groups & _ & _ & _ & -> & G). eexists. split; [reflexivity|].
  apply linked_concat. eapply Forall_impl; [|exact G]. intros ms (b & seqs & depths & _ & _ & HC & HM). split; [apply rapids_continuous, HC|].
  eapply Forall_impl; [|exact HM]. intros m [(_ & X)|(p & depth & _ & _ & (X & _))] HR; [exact X|]. destruct m; contradiction.
Qed.

(** ** Jobs *)
Definition op_linked (j : job) (o : operation) : Prop :=
  (exists c, op_commands o = [Config c]) \/
  (exists ms, op_commands o = map Motion ms /\ linked (travel_height j o) (approach_height j o) av_none ms).
Definition job_linked (j : job) : Prop := Forall (op_linked j) (j_operations j).
Definition named_gen (name : string) (gen : job -> result (list command)) : Prop :=
  forall j r cmds, gen j = Ok cmds -> op_linked j (Op r name cmds).
Lemma named_of H L name gen : linked_gen H L gen ->
  (forall j r cmds, H j = travel_height j (Op r name cmds) /\ L j = approach_height j (Op r name cmds)) -> named_gen name gen.
Proof.
  intros HG HE j r cmds E. destruct (HG _ _ E) as (ms & -> & X). destruct (HE j r (map Motion ms)) as (E1 & E2). right. exists ms. rewrite <- E1, <- E2. auto.
Qed.
Lemma op_linked_eq j j' o : j_rapid_height j' = j_rapid_height j -> j_op_safe_height j' = j_op_safe_height j -> op_linked j o -> op_linked j' o.
Proof. unfold op_linked, travel_height, approach_height. intros -> ->. auto. Qed.
Lemma fluent_linked h r t name gen : named_gen name gen -> Forall job_linked h -> Forall job_linked (fst (fluent_op h r t name gen)).
Proof.
  intros HG H. unfold fluent_op. destruct (hget h r) as [j|] eqn:Ej; [|exact H].
  assert (Add : forall j0 j1 o, job_linked j0 -> j_rapid_height j1 = j_rapid_height j0 -> j_op_safe_height j1 = j_op_safe_height j0 ->
    j_operations j1 = j_operations j0 ++ [o] -> op_linked j0 o -> job_linked j1).
  { intros j0 j1 o J E1 E2 EO HO. unfold job_linked. rewrite EO. apply Forall_app. split; [eapply Forall_impl; [|exact J]; intros o'; apply op_linked_eq; assumption|]. constructor; [|constructor]. eapply op_linked_eq; eassumption. }
  assert (U : Forall job_linked (fst (update_tool h r j t))).
  { pose proof (Forall_hget _ _ _ _ H Ej) as HJ. destruct (update_tool_spec h r j t); cbn [fst].
    - exact H.
    - apply Forall_app. split; [exact H|]. constructor; [|constructor]. eapply Add; [exact HJ|reflexivity|reflexivity|reflexivity|left; eexists; reflexivity].
    - apply Forall_app. split; [exact H|]. constructor; [|constructor]. eapply Add; [exact HJ|reflexivity|reflexivity|reflexivity|left; eexists; reflexivity].
    - apply Forall_hset; [exact H|]. eapply Forall_impl; [|exact HJ]. intros o. apply op_linked_eq; reflexivity. }
  destruct (update_tool h r j t) as [h1 r1]. cbn [fst] in U. destruct (hget h1 r1) as [j1|] eqn:Ej1; [|exact U].
  destruct (gen j1) as [cmds|e] eqn:Eg; [|exact U]. cbn [fst add_operation halloc].
  apply Forall_app. split; [exact U|]. constructor; [|constructor].
  eapply Add; [exact (Forall_hget _ _ _ _ U Ej1)|reflexivity|reflexivity|reflexivity|]. apply HG, Eg.
Qed.
Lemma user_linked h : user_heap h -> Forall job_linked h.
Proof.
  intros H. induction H as [|h j _ IH Hj|h K TK WK r shapes oo io sd t tl _ IH|h K TK WK r ws o sd t tl _ IH|h K WK F E fuel r areas avoids a tl _ IH|h r o d t _ IH|h K C r a objects _ IH].
  - constructor.
  - apply Forall_app. split; [exact IH|]. constructor; [|constructor]. unfold job_linked. rewrite Hj. constructor.
  - unfold job_profile. destruct (hget h r) as [j|]; [|exact IH]. destruct (negb (is_some (j_tool_diameter j))); [exact IH|].
    destruct (negb (is_some oo) && negb (is_some io)); [exact IH|]. destruct (extract_wires shapes) as [[outers inners]|]; [|exact IH].
    apply fluent_linked; [eapply named_of; [apply profile_linked|split; reflexivity]|exact IH].
  - apply fluent_linked; [eapply named_of; [apply wire_profile_linked|split; reflexivity]|exact IH].
  - apply fluent_linked; [eapply named_of; [apply pocket_linked|split; reflexivity]|exact IH].
  - apply fluent_linked; [eapply named_of; [apply drill_linked|split; reflexivity]|exact IH].
  - apply fluent_linked; [eapply named_of; [apply surface_linked|split; reflexivity]|exact IH].
Qed.

(** ** On the machine *)
(** The machine is at [p], where it says. *)
Definition matches (st : mstate) (p : avec) : Prop :=
  (forall v, ax p = Some v -> ms_x st = Some (rounded 3 v)) /\ (forall v, ay p = Some v -> ms_y st = Some (rounded 3 v)) /\
  (forall v, az p = Some v -> ms_z st = Some (rounded 3 v)).
Lemma matches_after st m : matches (after_motion st m) (m_end m).
Proof. unfold matches, after_motion. cbn. repeat split; intros v ->; reflexivity. Qed.
Lemma axis_kept (s e p : option Qc) (cur : option Qc) : (s = None \/ s = p) -> e = s -> (forall v, p = Some v -> cur = Some (rounded 3 v)) ->
  first_some (option_map (rounded 3) e) cur = cur.
Proof. intros A -> M. destruct s as [v|]; [|reflexivity]. destruct A as [A|A]; [discriminate|]. symmetry in A. rewrite (M _ A). reflexivity. Qed.
Lemma rapid_clear H L st m p : matches st p -> agrees p (m_start m) -> safe_rapid H L m ->
  forall i j k, clear_rapid H L (Ev (m_kind m) (before_motion st m) (after_motion st m) i j k).
Proof.
  intros (MX & MY & MZ) (AX & AY & AZ) HS i j k. unfold clear_rapid, same_xy, after_motion. cbn [ev_from ev_to set_motion set_pos before_motion set_feed ms_x ms_y ms_z].
  assert (V : vertical m -> first_some (option_map (rounded 3) (ax (m_end m))) (ms_x st) = ms_x st /\ first_some (option_map (rounded 3) (ay (m_end m))) (ms_y st) = ms_y st).
  { intros [V1 V2]. split; [exact (axis_kept _ _ _ _ AX V1 MX)|exact (axis_kept _ _ _ _ AY V2 MY)]. }
  assert (Z : forall z, az (m_start m) = Some z -> ms_z st = Some (rounded 3 z)).
  { intros z E. destruct AZ as [AZ|AZ]; rewrite E in AZ; [discriminate|]. apply MZ. auto. }
  destruct HS as [(S1 & S2)|[(S1 & S2)|(S1 & S2 & S3)]].
  - left. rewrite S2. auto.
  - right; left. rewrite S2. auto.
  - right; right. rewrite S3. auto.
Qed.
Lemma motions_clear H L ms : forall st p, ready st -> matches st p -> linked H L p ms ->
  Forall (fun e => ev_kind e = GRapid -> clear_rapid H L e) (snd (run st (flat_map command_blocks (map Motion ms)))).
Proof.
  induction ms as [|m ms IH]; intros st p Hr HP [L1 L2]; [constructor|]. cbn [map flat_map command_blocks app]. rewrite run_cons, exec_motion by apply Hr. cbn [fst snd app].
  destruct L1 as [L1 L1']. inversion L2 as [|? ? M1 M2]; subst. constructor.
  - cbn [ev_kind]. intros E. assert (R : rapid m) by (destruct m as [| |[]]; try discriminate; exact I). eapply rapid_clear; eauto.
  - eapply IH; [exact Hr|apply matches_after|]. split; assumption.
Qed.
Definition clear_moves (j : job) (o : operation) (es : list event) : Prop :=
  Forall (fun e => ev_kind e = GRapid -> clear_rapid (travel_height j o) (approach_height j o) e) es.
Lemma op_clear co j o st : Forall (wf_command co) (op_commands o) -> op_linked j o -> ready st -> clear_moves j o (snd (run st (flat_map command_blocks (op_commands o)))).
Proof.
  intros W [(c & E)|(ms & E & HL)] Hr; unfold clear_moves; rewrite E in *.
  - destruct (makes_commands co [Config c] st W Hr) as (_ & T). set (es := snd _) in *. cbn [flat_map command_moves app] in T. clearbody es. inversion T. constructor.
  - eapply motions_clear; [exact Hr| |exact HL]. repeat split; intros v; discriminate.
Qed.
Lemma ops_clear co j os : forall st, Forall (fun o => Forall (wf_command co) (op_commands o)) os -> Forall (op_linked j) os -> ready st ->
  exists groups, snd (run st (ops_blocks os)) = concat groups /\ Forall2 (clear_moves j) os groups.
Proof.
  induction os as [|o os IH]; intros st Hw Hu Hr.
  - exists []. split; [|constructor]. cbn [ops_blocks]. rewrite run_blank. reflexivity.
  - inversion Hw as [|? ? Ho Hos]; inversion Hu as [|? ? Uo Uos]; subst. pose proof (makes_commands co (op_commands o) st Ho Hr) as (M & _).
    pose proof (op_clear co j _ _ Ho Uo Hr) as A.
    destruct os as [|o2 os].
    + eexists [_]. split; [|constructor; [exact A|constructor]]. cbn [ops_blocks concat]. unfold op_blocks. rewrite run_blank, app_nil_r. reflexivity.
    + destruct (IH _ Hos Uos M) as (gs & E & G). eexists (_ :: gs). split; [|constructor; [exact A|exact G]].
      change (ops_blocks (o :: o2 :: os)) with ([] :: flat_map command_blocks (op_commands o) ++ [] :: [] :: ops_blocks (o2 :: os)).
      rewrite run_blank, run_app. cbn [snd concat]. rewrite !run_blank, E. reflexivity.
Qed.
Lemma user_clear h r j st : user_heap h -> hget h r = Some j -> job_printable h j -> ms_ended st = false ->
  exists s bs groups, to_gcode h r = Ok s /\ parse_program s = Some bs /\ snd (run st bs) = concat groups /\
    Forall2 (fun o es => Forall (fun e => ev_kind e = GRapid -> clear_rapid (travel_height j o) (approach_height j o) e) es) (j_operations j) groups.
Proof.
  intros HU HJ HP HE. destruct (to_gcode_text h r j HJ HP) as (s & Es & Eb).
  pose proof (reachable_job_wf h r j (user_reachable h HU) HJ) as W. pose proof (Forall_hget _ _ _ _ (user_linked h HU) HJ) as U.
  destruct (ops_clear _ j _ (after_start (after_safety st) (j_speed j) (j_coolant j)) W U (ready_header _ _ _)) as (gs & E & G).
  exists s, (program_blocks j), gs. split; [exact Es|]. split; [exact Eb|]. split; [|exact G].
  unfold program_blocks. rewrite run_app, run_header by exact HE. cbn [fst snd app]. rewrite run_app. cbn [snd].
  destruct (makes_ops _ _ (after_start (after_safety st) (j_speed j) (j_coolant j)) W (ready_header _ _ _)) as [R _].
  rewrite run_footer by apply R. cbn [snd]. rewrite app_nil_r. exact E.
Qed.

(** Sideways only high up. *)
Lemma user_sideways h r j st : user_heap h -> hget h r = Some j -> job_printable h j -> ms_ended st = false ->
  exists s bs, to_gcode h r = Ok s /\ parse_program s = Some bs /\
    forall e, In e (snd (run st bs)) -> ev_kind e = GRapid -> ~ same_xy e ->
      exists z, In z [j_rapid_height j; j_op_safe_height j] /\ ms_z (ev_from e) = Some (rounded 3 z) /\ ms_z (ev_to e) = Some (rounded 3 z).
Proof.
  intros HU HJ HP HE. destruct (user_clear h r j st HU HJ HP HE) as (s & bs & gs & A & B & C & D). exists s, bs. split; [exact A|]. split; [exact B|].
  intros e He HK HN. rewrite C in He. apply in_concat in He as (g & Hg & He).
  destruct (Forall2_in_r _ _ _ _ D Hg) as (o & _ & HO). specialize (proj1 (Forall_forall _ _) HO e He HK).
  intros [(X & _)|[(X & Y)|(X & _)]]; [contradiction| |contradiction].
  exists (travel_height j o). split; [|auto]. unfold travel_height. destruct (String.eqb (op_name o) "Drill"); cbn; auto.
Qed.

(** Heights at or above the surface print so. *)
Lemma round_he_nonneg x : (0 <= x)%Qc -> (0 <= round_he x)%Z.
Proof.
  intros H. destruct (round_he_spec x) as [B _]. assert (X : (qz (-1) < qz (round_he x))%Qc).
  { change (-1)%Z with (- (1))%Z. rewrite qz_opp, qz_1. destruct (qabs_spec (x - qz (round_he x))%Qc) as [[E S]|[E S]]; rewrite E in B; qlra. }
  rewrite qz_lt in X. lia.
Qed.
Lemma rounded_nonneg x : (0 <= x)%Qc -> (0 <= rounded 3 x)%Qc.
Proof.
  intros H. unfold rounded. assert (P : (0 < qz (pow10 3))%Qc) by (apply (qz_lt 0); reflexivity).
  assert (X : (0 <= qz (round_he (x * qz (pow10 3))))%Qc).
  { apply (qz_le 0). apply round_he_nonneg. qnra. }
  set (n := qz (round_he _)) in *. set (P0 := qz (pow10 3)) in *. assert (E : (n / P0 * P0 = n)%Qc) by (field; intros C; rewrite C in P; qlra).
  set (v := (n / P0)%Qc) in *. clearbody v n P0. qnra.
Qed.
Lemma user_above h r j st : user_heap h -> hget h r = Some j -> job_printable h j -> ms_ended st = false ->
  (0 <= j_rapid_height j)%Qc -> (0 <= j_op_safe_height j)%Qc ->
  exists s bs, to_gcode h r = Ok s /\ parse_program s = Some bs /\
    forall e, In e (snd (run st bs)) -> ev_kind e = GRapid -> exists z, ms_z (ev_to e) = Some z /\ (0 <= z)%Qc.
Proof.
  intros HU HJ HP HE HR HS. destruct (user_clear h r j st HU HJ HP HE) as (s & bs & gs & A & B & C & D). exists s, bs. split; [exact A|]. split; [exact B|].
  intros e He HK. rewrite C in He. apply in_concat in He as (g & Hg & He).
  destruct (Forall2_in_r _ _ _ _ D Hg) as (o & _ & HO). specialize (proj1 (Forall_forall _ _) HO e He HK).
  assert (T : (0 <= travel_height j o)%Qc) by (unfold travel_height; destruct (String.eqb (op_name o) "Drill"); assumption).
  assert (L : (0 <= approach_height j o)%Qc) by (unfold approach_height; destruct (String.eqb (op_name o) "Drill"); [qlra|assumption]).
  intros [(_ & X)|[(_ & X)|(_ & _ & X)]]; rewrite X; eexists; (split; [reflexivity|]); apply rounded_nonneg; assumption.
Qed.

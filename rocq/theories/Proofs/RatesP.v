(** Proofs for Spec/Rates.v. *)
From Verif Require Import Base.Str Base.Py Spec.Gcode Spec.Blocks Spec.Machine Spec.Program Spec.Jobs Spec.Feeds Spec.Moves Spec.Wires Spec.Contours Spec.Drills Spec.Surfaces Spec.Axes Spec.Rapids Spec.Rates
  Model.Groups Model.Geometry Model.Plane Model.Edges Model.Job Model.Routers Model.Profile Model.Drill Model.Pocket Model.PocketOp Model.Strategy Model.Surface
  Proofs.MachineP Proofs.JobP Proofs.ProgramThmP Proofs.GeomP Proofs.RouteP Proofs.EdgeP Proofs.WireP Proofs.ProfileThmP Proofs.RouteThmP Proofs.DrillP Proofs.SurfaceP Proofs.SurfaceThmP Proofs.FeedP Proofs.HomeP Proofs.AxesP Proofs.RapidsP Proofs.HistoryP.
From Coq Require Import Lia.
Local Open Scope list_scope.

(** ** Motions: fed at [F], or plunges from where the tool is *)
Definition fed_motion (S : Qc) (P F : pynum) (p : avec) (m : motion) : Prop :=
  ~ rapid m -> m_feed m = Some F \/ ((exists d, plunge S d P m) /\ agrees p (m_start m)).
Fixpoint fed_from (S : Qc) (P F : pynum) (p : avec) (ms : list motion) : Prop :=
  match ms with [] => True | m :: ms => fed_motion S P F p m /\ fed_from S P F (m_end m) ms end.
Lemma fed_app S P F a : forall p b, fed_from S P F p (a ++ b) <-> fed_from S P F p a /\ fed_from S P F (after p a) b.
Proof. induction a as [|m a IH]; intros p b; cbn [app fed_from after]; [tauto|]. rewrite IH. tauto. Qed.
Lemma fed_continuous S P F ms : forall p, continuous p ms -> Forall (fun m => ~ rapid m -> feed_ok S P F m) ms -> fed_from S P F p ms.
Proof.
  induction ms as [|m ms IH]; intros p C H; [exact I|]. destruct C as [E C]. inversion H; subst. split; [|apply IH; assumption].
  intros HR. match goal with X : ~ rapid m -> _ |- _ => destruct (X HR) as [A|A] end; [left; exact A|right; split; [exact A|unfold agrees; auto]].
Qed.
Lemma fed_plain S P F ms : forall p, Forall (fun m => ~ rapid m -> m_feed m = Some F) ms -> fed_from S P F p ms.
Proof. induction ms as [|m ms IH]; intros p H; [exact I|]. inversion H; subst. split; [intros HR; left; auto|apply IH; assumption]. Qed.
Lemma fed_anywhere S P F p ms : fed_from S P F av_none ms -> fed_from S P F p ms.
Proof.
  destruct ms as [|m ms]; [auto|]. intros [A B]. split; [|exact B]. intros HR. destruct (A HR) as [X|[X (AX & AY & AZ)]]; [left; exact X|].
  right. split; [exact X|]. cbn in AX, AY, AZ. unfold agrees. intuition.
Qed.
Lemma fed_concat S P F gs : Forall (fed_from S P F av_none) gs -> fed_from S P F av_none (concat gs).
Proof. induction 1 as [|g gs H _ IH]; [exact I|]. cbn [concat]. apply fed_app. split; [exact H|apply fed_anywhere, IH]. Qed.

(** ** Routers *)
Lemma wires_fed K j so ws : forall pe pp gs, wires_routed K j so pe pp ws gs -> fed_from (j_op_safe_height j) (j_plunge_feed j) (j_feed j) pp (concat gs).
Proof.
  induction ws as [|w ws IH]; intros pe pp gs H; inversion H; subst; [exact I|]. cbn [concat]. apply fed_app.
  split; [|match goal with HR : wires_routed _ _ _ _ _ ws _ |- _ => exact (IH _ _ _ HR) end].
  match goal with H1 : wire_routed _ _ _ _ _ _ _ _ _ _ _ _ |- _ => rename H1 into HW end. clear - HW.
  set (Q := fun m => ~ rapid m -> m_feed m = Some (j_feed j)).
  assert (Body : forall es' p b, route_edges K j true p es' = Ok b -> Forall Q b).
  { intros es' p b Hb. destruct (route_edges_cuts _ _ _ _ _ _ Hb) as (gs & -> & HF).
    clear - HF. induction HF as [|? ? ? ? H _ IH]; [constructor|]. cbn [concat]. rewrite Forall_app. split; [|exact IH]. eapply Forall_impl; [|apply H]. intros m Hm _. apply Hm. }
  assert (X : fed_from (j_op_safe_height j) (j_plunge_feed j) (j_feed j) pp access /\ Forall Q body /\ Forall Q closing).
  { destruct HW as [e0 es body closing param v _ _ _ HB HC|u d t s e0 es body closing param v _ _ _ _ _ _ _ _ HB HC].
    all: split; [|split; [eapply Body; exact HB|]].
    1: { destruct (rapid_to_safe pp (travel_start e0) (j_rapid_height j) (j_op_safe_height j) (j_plunge_feed j)) as (C & _ & _ & D & _).
         apply fed_continuous; [exact C|]. eapply Forall_impl; [|exact D]. intros m Hm HR. right. eexists. apply Hm, HR. }
    2: apply fed_plain; fall; reflexivity.
    all: destruct (truthy param); [|destruct HC as [-> _]; constructor].
    all: destruct (route_edge_cuts _ _ _ _ _ _ _ _ _ HC) as (_ & A & _); eapply Forall_impl; [|exact A]; intros m Hm _; apply Hm. }
  destruct X as (X1 & X2 & X3). apply fed_app. split; [exact X1|]. apply fed_plain, Forall_app. auto.
Qed.
Lemma route_wires_fed K j ws so pp cmds : route_wires K j ws so pp = Ok cmds -> fed_from (j_op_safe_height j) (j_plunge_feed j) (j_feed j) (dflt pp av_none) cmds.
Proof.
  intros H. unfold route_wires in H. apply rbind_ok in H as (r & H & E). injection E as <-.
  pose proof (route_wires_routed _ _ _ _ _ _ _ H) as HR. destruct r as [cmds|]; [|exact I].
  destruct HR as (gs & HG & ->). eapply wires_fed; exact HG.
Qed.
Lemma outers_fed j fs so pp cmds : route_polyface_outers j fs so pp = Ok cmds -> fed_from (j_op_safe_height j) (j_plunge_feed j) (j_feed j) (dflt pp av_none) cmds.
Proof.
  intros H. destruct (outers_safe _ _ _ _ _ H) as (A & _ & B). apply fed_continuous; [exact A|]. eapply Forall_impl; [|exact B].
  intros m Hm HR. destruct (Hm HR) as (f & _ & [X|(_ & X & _)]); [right; eexists; exact X|left; exact X].
Qed.

(** ** Operations *)
Definition fed_by (gen : job -> result (list command)) : Prop :=
  forall j cmds, gen j = Ok cmds -> exists ms, cmds = map Motion ms /\ fed_from (j_op_safe_height j) (j_plunge_feed j) (j_feed j) av_none ms.
Lemma profile_group_fed K TK WK j sd t ws o ms : profile_group K TK WK j sd t ws o = Ok ms -> fed_from (j_op_safe_height j) (j_plunge_feed j) (j_feed j) av_none ms.
Proof.
  unfold profile_group. destruct o as [o|]; [|intros [= <-]; exact I]. intros H. apply rbind_ok in H as (cs & H & E). injection E as <-.
  apply mapM_ok in H. apply fed_concat. induction H as [|w c ws cs H _ IH]; [constructor|]. constructor; [|exact IH].
  destruct (profile_inv _ _ _ _ _ _ _ _ _ H) as (r & bs & ps & _ & _ & _ & HR). exact (route_wires_fed K j _ _ None _ HR).
Qed.
Lemma profile_fed_by K TK WK os is_ oo io sd t : fed_by (profile_gen K TK WK os is_ oo io sd t).
Proof.
  intros j cmds H. unfold profile_gen in H. apply rbind_ok in H as (ci & Hi & H). apply rbind_ok in H as (co & Ho & H). injection H as <-.
  eexists. split; [reflexivity|]. apply profile_group_fed in Hi, Ho. apply fed_app. split; [assumption|apply fed_anywhere; assumption].
Qed.
Lemma wire_profile_fed_by K TK WK ws o sd t : fed_by (wire_profile_gen K TK WK ws o sd t).
Proof.
  intros j cmds H. unfold wire_profile_gen in H. apply rbind_ok in H as (ci & Hi & H). injection H as <-.
  eexists. split; [reflexivity|]. eapply profile_group_fed; eassumption.
Qed.
Lemma sequences_fed {A} S P F (route : list A -> avec -> result (list motion)) (all : bool -> avec -> list (list A) -> result (list motion)) :
  (forall s pos c, route s pos = Ok c -> fed_from S P F pos c) ->
  (forall done pos, all done pos [] = Ok []) ->
  (forall done pos s ss, all done pos (s :: ss) = do c <- route s pos; match c, done with [], false => Err IndexError | _, _ => do rest <- all true (last_end c pos) ss; Ok (c ++ rest) end) ->
  forall ss done pos cmds, all done pos ss = Ok cmds -> fed_from S P F pos cmds.
Proof.
  intros HR H0 H1. induction ss as [|s ss IH]; intros done pos cmds E; [rewrite H0 in E; injection E as <-; exact I|].
  rewrite H1 in E. apply rbind_ok in E as (c & HC & E). pose proof (HR _ _ _ HC) as A1.
  assert (X : exists rest, all true (last_end c pos) ss = Ok rest /\ cmds = c ++ rest).
  { destruct c as [|m c]; [destruct done; [|discriminate]|]; apply rbind_ok in E as (rest & H2 & E); exists rest; (split; [exact H2|congruence]). }
  destruct X as (rest & H2 & ->). rewrite last_end_after in H2. apply fed_app. split; [exact A1|]. eapply IH; exact H2.
Qed.
Lemma pocket_all_fed K WK F E fuel eng j areas avoids a cmds : pocket K WK F E fuel eng j areas avoids a = Ok cmds ->
  fed_from (j_op_safe_height j) (j_plunge_feed j) (j_feed j) av_none cmds.
Proof.
  unfold pocket. intros H. do 5 (apply rbind_ok in H as (? & _ & H)). destruct eng; [| |discriminate H].
  - apply rbind_ok in H as (? & _ & H). apply rbind_ok in H as (? & _ & H). unfold pocket_clipper in H. do 4 (apply rbind_ok in H as (? & _ & H)).
    match type of H with route_sequences j ?so _ _ _ = _ =>
      refine (sequences_fed _ _ _ (fun s pos => route_polyface_outers j s (Some so) (Some pos)) (fun done pos ss => route_sequences j so done pos ss) _ _ _ _ _ _ _ H) end.
    + intros s pos c HC. exact (outers_fed _ _ _ _ _ HC).
    + reflexivity.
    + intros done pos s ss. cbn [route_sequences]. destruct (route_polyface_outers j s _ (Some pos)) as [[|]|]; destruct done; reflexivity.
  - unfold pocket_cq in H. do 4 (apply rbind_ok in H as (? & _ & H)).
    match type of H with route_wire_sequences K j ?so _ _ _ = _ =>
      refine (sequences_fed _ _ _ (fun s pos => route_wires K j (map WWire s) (Some so) (Some pos)) (fun done pos ss => route_wire_sequences K j so done pos ss) _ _ _ _ _ _ _ H) end.
    + intros s pos c HC. exact (route_wires_fed K j _ _ (Some pos) _ HC).
    + reflexivity.
    + intros done pos s ss. cbn [route_wire_sequences]. destruct (route_wires K j (map WWire s) _ (Some pos)) as [[|]|]; destruct done; reflexivity.
Qed.
Lemma pocket_fed_by K WK F E fuel areas avoids a : fed_by (pocket_gen K WK F E fuel areas avoids a).
Proof.
  intros j cmds H. unfold pocket_gen in H. apply rbind_ok in H as (ms & H & E'). injection E' as <-. exists ms. split; [reflexivity|].
  eapply pocket_all_fed; exact H.
Qed.
Lemma drill_fed o d j cmds : drill_gen o d j = Ok cmds -> exists ms, cmds = map Motion ms /\ Forall (fun m => ~ rapid m -> m_feed m = Some (j_feed j)) ms.
Proof.
  intros H. destruct o as [os|]; [|discriminate]. destruct d as [d|]; [|discriminate].
  destruct (drill_safe _ _ _ _ H) as (order & groups & -> & _ & D & _). eexists. split; [reflexivity|].
  apply Forall_concat. clear - D. induction D as [|p g l l' D _ IH]; [constructor|]. constructor; [|exact IH].
  destruct D as (up & across & down & cut & -> & (U & _) & (A & _) & (W & _) & (_ & _ & _ & _ & C & _)). fall; intros X; try contradiction. exact C.
Qed.

(** ** Jobs *)
Definition call_fed (S : Qc) (P : pynum) (c : string * pynum) (ms : list motion) : Prop :=
  fst c <> "Surface 3D"%string ->
  fed_from S P (snd c) av_none ms /\ (fst c = "Drill"%string -> Forall (fun m => ~ rapid m -> m_feed m = Some (snd c)) ms).
Definition call_ops (S : Qc) (P : pynum) (c : string * pynum) (os : list operation) : Prop :=
  exists pre r ms, os = pre ++ [Op r (fst c) (map Motion ms)] /\ (pre = [] \/ exists r' n k, pre = [Op r' n [Config k]]) /\ call_fed S P c ms.
Definition fed_named (name : string) (gen : job -> result (list command)) : Prop :=
  forall j cmds, gen j = Ok cmds -> exists ms, cmds = map Motion ms /\ call_fed (j_op_safe_height j) (j_plunge_feed j) (name, j_feed j) ms.
Lemma fed_by_named name gen : fed_by gen -> name <> "Drill"%string -> fed_named name gen.
Proof. intros H N j cmds E. destruct (H _ _ E) as (ms & -> & X). exists ms. split; [reflexivity|]. intros _. split; [exact X|]. cbn. intros C. contradiction. Qed.
Lemma step_fluent h r c h' r' : user_step h r c h' r' -> exists gen, fluent_op h r (snd c) (fst c) gen = (h', Ok r') /\ fed_named (fst c) gen.
Proof.
  intros H. destruct H as [h r h' r' K TK WK shapes oo io sd t tl H|h r h' r' K TK WK ws o sd t tl H|h r h' r' K WK F E fuel areas avoids a tl H|h r h' r' o d tl H|h r h' r' K C a objects H]; cbn [fst snd].
  - unfold job_profile in H. destruct (hget h r) as [j|]; [|discriminate]. destruct (negb (is_some (j_tool_diameter j))); [discriminate|].
    destruct (negb (is_some oo) && negb (is_some io)); [discriminate|]. destruct (extract_wires shapes) as [[outers inners]|]; [|discriminate].
    eexists. split; [exact H|]. apply fed_by_named; [apply profile_fed_by|discriminate].
  - eexists. split; [exact H|]. apply fed_by_named; [apply wire_profile_fed_by|discriminate].
  - eexists. split; [exact H|]. apply fed_by_named; [apply pocket_fed_by|discriminate].
  - eexists. split; [exact H|]. intros j cmds E. destruct (drill_fed _ _ _ _ E) as (ms & -> & X). exists ms. split; [reflexivity|].
    intros _. split; [apply fed_plain, X|intros _; exact X].
  - eexists. split; [exact H|]. intros j cmds E. unfold surface_gen in E. do 5 (apply rbind_ok in E as (? & _ & E)). injection E as <-.
    eexists. split; [reflexivity|]. intros C0. contradiction C0. reflexivity.
Qed.
Lemma calls_fed_snoc cs : forall f c, calls_fed f (cs ++ [c]) = calls_fed f cs ++ [(fst c, feed_asked (fold_left feed_asked cs f) c)].
Proof. induction cs as [|c0 cs IH]; intros f c; [reflexivity|]. cbn [app calls_fed fold_left]. rewrite IH. reflexivity. Qed.
Definition line_inv (h : heap) (r : ref) (j0 : job) (cs : list (string * option tool)) : Prop :=
  exists j opss, hget h r = Some j /\ j_feed j = fold_left feed_asked cs (j_feed j0) /\ j_plunge_feed j = j_plunge_feed j0 /\
    j_rapid_height j = j_rapid_height j0 /\ j_op_safe_height j = j_op_safe_height j0 /\
    j_operations j = concat opss /\ Forall2 (call_ops (j_op_safe_height j0) (j_plunge_feed j0)) (calls_fed (j_feed j0) cs) opss.
Lemma line_inv_ok h r j0 cs : user_line h r j0 cs -> line_inv h r j0 cs.
Proof.
  induction 1 as [h j0 H0|h r j0 cs c h' r' _ IH HS|h r j0 cs h' _ IH HE].
  - exists j0, []. split; [apply hget_new|]. rewrite H0. repeat split. constructor.
  - destruct IH as (j & opss & E & HF & HP & HR & HS0 & HO & HC). destruct (step_fluent _ _ _ _ _ HS) as (gen & Hf & HG).
    pose proof (fluent_op_spec h r j (snd c) (fst c) gen E) as F. rewrite Hf in F. clear Hf HS.
    inversion F as [|h1 r1 j1 cmds U E1 Eg]; subst. clear F. destruct (HG _ _ Eg) as (ms & -> & HM).
    assert (X : j_feed j1 = feed_asked (j_feed j) c /\ j_plunge_feed j1 = j_plunge_feed j /\ j_rapid_height j1 = j_rapid_height j /\ j_op_safe_height j1 = j_op_safe_height j /\
      exists pre, j_operations j1 = j_operations j ++ pre /\ (pre = [] \/ exists r' n k, pre = [Op r' n [Config k]])).
    { unfold feed_asked. inversion U as [EQ|t0 n Hn Hne EQ|t0 s Hn Hs Hne EQ|t0 Hn Hs EQ]; subst.
      - rewrite E in E1. injection E1 as <-. repeat split. exists []. rewrite app_nil_r. auto.
      - rewrite hget_new in E1. injection E1 as <-. repeat split. eexists. split; [reflexivity|]. right. do 3 eexists. reflexivity.
      - rewrite hget_new in E1. injection E1 as <-. repeat split. eexists. split; [reflexivity|]. right. do 3 eexists. reflexivity.
      - erewrite hget_hset_same in E1 by exact E. injection E1 as <-. repeat split. exists []. rewrite app_nil_r. auto. }
    destruct X as (X1 & X2 & X3 & X4 & pre & X5 & X6). eexists _, (opss ++ [pre ++ [Op (List.length h1) (fst c) (map Motion ms)]]).
    split; [apply hget_new|]. cbn [with_operations j_feed j_plunge_feed j_rapid_height j_op_safe_height j_operations].
    rewrite fold_left_app. cbn [fold_left]. rewrite <- HF. repeat split; try congruence.
    + rewrite X5, HO, concat_app. cbn [concat]. rewrite app_nil_r, <- app_assoc. reflexivity.
    + rewrite calls_fed_snoc. apply Forall2_app; [exact HC|]. constructor; [|constructor]. exists pre, (List.length h1), ms. split; [reflexivity|]. split; [exact X6|].
      cbn [fst]. rewrite <- HF, <- X1, <- HS0, <- HP, <- X2, <- X4. exact HM.
  - destruct IH as (j & opss & E & R). exists j, opss. rewrite HE. split; [exact E|exact R].
Qed.

(** ** On the machine *)
Lemma motions_fed S P c ms : call_fed S P c ms -> forall st, ready st ->
  Forall (fed_event S P c) (snd (run st (flat_map command_blocks (map Motion ms)))).
Proof.
  intros HC. assert (G : forall st p, ready st -> matches st p -> (fst c <> "Surface 3D"%string -> fed_from S P (snd c) p ms) ->
    (fst c <> "Surface 3D"%string -> fst c = "Drill"%string -> Forall (fun m => ~ rapid m -> m_feed m = Some (snd c)) ms) ->
    Forall (fed_event S P c) (snd (run st (flat_map command_blocks (map Motion ms))))).
  2: { intros st Hr. apply (G st av_none); [exact Hr|repeat split; intros v; discriminate|intros N; apply HC, N|intros N; apply HC, N]. }
  clear HC. induction ms as [|m ms IH]; intros st p Hr HP HF HD; [constructor|]. cbn [map flat_map command_blocks app]. rewrite run_cons, exec_motion by apply Hr. cbn [fst snd app].
  constructor.
  - intros HK N. cbn [ev_kind] in HK. assert (R : ~ rapid m) by (destruct m as [| |[]]; try discriminate; intros C; exact C).
    cbn [ev_from before_motion set_feed ms_feed]. destruct (HF N) as [H1 _].
    destruct (String.string_dec (fst c) "Drill") as [ED|ND].
    + left. specialize (HD N ED). inversion HD as [|? ? X _]; subst. rewrite (X R). reflexivity.
    + destruct (H1 R) as [E|[(d & PL) A]]; [left; rewrite E; reflexivity|]. right. split; [exact ND|].
      destruct PL as (_ & [V1 V2] & Z1 & _ & _ & EF). destruct A as (AX & AY & AZ), HP as (MX & MY & MZ).
      unfold same_xy, after_motion. cbn [ev_from ev_to set_motion set_pos before_motion set_feed ms_x ms_y ms_z ms_feed]. rewrite EF.
      split; [split; [exact (axis_kept _ _ _ _ AX V1 MX)|exact (axis_kept _ _ _ _ AY V2 MY)]|].
      split; [|reflexivity]. destruct AZ as [AZ|AZ]; rewrite Z1 in AZ; [discriminate|]. apply MZ. auto.
  - eapply (IH (after_motion st m)); [exact Hr|apply matches_after|intros N; apply (HF N)|]. intros N ED. specialize (HD N ED). inversion HD; assumption.
Qed.
Lemma ops_events co (Q : operation -> list event -> Prop) os :
  (forall o st, In o os -> ready st -> Q o (snd (run st (flat_map command_blocks (op_commands o))))) ->
  forall st, Forall (fun o => Forall (wf_command co) (op_commands o)) os -> ready st ->
  exists groups, snd (run st (ops_blocks os)) = concat groups /\ Forall2 Q os groups.
Proof.
  intros HQ. induction os as [|o os IH]; intros st Hw Hr.
  - exists []. split; [|constructor]. cbn [ops_blocks]. rewrite run_blank. reflexivity.
  - inversion Hw as [|? ? Ho Hos]; subst. pose proof (makes_commands co (op_commands o) st Ho Hr) as (M & _).
    pose proof (HQ o st (or_introl eq_refl) Hr) as A. specialize (IH (fun o st H => HQ o st (or_intror H))).
    destruct os as [|o2 os].
    + eexists [_]. split; [|constructor; [exact A|constructor]]. cbn [ops_blocks concat]. unfold op_blocks. rewrite run_blank, app_nil_r. reflexivity.
    + destruct (IH _ Hos M) as (gs & E & G). eexists (_ :: gs). split; [|constructor; [exact A|exact G]].
      change (ops_blocks (o :: o2 :: os)) with ([] :: flat_map command_blocks (op_commands o) ++ [] :: [] :: ops_blocks (o2 :: os)).
      rewrite run_blank, run_app. cbn [snd concat]. rewrite !run_blank, E. reflexivity.
Qed.
Lemma config_silent co k st : Forall (wf_command co) [Config k] -> ready st -> snd (run st (flat_map command_blocks [Config k])) = [].
Proof.
  intros W Hr. destruct (makes_commands co [Config k] st W Hr) as (_ & T). set (es := snd _) in *. cbn [flat_map command_moves app] in T. clearbody es. inversion T. reflexivity.
Qed.
(** Groups of operations of one call are one group. *)
Definition op_fed (S : Qc) (P : pynum) (o : operation) (es : list event) : Prop :=
  (forall k, op_commands o = [Config k] -> es = []) /\
  (forall c ms, op_commands o = map Motion ms -> call_fed S P c ms -> Forall (fed_event S P c) es).
Lemma regroup S P cs opss : Forall2 (call_ops S P) cs opss -> forall groups, Forall2 (op_fed S P) (concat opss) groups ->
  exists groups', concat groups' = concat groups /\ Forall2 (fun c es => Forall (fed_event S P c) es) cs groups'.
Proof.
  induction 1 as [|c os cs opss HC _ IH]; intros groups HG; cbn [concat] in HG.
  - inversion HG. exists []. split; [reflexivity|constructor].
  - apply Forall2_app_inv_l in HG as (g1 & g2 & H1 & H2 & ->). destruct (IH _ H2) as (gs & E & F).
    exists (concat g1 :: gs). split; [cbn [concat]; rewrite E, concat_app; reflexivity|]. constructor; [|exact F].
    destruct HC as (pre & r & ms & -> & HP & HM). apply Forall2_app_inv_l in H1 as (a & b & HA & HB & ->). rewrite concat_app. apply Forall_app. split.
    + destruct HP as [->|(r' & n & k & ->)]; [inversion HA; constructor|]. inversion HA as [|? x ? y [HK _] HN]; subst. inversion HN; subst. rewrite (HK k eq_refl). constructor.
    + inversion HB as [|? x ? y [_ HK] HN]; subst. inversion HN; subst. cbn [concat]. rewrite app_nil_r. exact (HK c ms eq_refl HM).
Qed.
Lemma line_fed h r j0 cs j st : user_heap h -> user_line h r j0 cs -> hget h r = Some j -> job_printable h j -> ms_ended st = false ->
  exists s bs groups, to_gcode h r = Ok s /\ parse_program s = Some bs /\ snd (run st bs) = concat groups /\
    Forall2 (fun c es => Forall (fed_event (j_op_safe_height j0) (j_plunge_feed j0) c) es) (calls_fed (j_feed j0) cs) groups.
Proof.
  intros HU HL HJ HP HE. destruct (to_gcode_text h r j HJ HP) as (s & Es & Eb).
  pose proof (reachable_job_wf h r j (user_reachable h HU) HJ) as W.
  destruct (line_inv_ok _ _ _ _ HL) as (j' & opss & E' & _ & _ & _ & _ & HO & HC). rewrite HJ in E'. injection E' as <-.
  destruct (ops_events (j_coolant j) (op_fed (j_op_safe_height j0) (j_plunge_feed j0)) (j_operations j)) with (st := after_start (after_safety st) (j_speed j) (j_coolant j)) as (gs & E & G).
  - intros o st' Ho Hr. split; [intros k Ek; rewrite Ek|intros c ms Em HM; rewrite Em; apply motions_fed; assumption].
    eapply config_silent; [|exact Hr]. rewrite <- Ek. exact (proj1 (Forall_forall _ _) W o Ho).
  - exact W.
  - apply ready_header.
  - rewrite HO in G. destruct (regroup _ _ _ _ HC _ G) as (gs' & E2 & F). exists s, (program_blocks j), gs'. split; [exact Es|]. split; [exact Eb|]. split; [|exact F].
    rewrite E2, <- E. unfold program_blocks. rewrite run_app, run_header by exact HE. cbn [fst snd app]. rewrite run_app. cbn [snd].
    destruct (makes_ops _ _ (after_start (after_safety st) (j_speed j) (j_coolant j)) W (ready_header _ _ _)) as [R _].
    rewrite run_footer by apply R. cbn [snd]. rewrite app_nil_r. reflexivity.
Qed.

(** ** Arguments of Job *)
Section Arguments.
Variables (top : plane) (feed : pynum) (speed : option pynum) (d : option Qc) (n : option Z) (name : string) (pf : option pynum) (rh sh : option Qc)
  (prec : nat) (u : unit_code) (wp : work_plane) (wo : work_offset) (dm : distance_mode) (am : arc_distance_mode) (pm : planner_mode) (co : option coolant_state).
Let j0 := new_job top feed speed d n name pf rh sh prec u wp wo dm am pm co.
Lemma asked_feeds h r cs j st : user_heap h -> user_line h r j0 cs -> hget h r = Some j -> job_printable h j -> ms_ended st = false ->
  exists s bs groups, to_gcode h r = Ok s /\ parse_program s = Some bs /\ snd (run st bs) = concat groups /\
    Forall2 (fun c es => Forall (fed_event (height_asked sh u (qz 1) (qq 4 100)) (match pf with Some f => f | None => feed end) c) es) (calls_fed feed cs) groups.
Proof. exact (line_fed h r j0 cs j st). Qed.
Lemma asked_heights h r cs j st : user_heap h -> user_line h r j0 cs -> hget h r = Some j -> job_printable h j -> ms_ended st = false ->
  exists s bs, to_gcode h r = Ok s /\ parse_program s = Some bs /\
    forall e, In e (snd (run st bs)) -> ev_kind e = GRapid -> ~ same_xy e ->
      exists z, In z [height_asked rh u (qz 10) (qq 4 10); height_asked sh u (qz 1) (qq 4 100)] /\ ms_z (ev_from e) = Some (rounded 3 z) /\ ms_z (ev_to e) = Some (rounded 3 z).
Proof.
  intros HU HL HJ HP HE. destruct (user_sideways h r j st HU HJ HP HE) as (s & bs & A & B & C). exists s, bs. split; [exact A|]. split; [exact B|].
  destruct (line_inv_ok _ _ _ _ HL) as (j' & opss & E' & _ & _ & E1 & E2 & _). rewrite HJ in E'. injection E' as <-.
  rewrite E1, E2 in C. intros e H1 H2 H3. exact (C e H1 H2 H3).
Qed.
End Arguments.

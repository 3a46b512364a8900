(** Proofs for Spec/Feeds.v: the moves a program makes and their feed rates. *)
From Verif Require Import Base.Str Base.Py Spec.Gcode Spec.Blocks Spec.Machine Spec.Program Spec.Arcs Spec.Jobs Spec.Feeds
  Spec.Paths Spec.Moves Spec.Wires Spec.Contours Spec.Drills Spec.Surfaces
  Model.Groups Model.Job Model.Profile Model.PocketOp Model.Drill Model.Strategy Model.Surface
  Proofs.MachineP Proofs.JobP Proofs.HistoryP Proofs.ProgramThmP Proofs.PocketP Proofs.StepdownP Proofs.ProfileThmP Proofs.RouteThmP Proofs.DrillP Proofs.SurfaceThmP.
Local Open Scope list_scope.

Lemma move_kind_m m : move_kind m = m_kind m.
Proof. destruct m as [| |[]]; reflexivity. Qed.
Lemma traced_app f ms1 es1 f1 ms2 es2 f2 : traced f ms1 es1 f1 -> traced f1 ms2 es2 f2 -> traced f (ms1 ++ ms2) (es1 ++ es2) f2.
Proof. induction 1; intros HH; cbn [app]; [exact HH|]. constructor; auto. Qed.

(** A piece of program from a ready state: stays ready, and makes the moves [ms]. *)
Definition makes (st : mstate) (bs : list block) (ms : list motion) : Prop :=
  ready (fst (run st bs)) /\ traced (ms_feed st) ms (snd (run st bs)) (ms_feed (fst (run st bs))).
Lemma makes_app st a b ms1 ms2 : makes st a ms1 -> makes (fst (run st a)) b ms2 -> makes st (a ++ b) (ms1 ++ ms2).
Proof.
  intros [A1 A2] [B1 B2]. unfold makes. rewrite run_app. cbn [fst snd]. split; [exact B1|]. eapply traced_app; eassumption.
Qed.
Lemma makes_blank st b ms : makes st b ms -> makes st ([] :: b) ms.
Proof. unfold makes. rewrite run_blank. auto. Qed.
Lemma makes_nothing st : ready st -> makes st [] [].
Proof. intros H. split; [exact H|constructor]. Qed.
Lemma makes_command co c st : wf_command co c -> ready st -> makes st (command_blocks c) (command_moves c).
Proof.
  intros Hw Hr. unfold makes. destruct c as [m|[s co'|co'| |n s co']]; simpl in Hw; try contradiction.
  - cbn [command_blocks command_moves]. rewrite run_cons, exec_motion by apply Hr. cbn [run fst snd app].
    split; [exact Hr|]. constructor; [symmetry; apply move_kind_m|reflexivity|apply axis_near_rounded|apply axis_near_rounded|apply axis_near_rounded|constructor].
  - subst co'. cbn [command_blocks config_blocks command_moves]. rewrite run_cons, exec_start by apply Hr. cbn [run fst snd app].
    split; [|constructor]. destruct Hr as (H1 & H2 & H3). repeat split; simpl; tauto.
  - subst co'. change (command_blocks (Config (CToolChange n s co))) with (config_blocks (CToolChange n s co)).
    rewrite run_tool by apply Hr. cbn [fst snd command_moves]. split; [|constructor]. destruct Hr as (H1 & H2 & H3). repeat split; simpl; tauto.
Qed.
Lemma makes_commands co cs : forall st, Forall (wf_command co) cs -> ready st -> makes st (flat_map command_blocks cs) (flat_map command_moves cs).
Proof.
  induction cs as [|c cs IH]; intros st Hw Hr; [apply makes_nothing, Hr|]. inversion Hw as [|? ? Hc Hcs]; subst. cbn [flat_map].
  pose proof (makes_command co c st Hc Hr) as M. apply makes_app; [exact M|]. apply IH; [exact Hcs|apply M].
Qed.
Lemma makes_ops co os : forall st, Forall (fun o => Forall (wf_command co) (op_commands o)) os -> ready st ->
  makes st (ops_blocks os) (flat_map (fun o => flat_map command_moves (op_commands o)) os).
Proof.
  induction os as [|o os IH]; intros st Hw Hr.
  - cbn [ops_blocks flat_map]. apply makes_blank, makes_nothing, Hr.
  - inversion Hw as [|? ? Ho Hos]; subst. pose proof (makes_commands co (op_commands o) st Ho Hr) as M.
    destruct os as [|o2 os]; [cbn [flat_map]; rewrite app_nil_r; apply makes_blank; exact M|].
    change (ops_blocks (o :: o2 :: os)) with ([] :: flat_map command_blocks (op_commands o) ++ [[]; []] ++ ops_blocks (o2 :: os)).
    apply makes_blank. apply (makes_app st _ _ _ _ M). apply makes_blank, makes_blank, IH; [exact Hos|apply M].
Qed.
Lemma program_traced st j : wf_job j -> ms_ended st = false ->
  exists f, traced (ms_feed st) (job_moves j) (snd (run st (program_blocks j))) f.
Proof.
  intros W He. unfold program_blocks. rewrite run_app, run_header by exact He. cbn [fst snd app].
  destruct (makes_ops _ _ (after_start (after_safety st) (j_speed j) (j_coolant j)) W (ready_header _ _ _)) as [R T].
  rewrite run_app. cbn [snd]. rewrite run_footer by apply R. cbn [snd]. rewrite app_nil_r. eexists. exact T.
Qed.
Lemma moves_traced h r j st : reachable h -> hget h r = Some j -> job_printable h j -> ms_ended st = false ->
  exists s bs f, to_gcode h r = Ok s /\ parse_program s = Some bs /\ traced (ms_feed st) (job_moves j) (snd (run st bs)) f.
Proof.
  intros Hr Hj Hp He. destruct (to_gcode_text h r j Hj Hp) as (s & Es & Eb).
  destruct (program_traced st j (reachable_job_wf h r j Hr Hj) He) as (f & T). exists s, (program_blocks j), f. auto.
Qed.

(** ** Feed rates *)
Lemma traced_fed f ms es f' : traced f ms es f' -> Forall fed ms ->
  Forall2 (fun m e => is_feed_move (ev_kind e) = true -> exists v, m_feed m = Some v /\ ms_feed (ev_from e) = Some (pyval v)) ms es.
Proof.
  induction 1 as [|f m ms e es f' K F _ _ _ T IH]; intros H; [constructor|]. inversion H as [|? ? Hm Hms]; subst. constructor; [|apply IH, Hms].
  intros HF. rewrite K in HF. rewrite F. destruct (m_feed m) as [v|] eqn:E; [exists v; auto|].
  exfalso. destruct m as [| |[]]; cbn in *; congruence.
Qed.
Lemma traced_unfed f ms es f' : traced f ms es f' -> Forall (fun m => m_feed m = None) ms -> Forall (fun e => ms_feed (ev_from e) = f) es.
Proof.
  induction 1 as [|f m ms e es f' K F _ _ _ T IH]; intros H; [constructor|]. inversion H as [|? ? Hm Hms]; subst.
  rewrite Hm in F. cbn in F. constructor; [exact F|]. rewrite F in IH. apply IH, Hms.
Qed.
Definition wf_fed (j : job) : Prop := Forall fed (job_moves j).
Lemma job_moves_app j o ops : job_moves (with_operations j (ops ++ [o])) = flat_map (fun o => flat_map command_moves (op_commands o)) ops ++ flat_map command_moves (op_commands o).
Proof. unfold job_moves. cbn. rewrite flat_map_app. cbn [flat_map]. rewrite app_nil_r. reflexivity. Qed.
Lemma fed_reachable_reachable h : fed_reachable h -> reachable h.
Proof.
  induction 1 as [|h j H IH Hj|h r t name gen H IH Hg]; [constructor|constructor; assumption|]. apply reach_call; [exact IH|].
  intros j cmds E. destruct (Hg j cmds E) as (ms & -> & _). eauto.
Qed.
Lemma moves_motions ms : flat_map command_moves (map Motion ms) = ms.
Proof. induction ms as [|m ms IH]; cbn; [reflexivity|]. rewrite IH. reflexivity. Qed.
Lemma fed_reachable_fed h : fed_reachable h -> Forall wf_fed h.
Proof.
  induction 1 as [|h j H IH Hj|h r t name gen H IH Hg].
  - constructor.
  - apply Forall_app. split; [exact IH|]. constructor; [|constructor]. unfold wf_fed, job_moves. rewrite Hj. constructor.
  - assert (U : forall j, wf_fed j -> Forall wf_fed (fst (update_tool h r j t))).
    { intros j Hj. destruct (update_tool_spec h r j t); simpl.
      - exact IH.
      - apply Forall_app. split; [exact IH|]. constructor; [|constructor]. unfold wf_fed in *. unfold job_moves in *. simpl in *.
        rewrite flat_map_app. apply Forall_app. split; [exact Hj|]. constructor.
      - apply Forall_app. split; [exact IH|]. constructor; [|constructor]. unfold wf_fed in *. unfold job_moves in *. simpl in *.
        rewrite flat_map_app. apply Forall_app. split; [exact Hj|]. constructor.
      - apply Forall_hset; [exact IH|]. exact Hj. }
    unfold fluent_op. destruct (hget h r) as [j|] eqn:Ej; [|exact IH].
    specialize (U j (Forall_hget _ _ _ _ IH Ej)).
    destruct (update_tool h r j t) as [h1 r1] eqn:Eu. simpl in U.
    destruct (hget h1 r1) as [j1|] eqn:Ej1; [|exact U].
    destruct (gen j1) as [cmds|e] eqn:Eg; [|exact U].
    simpl. apply Forall_app. split; [exact U|]. constructor; [|constructor].
    unfold wf_fed, job_moves. simpl. rewrite flat_map_app. apply Forall_app. split; [exact (Forall_hget _ _ _ _ U Ej1)|].
    cbn [flat_map op_commands]. rewrite app_nil_r. destruct (Hg _ _ Eg) as (ms & -> & F). rewrite moves_motions. exact F.
Qed.

Lemma feed_in_force h r j st : fed_reachable h -> hget h r = Some j -> job_printable h j -> ms_ended st = false ->
  exists s bs, to_gcode h r = Ok s /\ parse_program s = Some bs /\
    Forall2 (fun m e => is_feed_move (ev_kind e) = true -> exists v, m_feed m = Some v /\ ms_feed (ev_from e) = Some (pyval v))
      (job_moves j) (snd (run st bs)).
Proof.
  intros Hr Hj Hp He. destruct (moves_traced h r j st (fed_reachable_reachable h Hr) Hj Hp He) as (s & bs & f & Es & Eb & T).
  exists s, bs. split; [exact Es|]. split; [exact Eb|]. eapply traced_fed; [exact T|]. exact (Forall_hget _ _ _ _ (fed_reachable_fed h Hr) Hj).
Qed.
Lemma feed_missing h r j st : reachable h -> hget h r = Some j -> job_printable h j -> ms_ended st = false ->
  Forall (fun m => m_feed m = None) (job_moves j) ->
  exists s bs, to_gcode h r = Ok s /\ parse_program s = Some bs /\ Forall (fun e => ms_feed (ev_from e) = ms_feed st) (snd (run st bs)) /\
    map ev_kind (snd (run st bs)) = map move_kind (job_moves j).
Proof.
  intros Hr Hj Hp He HN. destruct (moves_traced h r j st Hr Hj Hp He) as (s & bs & f & Es & Eb & T).
  exists s, bs. split; [exact Es|]. split; [exact Eb|]. split; [eapply traced_unfed; eassumption|].
  clear - T. induction T; cbn [map]; congruence.
Qed.

(** ** The operations *)
Lemma plunge_fed S d pf m : plunge S d pf m -> m_feed m <> None.
Proof. unfold plunge. intros H. destruct m; cbn in *; intuition congruence. Qed.
Lemma not_rapid_fed m : (~ rapid m -> m_feed m <> None) -> fed m.
Proof. destruct m; cbn [fed rapid]; intros H; [exact I| |]; apply H; intros []. Qed.
Lemma profile_group_fed K TK WK j sd t ws o ms : profile_group K TK WK j sd t ws o = Ok ms -> Forall fed ms.
Proof.
  unfold profile_group. destruct o as [o|]; [|intros [= <-]; constructor]. intros H. apply rbind_ok in H as (cs & H & E). injection E as <-.
  apply mapM_ok in H. induction H as [|w c ws cs H _ IH]; [constructor|]. cbn [concat]. apply Forall_app. split; [|exact IH].
  pose proof (profile_safe _ _ _ _ _ _ _ _ _ H) as F. eapply Forall_impl; [|exact F]. intros m [_ HF]. apply not_rapid_fed. intros N.
  destruct (HF N) as [E|(d & P)]; [congruence|]. eapply plunge_fed; exact P.
Qed.
Lemma profile_fed K TK WK os is_ oo io sd t : fed_gen (profile_gen K TK WK os is_ oo io sd t).
Proof.
  intros j cmds H. unfold profile_gen in H. apply rbind_ok in H as (ci & Hi & H). apply rbind_ok in H as (co & Ho & H). injection H as <-.
  eexists. split; [reflexivity|]. apply Forall_app. split; eapply profile_group_fed; eassumption.
Qed.
Lemma wire_profile_fed K TK WK ws o sd t : fed_gen (wire_profile_gen K TK WK ws o sd t).
Proof.
  intros j cmds H. unfold wire_profile_gen in H. apply rbind_ok in H as (ci & Hi & H). injection H as <-.
  eexists. split; [reflexivity|]. eapply profile_group_fed; eassumption.
Qed.
Lemma drill_fed o d : fed_gen (drill_gen o d).
Proof.
  intros j cmds H. destruct o as [os|]; [|discriminate]. destruct d as [d|]; [|discriminate].
  destruct (drill_gen_spec _ _ _ _ H) as (p & pts & order & groups & _ & _ & -> & F & _). eexists. split; [reflexivity|].
  clear - F. induction F as [|q g qs gs H _ IH]; [constructor|]. cbn [concat]. apply Forall_app. split; [|exact IH].
  destruct H as (up & across & down & cut & -> & (R1 & _) & (R2 & _) & (R3 & _) & (_ & _ & _ & _ & E & _)).
  repeat constructor; try (apply not_rapid_fed; congruence); apply not_rapid_fed; contradiction.
Qed.
Lemma lower_bound (l : list Qc) : exists F, forall x, In x l -> (F <= x)%Qc.
Proof.
  induction l as [|a l (F & IH)]; [exists 0%Qc; intros x []|]. exists (qmin a F). intros x [<-|H].
  - destruct (qmin_spec a F) as [[-> ?]|[-> ?]]; qlra.
  - specialize (IH x H). destruct (qmin_spec a F) as [[-> ?]|[-> ?]]; qlra.
Qed.
Lemma pocket_clipper_fed E fuel j areas avoids oo io ao ai so sd cmds :
  pocket_clipper E fuel j areas avoids oo io ao ai so sd = Ok cmds -> Forall fed cmds.
Proof.
  intros H. destruct (lower_bound (0%Qc :: j_op_safe_height j :: j_rapid_height j :: map pf_depth areas)) as (F & HF).
  destruct (pocket_floor _ _ _ _ _ _ _ _ _ _ _ _ F H) as (_ & _ & _ & P).
  - apply HF. left. reflexivity.
  - intros f Hf. apply HF. right. right. right. apply in_map, Hf.
  - apply HF. right. left. reflexivity.
  - apply HF. right. right. left. reflexivity.
  - eapply Forall_impl; [|exact P]. intros m HM. apply not_rapid_fed. intros N. destruct (HM N) as (d & _ & [K|(_ & K & _)]); [eapply plunge_fed; exact K|congruence].
Qed.
Lemma route_wires_fed K j ws so pp cmds : route_wires K j ws so pp = Ok cmds -> Forall fed cmds.
Proof.
  intros H. pose proof (wires_safe _ _ _ _ _ _ H) as F. eapply Forall_impl; [|exact F]. intros m [_ HF]. apply not_rapid_fed. intros N.
  destruct (HF N) as [E|(d & P)]; [congruence|]. eapply plunge_fed; exact P.
Qed.
Lemma route_wire_sequences_fed K j so : forall ss done pp cmds, route_wire_sequences K j so done pp ss = Ok cmds -> Forall fed cmds.
Proof.
  induction ss as [|s ss IH]; intros done pp cmds H; cbn [route_wire_sequences] in H; [injection H as <-; constructor|].
  apply rbind_ok in H as (cs & H1 & H). assert (X : exists rest, route_wire_sequences K j so true (last_end cs pp) ss = Ok rest /\ cmds = cs ++ rest).
  { destruct cs as [|c cs]; [destruct done; [|discriminate]|]; apply rbind_ok in H as (rest & H2 & H); exists rest; (split; [exact H2|congruence]). }
  destruct X as (rest & H2 & ->). apply Forall_app. split; [eapply route_wires_fed; exact H1|eapply IH; exact H2].
Qed.
Lemma pocket_all_fed K WK F E fuel eng j areas avoids a cmds : pocket K WK F E fuel eng j areas avoids a = Ok cmds -> Forall fed cmds.
Proof.
  unfold pocket. intros H. do 5 (apply rbind_ok in H as (? & _ & H)). destruct eng; [| |discriminate].
  - apply rbind_ok in H as (? & _ & H). apply rbind_ok in H as (? & _ & H). eapply pocket_clipper_fed; exact H.
  - unfold pocket_cq in H. do 4 (apply rbind_ok in H as (? & _ & H)). eapply route_wire_sequences_fed; exact H.
Qed.
Lemma pocket_fed K WK F E fuel areas avoids a : fed_gen (pocket_gen K WK F E fuel areas avoids a).
Proof.
  intros j cmds H. unfold pocket_gen in H. apply rbind_ok in H as (ms & H & E'). injection E' as <-. exists ms. split; [reflexivity|].
  eapply pocket_all_fed; exact H.
Qed.

Lemma surface_cuts_unfed depth : forall points pos, Forall (fun m => m_feed m = None) (surface_cuts depth pos points).
Proof. induction points as [|p points IH]; intros pos; cbn [surface_cuts]; constructor; [reflexivity|apply IH]. Qed.
Lemma surface_runs_unfed j depth : forall runs pos, Forall (fun m => m_feed m = None) (surface_runs j depth pos runs).
Proof.
  induction runs as [|[|p points] runs IH]; intros pos; cbn [surface_runs surface_run]; [constructor|apply IH|].
  apply Forall_app. split; [|apply IH]. repeat (constructor; [reflexivity|]). apply surface_cuts_unfed.
Qed.
Lemma surface_passes_unfed j seqs all : forall depths i pos, Forall (fun m => m_feed m = None) (surface_passes j seqs all i depths pos).
Proof.
  induction depths as [|d depths IH]; intros i pos; cbn [surface_passes]; [constructor|]. apply Forall_app. split; [apply surface_runs_unfed|apply IH].
Qed.
Lemma surface_unfed K C a objects j cmds : surface_gen K C a objects j = Ok cmds ->
  exists ms, cmds = map Motion ms /\ Forall (fun m => m_feed m = None) ms.
Proof.
  intros H. destruct (surface_gen_inv _ _ _ _ _ _ H) as (faces & zmin & base & bs & mss & _ & _ & _ & _ & F & ->).
  exists (concat mss). split; [reflexivity|]. clear H. induction F as [|b ms bs' mss F _ IH]; [constructor|]. cbn [concat]. apply Forall_app. split; [|exact IH].
  unfold surface_boundary in F. apply rbind_ok in F as (seqs & _ & F). apply rbind_ok in F as (ds & _ & F). injection F as <-. apply surface_passes_unfed.
Qed.
Lemma surface_motion_gen K C a objects : motion_gen (surface_gen K C a objects).
Proof. intros j cmds H. destruct (surface_unfed _ _ _ _ _ _ H) as (ms & -> & _). eauto. Qed.

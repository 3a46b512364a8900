(** Proofs for Spec/TracedSurface.v. *)
From Verif Require Import Base.Str Base.Py Spec.Gcode Spec.Blocks Spec.Machine Spec.Program Spec.Paths Spec.Jobs Spec.Moves Spec.Axes Spec.Rapids Spec.Pockets Spec.Zigzag Spec.Surfaces Spec.OnMachine Spec.Traced Spec.TracedSurface
  Model.Groups Model.Geometry Model.Plane Model.Edges Model.Job Model.Strategy Model.Surface
  Proofs.MachineP Proofs.JobP Proofs.ProgramThmP Proofs.GeomP Proofs.StepdownP Proofs.AxesP Proofs.RapidsP Proofs.HistoryP Proofs.SurfaceP Proofs.SurfaceThmP Proofs.OnMachineP Proofs.TracedP.
From Coq Require Import Lia.
Local Open Scope list_scope.

Lemma at_point v p z : xy v = Some (vx p, vy p) -> az v = Some z -> v = from_vector (V3 (vx p) (vy p) z).
Proof. destruct v as [[x|] [y|] w]; try discriminate. cbn. intros [= -> ->] ->. reflexivity. Qed.
Lemma rapid_is m : rapid m -> m_kind m = GRapid.
Proof. destruct m as [| |[]]; cbn; tauto || reflexivity. Qed.
Lemma vertical_event st m e : matches st (m_start m) -> ev_from e = before_motion st m -> ev_to e = after_motion st m -> vertical m -> same_xy e.
Proof.
  intros (MX & MY & _) F T (VX & VY). destruct (before_pos st m) as (BX & BY & _). unfold same_xy. rewrite F, T, BX, BY.
  unfold after_motion. cbn [set_motion set_pos ms_x ms_y]. split; [exact (axis_kept _ _ _ _ (or_intror eq_refl) VX MX)|exact (axis_kept _ _ _ _ (or_intror eq_refl) VY MY)].
Qed.
Lemma milled_events R S depth run g es : milled R S depth run g -> Forall2 made g es -> run_made R S depth run es.
Proof.
  intros (up & across & down & cuts & p & points & -> & -> & (U1 & U2 & U3) & (A1 & A2 & A3) & (D1 & D2 & D3 & D4 & D5) & FC) HM.
  inversion HM as [|? e1 ? es1 (s1 & M1 & K1 & F1 & T1 & _) H1]; subst. inversion H1 as [|? e2 ? es2 (s2 & M2 & K2 & F2 & T2 & _) H2]; subst.
  inversion H2 as [|? e3 ? es3 (s3 & M3 & K3 & F3 & T3 & _) H3]; subst. clear HM H1 H2. exists e1, e2, e3, es3, p, points. split; [reflexivity|]. split; [reflexivity|].
  split; [rewrite K1; apply rapid_is, U1|]. split; [exact (vertical_event s1 up e1 M1 F1 T1 U2)|]. split; [rewrite T1; destruct (matches_after s1 up) as (_ & _ & X); apply X, U3|].
  split; [rewrite K2; apply rapid_is, A1|]. destruct A2 as [A2 A2']. split; [rewrite F2; destruct (before_pos s2 across) as (_ & _ & ->); destruct M2 as (_ & _ & X); apply X, A2|].
  split; [rewrite T2; apply stands_to, at_point; assumption|]. split; [rewrite K3; apply rapid_is, D1|]. split; [exact (vertical_event s3 down e3 M3 F3 T3 D2)|].
  split; [rewrite T3; apply stands_to, at_point; assumption|]. clear - FC H3. revert es3 H3.
  induction FC as [|q m points cuts (SC & E & z & Z & L1 & L2 & O) _ IH]; intros es H; inversion H as [|? e ? es' (s & M & K & F & T & _) H']; subst; [constructor|]. constructor; [|apply IH, H'].
  split; [rewrite K; destruct m as [| |[]]; try contradiction; reflexivity|]. exists z. split; [exact O|]. split; [exact L1|]. split; [exact L2|]. rewrite T. apply stands_to, at_point; assumption.
Qed.
Lemma pass_events R S seqs limit depth ms es : pass R S seqs limit depth ms -> Forall2 made ms es -> level_made R S seqs limit depth es.
Proof.
  intros (runs & groups & CH & -> & FG) HM. destruct (Forall2_split _ _ _ HM) as (ess & -> & HS). exists runs, ess. split; [exact CH|]. split; [reflexivity|]. clear - FG HS. revert ess HS.
  induction FG; intros ess HS; inversion HS; subst; constructor; [eapply milled_events; eassumption|auto].
Qed.
Lemma surfaced_events R S seqs depths ms es : surfaced R S seqs depths ms -> Forall2 made ms es ->
  exists levels, es = concat levels /\ Forall2 (fun ld p => level_made R S seqs (fst ld) (snd ld) p) (combine (pass_limits depths) depths) levels.
Proof.
  intros (passes & -> & FP) HM. destruct (Forall2_split _ _ _ HM) as (ess & -> & HS). exists ess. split; [reflexivity|]. clear - FP HS. revert ess HS.
  induction FP; intros ess HS; inversion HS; subst; constructor; [eapply pass_events; eassumption|auto].
Qed.
Lemma surface_traced K C a objects h r h' r' j' st : user_heap h ->
  job_surface3d h r K C a objects = (h', Ok r') -> hget h' r' = Some j' -> job_printable h' j' -> ms_ended st = false ->
  exists faces zmin bs p blocks before areas, boundaries K a (j_top j') objects faces bs /\ sk_zmin K (j_top j') faces = Ok zmin /\
    to_gcode h' r' = Ok p /\ parse_program p = Some blocks /\ snd (run st blocks) = before ++ concat areas /\ continues h r st before /\
    Forall2 (surface_made K C a j' faces zmin) bs areas.
Proof.
  intros HU HD HJ HP HE. assert (HU' : user_heap h') by (pose proof (user_surface h K C r a objects HU) as X; rewrite HD in X; exact X).
  unfold job_surface3d in HD. destruct (hget h r) as [j|] eqn:Ej; [|rewrite fluent_op_none in HD by exact Ej; discriminate].
  pose proof (fluent_op_spec h r j None "Surface 3D" (surface_gen K C a objects) Ej) as FL. rewrite HD in FL. inversion FL as [|h1 r1 j1 cmds U E1 Eg]; subst.
  rewrite hget_new in HJ. injection HJ as <-. destruct (surface_area _ _ _ _ _ _ Eg) as (faces & zmin & base & parts & mss & N & SE & ZM & PR & OF & BO & ->).
  assert (BS : Forall2 (fun b ms => exists seqs depths, scanned K C a (j_top j1) faces zmin b seqs /\ descent (sa_top_height a) zmin (sa_stepdown a) depths /\
    surfaced (j_rapid_height j1) (j_op_safe_height j1) seqs depths ms /\ continuous av_none ms) (concat parts) mss).
  { eapply Forall2_impl; [|exact BO]. intros b ms HB. exact (surface_boundary_steps _ _ _ _ _ _ _ _ HB). }
  destruct (program_after _ _ _ _ _ _ _ _ _ st (j_operations j1) (Op (List.length h1) "Surface 3D" (map Motion (concat mss))) HU HU' Ej HD (hget_new _ _) HP HE eq_refl) as (p & blocks & before & st' & A & B & RD & E' & CT).
  assert (CN : Forall (continuous av_none) mss) by (clear - BS; induction BS as [|b ms bs mss (? & ? & ? & ? & ? & X) _ IH]; constructor; auto).
  destruct (Forall2_split _ _ _ (made_calls mss st' RD CN)) as (areas & EA & FA).
  exists faces, zmin, (concat parts), p, blocks, before, areas. split; [exists base, parts; auto 10|]. split; [exact ZM|]. split; [exact A|]. split; [exact B|]. split; [rewrite E'; cbn [op_commands]; f_equal; exact EA|]. split; [exact CT|].
  clear - BS FA. revert areas FA. induction BS as [|b ms bs mss (seqs & depths & S1 & S2 & S3 & _) _ IH]; intros areas FA; inversion FA as [|? es ? ess M1 M2]; subst; constructor; [|apply IH; assumption].
  destruct (surfaced_events _ _ _ _ _ _ S3 M1) as (levels & -> & FL). exists seqs, depths, levels. auto.
Qed.

(** Proofs for Spec/TracedPocket.v. *)
From Verif Require Import Base.Str Base.Py Spec.Gcode Spec.Blocks Spec.Machine Spec.Program Spec.Paths Spec.Jobs Spec.Moves Spec.Axes Spec.Rapids Spec.Contours Spec.Pockets Spec.PocketCq Spec.OnMachine Spec.Traced Spec.TracedPocket
  Model.Groups Model.Geometry Model.Plane Model.Edges Model.Job Model.Routers Model.Interp Model.PocketOp
  Proofs.MachineP Proofs.JobP Proofs.ProgramThmP Proofs.GeomP Proofs.RouteP Proofs.RouteThmP Proofs.AxesP Proofs.RapidsP Proofs.HistoryP Proofs.PocketP Proofs.StepdownP Proofs.PocketOpP Proofs.OnMachineP Proofs.TracedP.
Import Model.Pocket Proofs.RouteP.
From Coq Require Import Lia.
Local Open Scope list_scope.

(** ** One contour *)
Definition cut_contour (S : Qc) (pf feed : pynum) (f : pathface) (g : list motion) : Prop :=
  exists access cuts round chord, g = access ++ cuts /\
    moves_along cuts (round ++ chord) /\ tour (pf_outer f) round /\ chord_of (pf_outer f) chord /\
    Forall (fun m => straight_cut m /\ m_feed m = Some feed /\ at_height m (pf_depth f)) cuts /\
    ((exists front m, access = front ++ [m] /\ Forall rapid front /\ plunge S (pf_depth f) pf m) \/
     (exists m, access = [m] /\ straight_cut m /\ m_feed m = Some feed /\ az (m_end m) = Some (pf_depth f) /\ chord = [])).
Lemma contour_cut j so pe pp f access pts we : closed_path (pf_outer f) -> (pf_depth f < j_op_safe_height j)%Qc -> contour j so pe pp f access pts we ->
  cut_contour (j_op_safe_height j) (j_plunge_feed j) (j_feed j) f (access ++ cut_poly (pf_depth f) (j_feed j) (after pp access) pts).
Proof.
  intros HC L H. destruct (contour_access _ _ _ _ _ _ _ _ H) as (_ & _ & _ & _ & AZ & _).
  destruct (contour_group _ _ _ _ _ _ _ _ HC H) as (es & ch & MA & TO & CO & (m0 & rest0 & EA & NR) & _).
  destruct (cut_poly_spec (pf_depth f) (j_feed j) pts (after pp access)) as (_ & P2 & _ & P4 & _). cbv zeta in *. specialize (P4 (AZ L)).
  eexists access, _, es, ch. split; [reflexivity|]. split; [exact MA|]. split; [exact TO|]. split; [exact CO|]. split.
  { rewrite Forall_forall in *. intros m Hm. destruct (P2 m Hm) as (A & B & _). split; [exact A|]. split; [exact B|]. apply P4, Hm. }
  assert (HR : forall p0, exists front m, entry_rapid j pp f p0 = front ++ [m] /\ Forall rapid front /\ plunge (j_op_safe_height j) (pf_depth f) (j_plunge_feed j) m).
  { intros p0. exact (enter pp (V3 (fst p0) (snd p0) (pf_depth f)) (j_rapid_height j) (j_op_safe_height j) (j_plunge_feed j) L). }
  destruct H as [p0 rest EO _|p0 rest e c EO _ _|e c s i a b -> _ _ _ _ _ _ _]; [left; apply HR..|].
  right. eexists. split; [reflexivity|]. split; [exact I|]. split; [reflexivity|]. split; [reflexivity|]. unfold entry_link in EA. injection EA as <- <-. apply NR. intros C. exact C.
Qed.
Lemma routed_cut j so fs : forall pe pp gs, (forall f, In f fs -> closed_path (pf_outer f) /\ (pf_depth f < j_op_safe_height j)%Qc) -> routed j so pe pp fs gs ->
  Forall2 (cut_contour (j_op_safe_height j) (j_plunge_feed j) (j_feed j)) fs gs.
Proof.
  induction fs as [|f fs IH]; intros pe pp gs HF H; inversion H; subst; [constructor|]. constructor; [|eapply IH; [|eassumption]; intros; apply HF; right; assumption].
  destruct (HF f (or_introl eq_refl)) as [C L]. eapply contour_cut; eassumption.
Qed.
Lemma level_xy d v p : xy v = Some p -> az v = Some d -> v = from_vector (at_level d p).
Proof. destruct v as [[x|] [y|] z]; try discriminate. cbn. intros [= <-] ->. reflexivity. Qed.
Lemma contour_events S pf feed f g es : cut_contour S pf feed f g -> Forall2 made g es -> contour_traced S pf feed f es.
Proof.
  intros (access & cuts & round & chord & -> & MA & TO & CO & FC & EN) HM. apply Forall2_app_inv_l in HM as (entry & ecuts & H1 & H2 & ->).
  assert (SEG : Forall2 (segment_made feed (pf_depth f)) (round ++ chord) ecuts).
  { clear - MA FC H2. unfold moves_along in MA. revert ecuts H2. induction MA as [|m ab cuts segs (A & B) _ IH]; intros ecuts H2; inversion H2 as [|? e ? es (st & M & K & F & T & _) H3]; subst; [constructor|].
    inversion FC as [|? ? (SC & FE & Z1 & Z2) FC']; subst. constructor; [|apply IH; assumption].
    assert (KL : m_kind m = GLinear) by (destruct m as [| |[]]; try contradiction; reflexivity).
    split; [congruence|]. split; [split; [rewrite K, KL; reflexivity|rewrite F, after_feed, FE; reflexivity]|].
    split; [rewrite F; apply stands_from; rewrite <- (level_xy _ _ _ A Z1); exact M|rewrite T; apply stands_to, (level_xy _ _ _ B Z2)]. }
  assert (KL : forall m, straight_cut m -> m_kind m = GLinear) by (intros [| |[]]; try contradiction; reflexivity).
  destruct EN as [(front & m & -> & FR & PL)|(m & -> & SC & FE & ZE & ->)].
  - apply Forall2_app_inv_l in H1 as (ef & em & H3 & H4 & ->). inversion H4 as [|? down ? e3 (st & M & K & F & T & _) H5]; subst. inversion H5; subst. clear H4 H5.
    destruct PL as (SC & (VX & VY) & Z1 & Z2 & _ & FE). exists (ef ++ [down]), down, ecuts, round, chord. split; [reflexivity|].
    split; [unfold feed_moves; rewrite filter_app; fold (feed_moves ef); rewrite (rapid_events _ _ FR H3); cbn [filter app]; rewrite K, (KL m SC); reflexivity|].
    split; [rewrite K; apply KL, SC|]. destruct M as (MX & MY & MZ). destruct (before_pos st m) as (BX & BY & BZ).
    split; [rewrite T; destruct (matches_after st m) as (_ & _ & X); apply X, Z2|]. split; [left|auto]. split; [|split].
    + unfold same_xy. rewrite F, T, BX, BY. unfold after_motion. cbn [set_motion set_pos ms_x ms_y]. split; [exact (axis_kept _ _ _ _ (or_intror eq_refl) VX MX)|exact (axis_kept _ _ _ _ (or_intror eq_refl) VY MY)].
    + rewrite F, BZ. apply MZ, Z1.
    + rewrite F, after_feed, FE. reflexivity.
  - inversion H1 as [|? down ? e3 (st & M & K & F & T & _) H5]; subst. inversion H5; subst. exists [down], down, ecuts, round, []. split; [reflexivity|].
    split; [unfold feed_moves; cbn [filter]; rewrite K, (KL m SC); reflexivity|]. split; [rewrite K; apply KL, SC|].
    split; [rewrite T; destruct (matches_after st m) as (_ & _ & X); apply X, ZE|]. split; [right; split; [reflexivity|]; split; [rewrite F, after_feed, FE; reflexivity|reflexivity]|auto].
Qed.

(** ** Depths of the contours *)
Lemma steps_down s : (0 < s)%Qc -> forall ds start final, steps_by s start final ds -> forall d, In d ds -> (d < start)%Qc.
Proof.
  intros P. induction ds as [|x ds IH]; intros start final H d [].
  - subst x. destruct H as (-> & _). clear - P. qlra.
  - destruct H as (-> & _ & H). apply (Qclt_trans _ (start - s)); [eapply IH; eassumption|]. clear - P. qlra.
Qed.
Lemma pocketed_low E so sd pr before ops ss : pocketed E so sd pr before ops ss -> (forall s, sd = Some s -> (0 <= s)%Qc) ->
  (forall f, In f (before ++ ops) -> (pf_depth f <= 0)%Qc) -> forall s f, In s ss -> In f s -> (pf_depth f <= 0)%Qc.
Proof.
  intros H HS. induction H as [before|before op ops ss ss' HP _ IH]; intros HF s f Hs Hf; [destruct Hs|]. apply in_app_or in Hs as [Hs|Hs].
  2:{ apply (IH) with (s := s); [|exact Hs|exact Hf]. intros g Hg. apply HF. rewrite <- app_assoc in Hg. exact Hg. }
  destruct HP as (stepped & fill & -> & (addrs & FI & _) & ST). apply in_app_or in Hs as [Hs|Hs].
  - destruct sd as [x|]; [|subst stepped; destruct Hs]. destruct ST as [S0 S1]. destruct (Qc_eq_dec x 0) as [->|NZ]; [rewrite S0 in Hs by reflexivity; destruct Hs|].
    assert (P : (0 < x)%Qc) by (destruct (Qcle_lt_or_eq _ _ (HS x eq_refl)) as [X|X]; [exact X|congruence]).
    destruct (S1 P) as (start & ds & SD & SB & css & -> & FD). apply in_concat in Hs as (cs & Hc & Hs).
    destruct (Forall2_in_r _ _ _ _ FD Hc) as (d & Hd & FC). destruct (Forall2_in_r _ _ _ _ FC Hs) as (s1 & _ & F1). destruct (Forall2_in_r _ _ _ _ F1 Hf) as (f1 & _ & (_ & _ & ->)).
    assert (D := steps_down _ P _ _ _ SB d Hd). assert (ST0 : (start <= 0)%Qc).
    { destruct SD as [(g & Hg & _ & <- & _)|(_ & ->)]; [apply HF, in_or_app; left; exact Hg|apply Qcle_refl]. }
    apply Qclt_le_weak. eapply Qclt_le_trans; eassumption.
  - destruct (Forall2_in_r _ _ _ _ FI Hs) as (s1 & _ & F1). destruct (Forall2_in_r _ _ _ _ F1 Hf) as (f1 & _ & (_ & _ & ->)). apply HF, in_or_app. right. left. reflexivity.
Qed.

(** ** Pockets *)
Lemma pocket_cut E fuel j areas avoids oo io ao ai so sd cmds : pocket_clipper E fuel j areas avoids oo io ao ai so sd = Ok cmds ->
  (0 < j_op_safe_height j)%Qc -> (forall s, sd = Some s -> (0 <= s)%Qc) ->
  exists opss avss pockets sequences gs,
    Forall2 (offset_face E oo io (j_precision j)) areas opss /\ Forall2 (offset_face E ao ai (j_precision j)) avoids avss /\
    levels E (concat opss) (concat avss) pockets /\ pocketed E so sd (j_precision j) [] pockets sequences /\
    cmds = concat gs /\ continuous av_none cmds /\ Forall2 (cut_contour (j_op_safe_height j) (j_plunge_feed j) (j_feed j)) (concat sequences) gs.
Proof.
  unfold pocket_clipper. intros H S0 HS. apply rbind_ok in H. destruct H as (opss & E1 & H). apply rbind_ok in H. destruct H as (avss & E2 & H).
  apply rbind_ok in H. destruct H as (pockets & E3 & H). apply rbind_ok in H. destruct H as (ss & E4 & H).
  destruct (route_sequences_spec _ _ _ _ _ _ H) as (gs & -> & CO & HG).
  pose proof (build_pocket_spec _ _ _ _ E3) as (ds & rs & L1 & L2 & L3 & L4 & L5). assert (PK := fill_ops_spec _ _ _ _ _ _ _ _ E4).
  assert (LOW : forall f, In f pockets -> (pf_depth f <= 0)%Qc /\ closed_path (pf_outer f)).
  { intros f Hf. subst pockets. apply in_concat in Hf as (r & Hr & Hf). destruct (Forall2_in_r _ _ _ _ L2 Hr) as (d & Hd & L). destruct (level_closed _ _ _ _ _ _ L Hf) as [-> C]. split; [|exact C].
    apply L4 in Hd as (f0 & Hf0 & <-). apply (proj1 (Forall_forall _ _) L5), in_or_app. left. exact Hf0. }
  assert (ALL : forall s f, In s ss -> In f s -> (pf_depth f <= 0)%Qc /\ closed_path (pf_outer f)).
  { intros s f Hs Hf. split; [eapply pocketed_low; [exact PK|exact HS|intros g Hg; apply LOW, Hg|exact Hs|exact Hf]|].
    set (F := fold_right qmin 0%Qc (map pf_depth pockets)).
    assert (MN : forall a b, (qmin a b <= a /\ qmin a b <= b)%Qc).
    { intros a b. unfold qmin. destruct (qltb b a) eqn:Q; [apply qltb_lt in Q|apply qltb_nlt in Q]; split; qlra. }
    assert (FF : (F <= 0)%Qc /\ forall f, In f pockets -> (F <= pf_depth f)%Qc).
    { subst F. clear - MN. induction pockets as [|g l IH]; [split; [apply Qcle_refl|intros f []]|]. cbn [map fold_right].
      destruct (MN (pf_depth g) (fold_right qmin 0%Qc (map pf_depth l))) as [M1 M2]. destruct IH as [I1 I2]. split; [eapply Qcle_trans; eassumption|].
      intros f [<-|Hf]; [exact M1|eapply Qcle_trans; [exact M2|apply I2, Hf]]. }
    eapply (fill_depths _ _ _ _ _ F _ _ _ E4); [apply FF|intros g []|apply FF|apply LOW|exact Hs|exact Hf]. }
  assert (GG : exists gss, concat gs = concat gss /\ Forall2 (cut_contour (j_op_safe_height j) (j_plunge_feed j) (j_feed j)) (concat ss) gss).
  { clear - HG ALL S0. induction HG as [|s g ss gs (p & Hg) _ IH]; [exists []; split; [reflexivity|constructor]|].
    destruct IH as (gss & EQ & F). { intros s' f Hs Hf. eapply ALL; [right; exact Hs|exact Hf]. }
    destruct (route_polyfaces_routed _ _ _ _ _ _ Hg) as (ks & R & ->). exists (ks ++ gss). split; [cbn; rewrite concat_app, EQ; reflexivity|]. cbn [concat]. apply Forall2_app; [|exact F].
    eapply routed_cut; [|exact R]. intros f Hf. destruct (ALL s f (or_introl eq_refl) Hf) as [A B]. split; [exact B|]. eapply Qcle_lt_trans; eassumption. }
  destruct GG as (gss & EQ & F). exists opss, avss, pockets, ss, gss.
  split; [apply mapM_ok in E1; eapply Forall2_impl; [|exact E1]; intros a b; apply offset_face_spec|].
  split; [apply mapM_ok in E2; eapply Forall2_impl; [|exact E2]; intros a b; apply offset_face_spec|].
  split; [exists ds, rs; auto|]. split; [exact PK|]. split; [exact EQ|]. split; [exact CO|exact F].
Qed.
Lemma contours_events S pf feed fs gs es : Forall2 (cut_contour S pf feed) fs gs -> Forall2 made (concat gs) es ->
  exists groups, es = concat groups /\ Forall2 (contour_traced S pf feed) fs groups.
Proof.
  intros HC HM. destruct (Forall2_split _ _ _ HM) as (ess & -> & HS). exists ess. split; [reflexivity|]. clear HM. revert ess HS.
  induction HC; intros ess HS; inversion HS; subst; constructor; [eapply contour_events; eassumption|auto].
Qed.
Lemma pocket_traced K WK F E fuel h r areas avoids a tl h' r' j' st : user_heap h ->
  job_pocket K WK F E fuel h r areas avoids a tl = (h', Ok r') -> hget h' r' = Some j' -> job_printable h' j' -> ms_ended st = false ->
  (0 < j_op_safe_height j')%Qc -> (forall s, pa_stepdown a = Some s -> (0 <= s)%Qc) ->
  exists sequences p bs before groups, pocket_contours K F E j' areas avoids a sequences /\
    to_gcode h' r' = Ok p /\ parse_program p = Some bs /\ snd (run st bs) = before ++ concat groups /\ continues h r st before /\
    Forall2 (contour_traced (j_op_safe_height j') (j_plunge_feed j') (j_feed j')) (concat sequences) groups.
Proof.
  intros HU HD HJ HP HE S0 SD. assert (HU' : user_heap h') by (pose proof (user_pocket h K WK F E fuel r areas avoids a tl HU) as X; rewrite HD in X; exact X).
  unfold job_pocket in HD. destruct (hget h r) as [j|] eqn:Ej; [|rewrite fluent_op_none in HD by exact Ej; discriminate].
  pose proof (fluent_op_spec h r j tl "Pocket" (pocket_gen K WK F E fuel areas avoids a) Ej) as FL. rewrite HD in FL. inversion FL as [|h1 r1 j1 cmds U E1 Eg]; subst.
  rewrite hget_new in HJ. injection HJ as <-. unfold pocket_gen in Eg. apply rbind_ok in Eg as (ms & Eg & EQ). injection EQ as <-.
  destruct (pocket_clipper_ok _ _ _ _ _ _ _ _ _ _ Eg) as (radius & ps & qs & HR & P1 & P2 & PC).
  destruct (pocket_cut _ _ _ _ _ _ _ _ _ _ _ _ PC S0 SD) as (opss & avss & pockets & ss & gs & O1 & O2 & LV & PK & EC & CO & CC).
  destruct (program_after _ _ _ _ _ _ _ _ _ st (j_operations j1) (Op (List.length h1) "Pocket" (map Motion ms)) HU HU' Ej HD (hget_new _ _) HP HE eq_refl) as (p & bs & before & st' & A & B & RD & E' & CT).
  destruct (made_from ms st' av_none RD (matches_none st') CO) as [_ ME]. rewrite EC in ME at 1. destruct (contours_events _ _ _ _ _ _ CC ME) as (groups & EE & FG).
  exists ss, p, bs, before, groups. split; [exists radius, ps, qs, opss, avss, pockets; repeat (split; [assumption|]); exact PK|].
  split; [exact A|]. split; [exact B|]. split; [|split; [exact CT|exact FG]]. rewrite E'. cbn [op_commands]. rewrite EE. reflexivity.
Qed.

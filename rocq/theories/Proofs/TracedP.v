(** Proofs for Spec/Traced.v. *)
From Verif Require Import Base.Str Base.Py Spec.Gcode Spec.Blocks Spec.Machine Spec.Program Spec.Paths Spec.Jobs Spec.Feeds Spec.Moves Spec.Axes Spec.Rapids Spec.Wires Spec.Curves Spec.Profiles Spec.OnMachine Spec.Arcs Spec.Traced
  Model.Groups Model.Geometry Model.Plane Model.Edges Model.Job Model.Routers Model.Tabs Model.Profile
  Proofs.MachineP Proofs.JobP Proofs.ProgramThmP Proofs.GeomP Proofs.RouteP Proofs.EdgeP Proofs.WireP Proofs.RouteThmP Proofs.AxesP Proofs.RapidsP Proofs.HistoryP Proofs.ProfileP Proofs.ProfileThmP Proofs.OnMachineP.
From Coq Require Import Lia.
Local Open Scope list_scope.

(** ** Moves and events one to one *)
Definition made (m : motion) (e : event) : Prop :=
  exists st, matches st (m_start m) /\ ev_kind e = m_kind m /\ ev_from e = before_motion st m /\ ev_to e = after_motion st m /\
    ready st /\ ev_i e = lookup "I" (motion_block m) /\ ev_j e = lookup "J" (motion_block m) /\ ev_k e = lookup "K" (motion_block m).
Lemma made_from ms : forall st c, ready st -> matches st c -> continuous c ms ->
  ready (fst (run st (flat_map command_blocks (map Motion ms)))) /\ Forall2 made ms (snd (run st (flat_map command_blocks (map Motion ms)))).
Proof.
  induction ms as [|m ms IH]; intros st c Hr HM HC; [split; [exact Hr|constructor]|]. destruct HC as [E C]. rewrite run_motion by exact Hr. cbn [fst snd].
  destruct (IH (after_motion st m) (m_end m) (ready_after st m Hr) (matches_after st m) C) as [R F]. split; [exact R|]. constructor; [|exact F].
  exists st. cbn [ev_kind ev_from ev_to ev_i ev_j ev_k]. rewrite E. auto 10.
Qed.
Lemma matches_none st : matches st av_none.
Proof. repeat split; intros v; discriminate. Qed.
Lemma made_calls css : forall st, ready st -> Forall (continuous av_none) css -> Forall2 made (concat css) (snd (run st (flat_map command_blocks (map Motion (concat css))))).
Proof.
  induction css as [|c css IH]; intros st Hr HC; [constructor|]. inversion HC as [|? ? C1 C2]; subst. cbn [concat].
  destruct (made_from c st av_none Hr (matches_none st) C1) as [R F]. rewrite map_app, flat_map_app, run_app. cbn [snd].
  apply Forall2_app; [exact F|apply IH; assumption].
Qed.

(** ** Edges *)
Definition cut_along (K : kernel) (precision : nat) (feed : pynum) (e : edge) (c : list motion) : Prop :=
  edge_sound e /\ exists arrow v, route_edge K e precision None None arrow (Some feed) = Ok (c, v).
Lemma edges_cut K j es : forall first body, (forall e, In e es -> edge_sound e) ->
  route_edges K j first None es = Ok body -> exists gs, body = concat gs /\ Forall2 (cut_along K (j_precision j) (j_feed j)) es gs.
Proof.
  induction es as [|e es IH]; intros first body HS H.
  - cbn in H. injection H as <-. exists []. split; [reflexivity|constructor].
  - cbn [route_edges] in H. apply rbind_ok in H as ([c v] & H1 & H). apply rbind_ok in H as (cs & H2 & H). injection H as <-.
    destruct (IH _ _ (fun e' I => HS e' (or_intror I)) H2) as (gs & -> & HF). exists (c :: gs). split; [reflexivity|]. constructor; [|exact HF].
    split; [apply HS; left; reflexivity|]. exists first, v. destruct first; exact H1.
Qed.
Lemma stands_from st v : matches st (from_vector v) -> forall m, stands_at v (before_motion st m).
Proof. intros (X & Y & Z) m. unfold stands_at. destruct (before_pos st m) as (-> & -> & ->). repeat split; [apply X|apply Y|apply Z]; reflexivity. Qed.
Lemma stands_to st m v : m_end m = from_vector v -> stands_at v (after_motion st m).
Proof. intros E. destruct (matches_after st m) as (X & Y & Z). rewrite E in X, Y, Z. repeat split; [apply X|apply Y|apply Z]; reflexivity. Qed.
Lemma after_last c m p : after p (c ++ [m]) = m_end m.
Proof. revert p. induction c as [|a c IH]; intros p; [reflexivity|]. cbn. apply IH. Qed.
Lemma centre_near c sx : (qabs (rounded 3 sx + rounded 3 (c - sx) - c) <= qq 1 1000)%Qc.
Proof.
  pose proof (rounded3_near sx) as A. pose proof (rounded3_near (c - sx)) as B. unfold half_unit in *. set (a := rounded 3 sx) in *. set (b := rounded 3 (c - sx)) in *. clearbody a b.
  assert (X : qq 1 1000 = (qq 1 2000 + qq 1 2000)%Qc) by (apply Qc_is_canon; reflexivity). rewrite X. set (t := qq 1 2000) in *. clearbody t.
  destruct (qabs_spec (sx - a)%Qc) as [[E1 S1]|[E1 S1]], (qabs_spec (c - sx - b)%Qc) as [[E2 S2]|[E2 S2]], (qabs_spec (a + b - c)%Qc) as [[E3 S3]|[E3 S3]]; rewrite E1 in A; rewrite E2 in B; rewrite E3; qlra.
Qed.
Definition on_way (e : edge) (p : vec) : Prop := exists t, (0 <= t)%Qc /\ (t <= 1)%Qc /\ p = travel_param e t.
Lemma on_way_start e : edge_sound e -> on_way e (travel_start e).
Proof.
  intros (A & B & _). exists 0%Qc. split; [discriminate|]. split; [discriminate|]. unfold travel_start, travel_param. destruct (e_reversed e).
  - replace ((1 - 0) * e_param1 e + 0 * e_param0 e)%Qc with (e_param1 e) by ring. auto.
  - replace ((1 - 0) * e_param0 e + 0 * e_param1 e)%Qc with (e_param0 e) by ring. auto.
Qed.
Lemma on_way_end e : edge_sound e -> on_way e (travel_end e).
Proof.
  intros (A & B & _). exists 1%Qc. split; [discriminate|]. split; [discriminate|]. unfold travel_end, travel_param. destruct (e_reversed e).
  - replace ((1 - 1) * e_param1 e + 1 * e_param0 e)%Qc with (e_param0 e) by ring. auto.
  - replace ((1 - 1) * e_param0 e + 1 * e_param1 e)%Qc with (e_param1 e) by ring. auto.
Qed.
Lemma on_way_half e : on_way e (travel_param e (qq 1 2)).
Proof. exists (qq 1 2). split; [discriminate|]. split; [discriminate|]. reflexivity. Qed.
Lemma arc_event e cw a mid b f m ev : on_way e a -> on_way e b -> is_arc_clockwise2 e = Ok cw -> arc_command cw (e_center e) a mid b f m -> made m ev -> arc_made e ev /\ stands_at b (ev_to ev).
Proof.
  intros (ta & A0 & A1 & EA) (tb & B0 & B1 & EB) HC (arrow & ->) (st & M & K & F & T & R & I & J & L). destruct M as (MX & MY & MZ). cbn [m_start from_vector] in *.
  destruct (motion_lookup (MArc cw (from_vector a) (from_vector b) (from_vector (e_center e)) (from_vector mid) arrow f)) as (_ & _ & _ & _ & _ & _ & _ & LI & LJ & LK).
  rewrite LI in I. rewrite LJ in J. rewrite LK in L. cbn [m_ijk option_map from_vector ax ay az centre_offset] in I, J, L.
  split; [|rewrite T; apply stands_to; reflexivity]. unfold arc_made. rewrite F, I, J, L, K. destruct (before_pos st (MArc cw (from_vector a) (from_vector b) (from_vector (e_center e)) (from_vector mid) arrow f)) as (-> & -> & ->).
  split; [apply R|]. split; [destruct cw; auto|]. split; [|split; [|split; [|split]]].
  - intros p D N. destruct (arc_direction e p D N) as (X & _). specialize (X cw HC). rewrite <- X. destruct cw; cbn; split; congruence.
  - eexists _, _. split; [apply MX; reflexivity|]. split; [reflexivity|apply centre_near].
  - eexists _, _. split; [apply MY; reflexivity|]. split; [reflexivity|apply centre_near].
  - eexists _, _. split; [apply MZ; reflexivity|]. split; [reflexivity|apply centre_near].
  - intros (r2 & z & LC). destruct (LC ta A0 A1) as [RA ZA], (LC tb B0 B1) as [RB ZB]. rewrite <- EA in RA, ZA. rewrite <- EB in RB, ZB.
    rewrite T. destruct (stands_to st (MArc cw (from_vector a) (from_vector b) (from_vector (e_center e)) (from_vector mid) arrow f) b eq_refl) as (TX & TY & TZ). split; [|rewrite TZ; unfold matches in *; rewrite (MZ _ eq_refl); congruence].
    unfold radii_agree. rewrite F, I, J, T. destruct (before_pos st (MArc cw (from_vector a) (from_vector b) (from_vector (e_center e)) (from_vector mid) arrow f)) as (-> & -> & _).
    exists (rounded 3 (vx a)), (rounded 3 (vy a)), (rounded 3 (vx b)), (rounded 3 (vy b)). eexists _, _.
    split; [apply MX; reflexivity|]. split; [apply MY; reflexivity|]. split; [exact TX|]. split; [exact TY|]. split; [reflexivity|]. split; [reflexivity|].
    apply arc_radii; [congruence| |]; rewrite qabs_sym; apply rounded3_near.
Qed.
Lemma line_event a b f m ev : line_command a b f m -> made m ev -> ev_kind ev = GLinear.
Proof. intros (arrow & ->) (st & _ & K & _). exact K. Qed.
Lemma shape_events K precision feed e c es : cut_along K precision feed e c -> Forall2 made c es -> edge_shape_made K e es.
Proof.
  intros (SO & arrow & v & HR) HM. pose proof (route_edge_shape _ _ _ _ _ _ _ SO HR) as HS. unfold edge_shape_made.
  assert (ONE : forall m, c = [m] -> exists ev, es = [ev] /\ made m ev).
  { intros m ->. inversion HM as [|? ev ? e3 X H3]; subst. inversion H3; subst. eauto. }
  assert (LIN : (exists m, c = [m] /\ line_command (travel_start e) (travel_end e) (Some feed) m) -> exists ev, es = [ev] /\ ev_kind ev = GLinear).
  { intros (m & E & L). destruct (ONE m E) as (ev & -> & X). exists ev. split; [reflexivity|]. eapply line_event; eassumption. }
  assert (ARC : (exists cw, is_arc_clockwise2 e = Ok cw /\
      if e_closed e then
        exists m1 m2, c = [m1; m2] /\
          arc_command cw (e_center e) (travel_start e) (travel_param e (qq 1 4)) (travel_param e (qq 1 2)) (Some feed) m1 /\
          arc_command cw (e_center e) (travel_param e (qq 1 2)) (travel_param e (qq 3 4)) (travel_end e) (Some feed) m2
      else if k_veq K (travel_start e) (travel_end e) then
        exists m, c = [m] /\ line_command (travel_start e) (travel_end e) (Some feed) m
      else exists m, c = [m] /\
          arc_command cw (e_center e) (travel_start e) (travel_param e (qq 1 2)) (travel_end e) (Some feed) m) ->
      if e_closed e then exists a b, es = [a; b] /\ arc_made e a /\ arc_made e b /\ stands_at (travel_param e (qq 1 2)) (ev_to a)
      else if k_veq K (travel_start e) (travel_end e) then exists ev, es = [ev] /\ ev_kind ev = GLinear
      else exists a, es = [a] /\ arc_made e a).
  { intros (cw & HC & H). destruct (e_closed e).
    - destruct H as (m1 & m2 & -> & A1 & A2). inversion HM as [|? a ? e3 X1 H3]; subst. inversion H3 as [|? b ? e4 X2 H4]; subst. inversion H4; subst.
      destruct (arc_event _ _ _ _ _ _ _ _ (on_way_start e SO) (on_way_half e) HC A1 X1) as [B1 B2]. destruct (arc_event _ _ _ _ _ _ _ _ (on_way_half e) (on_way_end e SO) HC A2 X2) as [B3 _]. exists a, b. auto.
    - destruct (k_veq K (travel_start e) (travel_end e)); [apply LIN, H|]. destruct H as (m & E & A). destruct (ONE m E) as (ev & -> & X). exists ev. split; [reflexivity|].
      apply (arc_event _ _ _ _ _ _ _ _ (on_way_start e SO) (on_way_end e SO) HC A X). }
  assert (SPL : (let n := edge_interpolation_count e precision in length c = n /\ Forall straight_cut c /\
      (forall k m, nth_error c k = Some m -> m_end m = from_vector (travel_pos e (qz (Z.of_nat k) / qz (Z.of_nat n - 1))))) ->
      exists n vs, sampled_in e n vs /\ Forall2 (fun v ev => ev_kind ev = GLinear /\ stands_at v (ev_to ev)) vs es).
  { cbv zeta. intros (LN & SC & EN). set (n := edge_interpolation_count e precision) in *.
    assert (N2 : (2 <= n)%nat) by (unfold n, edge_interpolation_count; lia).
    exists (n - 1)%nat, (map (fun k => travel_pos e (qz (Z.of_nat k) / qz (Z.of_nat (n - 1)))%Qc) (seq 0 n)). split.
    - split; [lia|]. split; [rewrite map_length, seq_length; lia|]. intros k Hk. rewrite nth_error_map, (nth_error_nth' _ 0%nat) by (rewrite seq_length; lia). rewrite seq_nth by lia. reflexivity.
    - assert (EN' : forall k m, nth_error c k = Some m -> m_end m = from_vector (travel_pos e (qz (Z.of_nat (0 + k)) / qz (Z.of_nat (n - 1)))%Qc)).
      { intros k m Hk. rewrite (EN k m Hk). cbn [Nat.add]. replace (Z.of_nat (n - 1)) with (Z.of_nat n - 1)%Z by lia. reflexivity. }
      clear - LN SC EN' HM. clearbody n. assert (G : forall i, (forall k m, nth_error c k = Some m -> m_end m = from_vector (travel_pos e (qz (Z.of_nat (i + k)) / qz (Z.of_nat (n - 1)))%Qc)) ->
        Forall2 (fun v ev => ev_kind ev = GLinear /\ stands_at v (ev_to ev)) (map (fun k => travel_pos e (qz (Z.of_nat k) / qz (Z.of_nat (n - 1)))%Qc) (seq i (length c))) es).
      { clear EN' LN. induction HM as [|m ev c es (st & M & KK & F & T & _) _ IH]; intros i HI; [constructor|]. inversion SC; subst. cbn [length seq map]. constructor.
        - split; [rewrite KK; destruct m as [| |[]]; try contradiction; reflexivity|]. rewrite T. apply stands_to. specialize (HI 0%nat m eq_refl). rewrite Nat.add_0_r in HI. exact HI.
        - apply IH; [assumption|]. intros k m' Hk. specialize (HI (S k) m' Hk). rewrite Nat.add_succ_r in HI. exact HI. }
      pose proof (G 0%nat EN') as X. rewrite LN in X. exact X. }
  destruct (e_geom e); [apply LIN, HS|apply ARC, HS|apply ARC, HS|apply SPL, HS|apply SPL, HS|apply SPL, HS|exact HS].
Qed.
Lemma edge_events K precision feed e c es : cut_along K precision feed e c -> Forall2 made c es -> edge_traced K feed e es.
Proof.
  intros CA HM. assert (SH := shape_events _ _ _ _ _ _ CA HM). destruct CA as (SO & arrow & v & HR).
  destruct (route_edge_chain _ _ _ _ _ _ _ _ _ SO ltac:(auto) HR) as (_ & NE & FF & CO & AF). cbv zeta in *. split; [|split; [|split; [|exact SH]]].
  - clear - FF HM. induction HM as [|m ev c es (st & _ & K' & F & _) _ IH]; [constructor|]. inversion FF as [|? ? (NR & FE) FF']; subst. constructor; [|apply IH; assumption].
    split; [rewrite K'; apply not_rapid_kind; assumption|]. rewrite F, after_feed, FE. reflexivity.
  - destruct HM as [|m ev c es (st & M & _ & F & _) _]; [contradiction NE; reflexivity|]. exists ev, es. split; [reflexivity|].
    destruct CO as [E _]. rewrite F. apply stands_from. rewrite <- E. exact M.
  - clear SH. destruct c as [|m c _] using rev_ind; [contradiction NE; reflexivity|]. rewrite after_last in AF.
    apply Forall2_app_inv_l in HM as (e1 & e2 & _ & HM & ->). inversion HM as [|? ev ? e3 (st & _ & _ & _ & T & _) H3]; subst. inversion H3; subst.
    exists e1, ev. split; [reflexivity|]. rewrite T. apply stands_to, AF.
Qed.

(** ** One wire *)
Lemma enter p v R S pf : (vz v < S)%Qc -> exists front m, rapid_to p v R (Some S) (Some pf) = front ++ [m] /\ Forall rapid front /\ plunge S (vz v) pf m.
Proof.
  intros L. destruct (rapid_to_shape p v R (Some S) (Some pf)) as (tr & de & -> & HT & ->). assert (L' := L). apply qltb_lt in L'. rewrite L'.
  eexists (_ :: tr ++ [_]), _. split; [cbn [app]; rewrite <- app_assoc; cbn [app]; reflexivity|]. split.
  - constructor; [exact I|]. apply Forall_app. split; [|repeat constructor]. destruct HT as [(-> & _)|(-> & _)]; repeat constructor.
  - repeat split; auto.
Qed.
Definition cut_wire (K : kernel) (precision : nat) (S : Qc) (pf feed : pynum) (w : list edge) (g : list motion) : Prop :=
  exists front m d bodies, g = (front ++ [m]) ++ concat bodies /\ Forall rapid front /\ plunge S d pf m /\ Forall2 (cut_along K precision feed) w bodies.
Lemma wires_cut K j : forall ws pe pp gs, wires_routed K j None pe pp (map WWire ws) gs -> (forall w, In w ws -> traceable K (j_op_safe_height j) w) ->
  Forall2 (cut_wire K (j_precision j) (j_op_safe_height j) (j_plunge_feed j) (j_feed j)) ws gs.
Proof.
  induction ws as [|w ws IH]; intros pe pp gs H HT; inversion H; subst; [constructor|].
  constructor; [|eapply IH; [eassumption|intros; apply HT; right; assumption]].
  destruct (HT w (or_introl eq_refl)) as ((e & rest & EW & L) & _ & HS & HK).
  match goal with HW : wire_routed _ _ _ _ _ _ _ _ _ _ _ _ |- _ =>
    destruct HW as [e0 es0 body0 closing0 param0 v0 EW0 EP _ HB HC|u d t s e0 es0 body0 closing0 param0 v0 EPe HN Es _ _ _ HSh EP HB HC]; [|discriminate] end.
  cbn [wire_edges] in EW0. rewrite EW in EW0. injection EW0 as <- <-.
  assert (param0 = None).
  { rewrite EP. destruct pe as [u|]; [|reflexivity]. destruct (k_nearest K u (WWire w)) as [[d [?|id p]]|] eqn:E; try reflexivity. exfalso. eapply HK; exact E. }
  clear EP. subst param0. cbn [truthy] in HC. destruct HC as [-> _].
  rewrite <- EW in HB. destruct (edges_cut _ _ _ _ _ HS HB) as (bs & -> & HF).
  destruct (enter pp (travel_start e) (j_rapid_height j) (j_op_safe_height j) (j_plunge_feed j) L) as (front & m & E & FR & PL).
  exists front, m, (vz (travel_start e)), bs. unfold g. rewrite E, app_nil_r. auto.
Qed.
Lemma rapid_events ms es : Forall rapid ms -> Forall2 made ms es -> feed_moves es = [].
Proof.
  intros HR HM. induction HM as [|m e ms es (st & _ & K & _) _ IH]; [reflexivity|]. inversion HR; subst. unfold feed_moves in *. cbn [filter].
  rewrite K, rapid_kind by assumption. apply IH. assumption.
Qed.
Lemma wire_events K0 precision S pf feed w g es : cut_wire K0 precision S pf feed w g -> Forall2 made g es -> wire_traced K0 S pf feed w es.
Proof.
  intros (front & m & d & bodies & -> & FR & PL & FB) HM. apply Forall2_app_inv_l in HM as (entry & rest & H1 & H2 & ->).
  apply Forall2_app_inv_l in H1 as (ef & em & H3 & H4 & ->). inversion H4 as [|? down ? e3 (st & M & K & F & T & _) H5]; subst. inversion H5; subst. clear H4 H5.
  destruct (Forall2_split _ _ _ H2) as (ess & -> & HS). exists (ef ++ [down]), down, ess. split; [reflexivity|].
  destruct PL as (SC & (VX & VY) & Z1 & Z2 & _ & FE). assert (KL : m_kind m = GLinear) by (destruct m as [| |[]]; try contradiction; reflexivity).
  split; [unfold feed_moves; rewrite filter_app; fold (feed_moves ef); rewrite (rapid_events _ _ FR H3); cbn [filter app]; rewrite K, KL; reflexivity|].
  split; [congruence|]. destruct M as (MX & MY & MZ). destruct (before_pos st m) as (BX & BY & BZ). split; [|split; [|split]].
  - unfold same_xy. rewrite F, T, BX, BY. unfold after_motion. cbn [set_motion set_pos ms_x ms_y]. split; [exact (axis_kept _ _ _ _ (or_intror eq_refl) VX MX)|exact (axis_kept _ _ _ _ (or_intror eq_refl) VY MY)].
  - rewrite F, BZ. apply MZ, Z1.
  - rewrite F, after_feed, FE. reflexivity.
  - clear - FB HS. revert ess HS. induction FB as [|e c w bodies H _ IH]; intros ess HS; inversion HS; subst; constructor; [eapply edge_events; eassumption|apply IH; assumption].
Qed.

(** ** Profiles *)
Lemma Forall2_of_concat {A B} (R : A -> B -> Prop) lss gss : Forall2 (Forall2 R) lss gss -> Forall2 R (concat lss) (concat gss).
Proof. induction 1; cbn; [constructor|apply Forall2_app; assumption]. Qed.
Lemma profile_cut K TK WK j w o sd t cmds radius bases pss : profile K TK WK j w o sd t = Ok cmds -> tool_radius j = Some radius ->
  offset_wire K WK (wk_transform WK (j_top j) w) (o * radius) = Ok bases -> Forall2 (fun b ps => profile_toolpaths TK WK j sd t b = Ok ps) bases pss ->
  (forall p, In p (concat pss) -> traceable K (j_op_safe_height j) p) ->
  continuous av_none cmds /\ exists gs, cmds = concat gs /\ Forall2 (cut_wire K (j_precision j) (j_op_safe_height j) (j_plunge_feed j) (j_feed j)) (concat pss) gs.
Proof.
  intros H HR HO HP HT. destruct (profile_inv _ _ _ _ _ _ _ _ _ H) as (r & bases' & paths & E1 & E2 & E3 & E4).
  rewrite HR in E1. injection E1 as <-. rewrite HO in E2. injection E2 as <-.
  assert (paths = pss) as ->. { clear - HP E3. revert pss HP. induction E3 as [|b p bs ps X _ IH]; intros pss HP; inversion HP; subst; [reflexivity|]. f_equal; [congruence|apply IH; assumption]. }
  split.
  - refine (wires_continuous K j _ None None cmds E4 _ _ _ _ _).
    + intros x e Hx He. apply in_map_iff in Hx as (p & <- & Hp). apply (HT p Hp), He.
    + intros x Hx. apply in_map_iff in Hx as (p & <- & Hp). apply (HT p Hp).
    + congruence.
    + intros x e rest Hx E. apply in_map_iff in Hx as (p & <- & Hp). destruct (HT p Hp) as ((e' & rest' & E' & L) & _). cbn in E. rewrite E' in E. injection E as <- <-. exact L.
    + intros x u Hx. apply in_map_iff in Hx as (p & <- & Hp). destruct (HT p Hp) as (_ & _ & _ & HK). unfold good_answer.
      destruct (k_nearest K u (WWire p)) as [[d [?|id q]]|] eqn:E; [exact I| |exact I]. exfalso. eapply HK; exact E.
  - destruct (wires_split _ _ _ _ _ _ E4) as (gs & -> & HG).
    + intros x Hx. apply in_map_iff in Hx as (p & <- & Hp). destruct (HT p Hp) as ((e' & rest' & E' & _) & _). cbn. rewrite E'. discriminate.
    + exists gs. split; [reflexivity|]. eapply wires_cut; eassumption.
Qed.
Lemma Forall2_app_concat {A B} (R : A -> list B -> Prop) bss : forall pss, Forall2 R (concat bss) pss -> exists psss, pss = concat psss /\ Forall2 (Forall2 R) bss psss.
Proof. intros pss H. destruct (Forall2_split _ _ _ H) as (x & -> & F). exists x. auto. Qed.
Lemma group_cut K TK WK j sd t radius ws o cmds paths : profile_group K TK WK j sd t ws o = Ok cmds -> tool_radius j = Some radius ->
  toolpaths_of K TK WK j radius ws o sd t paths -> (forall p, In p paths -> traceable K (j_op_safe_height j) p) ->
  exists css gs, cmds = concat css /\ Forall (continuous av_none) css /\ cmds = concat gs /\ Forall2 (cut_wire K (j_precision j) (j_op_safe_height j) (j_plunge_feed j) (j_feed j)) paths gs.
Proof.
  intros HG HR (bases & pss & HO & HP & ->) HT. destruct o as [o|]; cbn [profile_group offsets_of] in *.
  2:{ injection HG as <-. subst. inversion HP; subst. exists [], []. repeat split; constructor. }
  apply rbind_ok in HG as (cs & HG & EQ). injection EQ as <-. destruct HO as (bss & HO & ->). apply mapM_ok in HG.
  destruct (Forall2_split _ _ _ HP) as (psss & -> & HPS). clear HP. exists cs.
  assert (X : Forall (continuous av_none) cs /\ exists gs, concat cs = concat gs /\ Forall2 (cut_wire K (j_precision j) (j_op_safe_height j) (j_plunge_feed j) (j_feed j)) (concat (concat psss)) gs).
  { revert bss HO psss HPS HT. induction HG as [|w c ws cs E _ IH]; intros bss HO psss HPS HT; inversion HO as [|? bs ? bss' O1 O2]; subst; inversion HPS as [|? ps ? psss' P1 P2]; subst.
    - split; [constructor|]. exists []. split; [reflexivity|constructor].
    - cbn [concat] in HT. rewrite concat_app in HT. destruct (IH bss' O2 psss' P2) as (C2 & gs2 & E2 & F2). { intros p Hp. apply HT, in_or_app. right. exact Hp. }
      destruct (profile_cut _ _ _ _ _ _ _ _ _ _ _ _ E HR O1 P1) as (C1 & gs1 & E1 & F1). { intros p Hp. apply HT, in_or_app. left. exact Hp. }
      split; [constructor; assumption|]. exists (gs1 ++ gs2). split; [cbn; rewrite concat_app; congruence|]. cbn [concat]. rewrite concat_app. apply Forall2_app; assumption. }
  destruct X as (C & gs & E & F). exists gs. auto.
Qed.
Lemma cut_events K precision S pf feed paths gs es : Forall2 (cut_wire K precision S pf feed) paths gs -> Forall2 made (concat gs) es ->
  exists groups, es = concat groups /\ Forall2 (wire_traced K S pf feed) paths groups.
Proof.
  intros HC HM. destruct (Forall2_split _ _ _ HM) as (ess & -> & HS). exists ess. split; [reflexivity|]. clear HM. revert ess HS.
  induction HC; intros ess HS; inversion HS; subst; constructor; [eapply wire_events; eassumption|auto].
Qed.
Lemma wire_profile_traced K TK WK h r ws o sd t tl h' r' j' st radius paths : user_heap h ->
  job_wire_profile K TK WK h r ws o sd t tl = (h', Ok r') -> hget h' r' = Some j' -> job_printable h' j' -> ms_ended st = false ->
  tool_radius j' = Some radius -> toolpaths_of K TK WK j' radius ws (Some o) sd t paths -> (forall p, In p paths -> traceable K (j_op_safe_height j') p) ->
  exists p bs before groups, to_gcode h' r' = Ok p /\ parse_program p = Some bs /\ snd (run st bs) = before ++ concat groups /\ continues h r st before /\
    Forall2 (wire_traced K (j_op_safe_height j') (j_plunge_feed j') (j_feed j')) paths groups.
Proof.
  intros HU HD HJ HP HE HR HO HT.
  assert (HU' : user_heap h') by (pose proof (user_wire_profile h K TK WK r ws o sd t tl HU) as X; rewrite HD in X; exact X).
  unfold job_wire_profile in HD. destruct (hget h r) as [j|] eqn:Ej; [|rewrite fluent_op_none in HD by exact Ej; discriminate].
  pose proof (fluent_op_spec h r j tl "Wire Profile" (wire_profile_gen K TK WK ws o sd t) Ej) as F. rewrite HD in F. inversion F as [|h1 r1 j1 cmds U E1 Eg]; subst.
  rewrite hget_new in HJ. injection HJ as <-. unfold wire_profile_gen in Eg. apply rbind_ok in Eg as (cs & Eg & EQ). injection EQ as <-.
  destruct (group_cut K TK WK j1 sd t radius ws (Some o) cs paths Eg HR HO HT) as (css & gs & EC & CC & EG & G).
  destruct (program_after _ _ _ _ _ _ _ _ _ st (j_operations j1) (Op (List.length h1) "Wire Profile" (map Motion cs)) HU HU' Ej HD (hget_new _ _) HP HE eq_refl) as (p & bs & before & st' & A & B & RD & E & CT).
  assert (ME := made_calls css st' RD CC). rewrite <- EC in ME. rewrite EG in ME at 1. destruct (cut_events _ _ _ _ _ _ _ _ G ME) as (groups & EE & FG).
  exists p, bs, before, groups. split; [exact A|]. split; [exact B|]. split; [|split; [exact CT|exact FG]]. rewrite E. cbn [op_commands]. rewrite EE. reflexivity.
Qed.
Lemma profile_traced K TK WK h r shapes oo io sd t tl h' r' j' st radius inners outers : user_heap h ->
  job_profile K TK WK h r shapes oo io sd t tl = (h', Ok r') -> hget h' r' = Some j' -> job_printable h' j' -> ms_ended st = false ->
  tool_radius j' = Some radius ->
  toolpaths_of K TK WK j' radius (flat_map inners_of shapes) io sd t inners -> toolpaths_of K TK WK j' radius (flat_map outer_of shapes) oo sd t outers ->
  (forall p, In p (inners ++ outers) -> traceable K (j_op_safe_height j') p) ->
  exists p bs before groups, to_gcode h' r' = Ok p /\ parse_program p = Some bs /\ snd (run st bs) = before ++ concat groups /\ continues h r st before /\
    Forall2 (wire_traced K (j_op_safe_height j') (j_plunge_feed j') (j_feed j')) (inners ++ outers) groups.
Proof.
  intros HU HD HJ HP HE HR HI HO HT.
  assert (HU' : user_heap h') by (pose proof (user_profile h K TK WK r shapes oo io sd t tl HU) as X; rewrite HD in X; exact X).
  unfold job_profile in HD. destruct (hget h r) as [j|] eqn:Ej; [|discriminate].
  destruct (negb (is_some (j_tool_diameter j))); [discriminate|]. destruct (negb (is_some oo) && negb (is_some io))%bool; [discriminate|].
  assert (SU : Forall supported shapes).
  { apply Forall_forall. intros x Hx ->. assert (X : extract_wires shapes = Err ValueError) by (apply extract_wires_err; auto). rewrite X in HD. discriminate. }
  rewrite (extract_wires_ok shapes SU) in HD.
  pose proof (fluent_op_spec h r j tl "Profile" (profile_gen K TK WK (flat_map outer_of shapes) (flat_map inners_of shapes) oo io sd t) Ej) as F. rewrite HD in F. inversion F as [|h1 r1 j1 cmds U E1 Eg]; subst.
  rewrite hget_new in HJ. injection HJ as <-. unfold profile_gen in Eg. apply rbind_ok in Eg as (ci & Ei & Eg). apply rbind_ok in Eg as (co & Eo & EQ). injection EQ as <-.
  destruct (group_cut K TK WK j1 sd t radius _ _ ci inners Ei HR HI) as (csi & gi & ECi & CCi & EGi & Gi). { intros b Hb. apply HT, in_or_app. left. exact Hb. }
  destruct (group_cut K TK WK j1 sd t radius _ _ co outers Eo HR HO) as (cso & go & ECo & CCo & EGo & Go). { intros b Hb. apply HT, in_or_app. right. exact Hb. }
  destruct (program_after _ _ _ _ _ _ _ _ _ st (j_operations j1) (Op (List.length h1) "Profile" (map Motion (ci ++ co))) HU HU' Ej HD (hget_new _ _) HP HE eq_refl) as (p & bs & before & st' & A & B & RD & E & CT).
  assert (ME := made_calls (csi ++ cso) st' RD (proj2 (Forall_app _ _ _) (conj CCi CCo))). rewrite concat_app, <- ECi, <- ECo in ME.
  assert (EA : ci ++ co = concat (gi ++ go)) by (rewrite concat_app; congruence). rewrite EA in ME at 1.
  destruct (cut_events _ _ _ _ _ _ _ _ (Forall2_app Gi Go) ME) as (groups & EE & FG).
  exists p, bs, before, groups. split; [exact A|]. split; [exact B|]. split; [|split; [exact CT|exact FG]]. rewrite E. cbn [op_commands]. rewrite EE. reflexivity.
Qed.

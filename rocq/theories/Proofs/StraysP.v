(** Proofs for Spec/Strays.v. *)
From Verif Require Import Base.Str Base.Py Spec.Gcode Spec.Blocks Spec.Machine Spec.Program Spec.Paths Spec.Jobs Spec.Feeds Spec.Moves Spec.Axes Spec.Rapids Spec.Wires Spec.Curves Spec.Profiles Spec.OnMachine Spec.Arcs Spec.Traced Spec.Strays
  Model.Groups Model.Geometry Model.Plane Model.Edges Model.Job Model.Routers Model.Tabs Model.Profile
  Proofs.MachineP Proofs.JobP Proofs.ProgramThmP Proofs.GeomP Proofs.RouteP Proofs.EdgeP Proofs.WireP Proofs.RouteThmP Proofs.AxesP Proofs.RapidsP Proofs.HistoryP Proofs.ProfileP Proofs.ProfileThmP Proofs.OnMachineP Proofs.TracedP Proofs.TabsP.
From Coq Require Import Lia.
Local Open Scope list_scope.

(** ** Moves printed alike: where a straight cut says it starts is not printed *)
Definition alike (m m' : motion) : Prop := motion_block m = motion_block m' /\ m_end m = m_end m'.
Lemma alike_refl ms : Forall2 alike ms ms.
Proof. induction ms; constructor; [split; reflexivity|assumption]. Qed.
Lemma alike_blocks a b : Forall2 alike a b -> flat_map command_blocks (map Motion a) = flat_map command_blocks (map Motion b).
Proof. induction 1 as [|m m' a b [E _] _ IH]; [reflexivity|]. cbn. rewrite E, IH. reflexivity. Qed.
Lemma alike_after a b : Forall2 alike a b -> forall p, after p a = after p b.
Proof. induction 1 as [|m m' a b [_ E] _ IH]; intros p; [reflexivity|]. cbn. rewrite E. apply IH. Qed.
Lemma alike_concat a b : Forall2 (Forall2 alike) a b -> Forall2 alike (concat a) (concat b).
Proof. apply Forall2_of_concat. Qed.

Definition cut_and (K : kernel) (precision : nat) (S : Qc) (pf feed : pynum) (w : list edge) (g : list motion) : Prop :=
  exists main more places, g = main ++ more /\ cut_wire K precision S pf feed w main /\ stray K w places /\
    Forall2 (fun v m => exists st, m = MCut KCut st (from_vector v) false (Some feed)) places more.

Lemma wire_retold K j pe pp w es param access body closing v : wire_routed K j None pe pp (WWire w) es param access body closing v ->
  entered_straight K (j_op_safe_height j) w ->
  exists g, Forall2 alike (access ++ body ++ closing) g /\ continuous pp g /\ cut_and K (j_precision j) (j_op_safe_height j) (j_plunge_feed j) (j_feed j) w g.
Proof.
  intros HW ((e & rest & EW & L & HK) & HC & HS).
  destruct HW as [e0 es0 body0 closing0 param0 v0 EW0 EP _ HB HCl|u d t s e0 es0 body0 closing0 param0 v0 EPe HN Es _ _ _ HSh EP HB HCl]; [|discriminate].
  cbn [wire_edges] in EW0. rewrite EW in EW0. injection EW0 as <- <-.
  destruct (rapid_to_safe pp (travel_start e) (j_rapid_height j) (j_op_safe_height j) (j_plunge_feed j)) as (A1 & _ & _ & _ & _ & A6 & _).
  assert (L' := L). apply qltb_lt in L'. rewrite L' in A6.
  assert (A7 : after pp (rapid_to pp (travel_start e) (j_rapid_height j) (Some (j_op_safe_height j)) (Some (j_plunge_feed j))) = from_vector (travel_start e)) by (rewrite A6; destruct (travel_start e); reflexivity). clear A6.
  destruct (enter pp (travel_start e) (j_rapid_height j) (j_op_safe_height j) (j_plunge_feed j) L) as (front & m & EE & FR & PL).
  assert (MAIN : forall body, route_edges K j true None (e :: rest) = Ok body ->
    continuous pp (rapid_to pp (travel_start e) (j_rapid_height j) (Some (j_op_safe_height j)) (Some (j_plunge_feed j)) ++ body) /\
    after pp (rapid_to pp (travel_start e) (j_rapid_height j) (Some (j_op_safe_height j)) (Some (j_plunge_feed j)) ++ body) = from_vector (travel_end (last (e :: rest) e)) /\
    cut_wire K (j_precision j) (j_op_safe_height j) (j_plunge_feed j) (j_feed j) w (rapid_to pp (travel_start e) (j_rapid_height j) (Some (j_op_safe_height j)) (Some (j_plunge_feed j)) ++ body)).
  { intros b Hb. destruct (route_edges_chain K j (e :: rest) true None b e rest eq_refl) as (B1 & B2); [rewrite <- EW; exact HS|rewrite <- EW; exact HC|congruence|exact Hb|]. cbv iota zeta in B1, B2.
    split; [apply continuous_app; rewrite A7; auto|]. split; [rewrite after_app, A7; exact B2|]. rewrite <- EW in Hb. destruct (edges_cut _ _ _ _ _ HS Hb) as (bs & -> & HF).
    exists front, m, (vz (travel_start e)), bs. rewrite EE. auto. }
  destruct param0 as [p|].
  2:{ cbn [truthy] in HCl. destruct HCl as [-> _]. rewrite app_nil_r. destruct (MAIN body0 HB) as (C1 & _ & C2). eexists. split; [apply alike_refl|]. split; [exact C1|].
      eexists _, [], []. split; [symmetry; apply app_nil_r|]. split; [exact C2|]. split; [left; reflexivity|constructor]. }
  destruct pe as [u|]; [|discriminate]. destruct (k_nearest K u (WWire w)) as [[d [?|id q]]|] eqn:EK; try discriminate. injection EP as ->.
  assert (G := HK _ _ _ _ EK). cbn [route_edges] in HB. unfold route_edge in HB at 1. rewrite G in HB. cbn [rbind] in HB. apply rbind_ok in HB as (cs & HB & EQ). injection EQ as <-.
  assert (HB' : route_edges K j true None (e :: rest) = Ok (mk_cut (from_vector (edge_end_point e)) (Some (from_vector (edge_start_point e))) true (Some (j_feed j)) :: cs)).
  { cbn [route_edges]. unfold route_edge at 1. rewrite G. cbn [rbind]. assert (X : forall a b, route_edges K j false a rest = route_edges K j false b rest) by (clear; induction rest as [|x r IH]; intros a b; cbn; [reflexivity|]; rewrite (IH a b); reflexivity). rewrite (X None (Some q)), HB. reflexivity. }
  destruct (MAIN _ HB') as (C1 & C2 & C3). clear MAIN HB HB'. rewrite mk_cut_full in C1, C2, C3. rewrite mk_cut_full.
  set (acc := rapid_to pp (travel_start e) (j_rapid_height j) (Some (j_op_safe_height j)) (Some (j_plunge_feed j))) in *. clearbody acc.
  destruct (truthy (Some q)) eqn:T.
  - unfold route_edge in HCl. rewrite G in HCl. cbn [rbind] in HCl. injection HCl as <- <-. rewrite mk_cut_full.
    exists ((acc ++ MCut KCut (from_vector (edge_start_point e)) (from_vector (edge_end_point e)) true (Some (j_feed j)) :: cs) ++ [MCut KCut (from_vector (travel_end (last (e :: rest) e))) (from_vector (e_param e q)) false (Some (j_feed j))]).
    split; [rewrite <- app_assoc; apply Forall2_app; [apply alike_refl|]; cbn [app]; constructor; [split; reflexivity|]; apply Forall2_app; [apply alike_refl|constructor; [split; reflexivity|constructor]]|].
    split; [apply continuous_app; split; [exact C1|]; rewrite C2; repeat split|].
    eexists _, _, [e_param e q]. split; [reflexivity|]. split; [exact C3|]. split.
    + right. exists e, rest, u, d, id, q. split; [exact EW|]. split; [exact EK|]. split; [|reflexivity]. intros ->. discriminate T.
    + constructor; [|constructor]. eexists. reflexivity.
  - destruct HCl as [-> _]. exists (acc ++ MCut KCut (from_vector (edge_start_point e)) (from_vector (edge_end_point e)) true (Some (j_feed j)) :: cs). split; [rewrite app_nil_r; apply Forall2_app; [apply alike_refl|]; cbn [app]; constructor; [split; reflexivity|]; apply alike_refl|]. split; [exact C1|].
    eexists _, [], []. split; [symmetry; apply app_nil_r|]. split; [exact C3|]. split; [left; reflexivity|constructor].
Qed.
Lemma wires_retold K j : forall ws pe pp gs, wires_routed K j None pe pp (map WWire ws) gs -> (forall w, In w ws -> entered_straight K (j_op_safe_height j) w) ->
  exists gs', Forall2 (Forall2 alike) gs gs' /\ continuous pp (concat gs') /\ Forall2 (cut_and K (j_precision j) (j_op_safe_height j) (j_plunge_feed j) (j_feed j)) ws gs'.
Proof.
  induction ws as [|w ws IH]; intros pe pp gs H HT; inversion H; subst; [exists []; repeat constructor|].
  match goal with HW : wire_routed _ _ _ _ _ _ _ _ _ _ _ _ |- _ => destruct (wire_retold _ _ _ _ _ _ _ _ _ _ _ HW (HT w (or_introl eq_refl))) as (g' & A & C & D) end.
  match goal with HR : wires_routed _ _ _ _ _ _ _ |- _ => rewrite (alike_after _ _ A) in HR; destruct (IH _ _ _ HR (fun w' I => HT w' (or_intror I))) as (gs' & A' & C' & D') end.
  exists (g' :: gs'). split; [constructor; assumption|]. split; [cbn; apply continuous_app; auto|]. constructor; assumption.
Qed.

(** ** Events *)
Lemma wire_events_and K precision S pf feed w g es : cut_and K precision S pf feed w g -> Forall2 made g es -> traced_and K S pf feed w es.
Proof.
  intros (main & more & places & -> & CW & ST & FP) HM. apply Forall2_app_inv_l in HM as (e1 & e2 & H1 & H2 & ->). exists e1, e2, places. split; [reflexivity|].
  split; [eapply wire_events; eassumption|]. split; [exact ST|]. clear - FP H2. revert e2 H2. induction FP as [|v m places more (st & ->) _ IH]; intros e2 H2; inversion H2 as [|? ev ? e3 MD H3]; subst; constructor; [|apply IH, H3].
  destruct MD as (s & _ & KE & F & T & _). split; [exact KE|]. split; [split; [rewrite KE; reflexivity|rewrite F, after_feed; reflexivity]|]. rewrite T. apply stands_to. reflexivity.
Qed.
Lemma cut_events_and K precision S pf feed paths gs es : Forall2 (cut_and K precision S pf feed) paths gs -> Forall2 made (concat gs) es ->
  exists groups, es = concat groups /\ Forall2 (traced_and K S pf feed) paths groups.
Proof.
  intros HC HM. destruct (Forall2_split _ _ _ HM) as (ess & -> & HS). exists ess. split; [reflexivity|]. clear HM. revert ess HS.
  induction HC; intros ess HS; inversion HS; subst; constructor; [eapply wire_events_and; eassumption|auto].
Qed.

(** ** Profiles *)
Lemma profile_retold K TK WK j w o sd t cmds radius bases pss : profile K TK WK j w o sd t = Ok cmds -> tool_radius j = Some radius ->
  offset_wire K WK (wk_transform WK (j_top j) w) (o * radius) = Ok bases -> Forall2 (fun b ps => profile_toolpaths TK WK j sd t b = Ok ps) bases pss ->
  (forall p, In p (concat pss) -> entered_straight K (j_op_safe_height j) p) ->
  exists gs, Forall2 alike cmds (concat gs) /\ continuous av_none (concat gs) /\ Forall2 (cut_and K (j_precision j) (j_op_safe_height j) (j_plunge_feed j) (j_feed j)) (concat pss) gs.
Proof.
  intros H HR HO HP HT. destruct (profile_inv _ _ _ _ _ _ _ _ _ H) as (r & bases' & paths & E1 & E2 & E3 & E4).
  rewrite HR in E1. injection E1 as <-. rewrite HO in E2. injection E2 as <-.
  assert (paths = pss) as ->. { clear - HP E3. revert pss HP. induction E3 as [|b p bs ps X _ IH]; intros pss HP; inversion HP; subst; [reflexivity|]. f_equal; [congruence|apply IH; assumption]. }
  destruct (wires_split _ _ _ _ _ _ E4) as (gs & -> & HG).
  - intros x Hx. apply in_map_iff in Hx as (p & <- & Hp). destruct (HT p Hp) as ((e' & rest' & E' & _) & _). cbn. rewrite E'. discriminate.
  - destruct (wires_retold _ _ _ _ _ _ HG HT) as (gs' & A & C & D). exists gs'. split; [apply alike_concat, A|]. auto.
Qed.
Lemma group_retold K TK WK j sd t radius ws o cmds paths : profile_group K TK WK j sd t ws o = Ok cmds -> tool_radius j = Some radius ->
  toolpaths_of K TK WK j radius ws o sd t paths -> (forall p, In p paths -> entered_straight K (j_op_safe_height j) p) ->
  exists css gs, Forall2 alike cmds (concat css) /\ Forall (continuous av_none) css /\ concat css = concat gs /\ Forall2 (cut_and K (j_precision j) (j_op_safe_height j) (j_plunge_feed j) (j_feed j)) paths gs.
Proof.
  intros HG HR (bases & pss & HO & HP & ->) HT. destruct o as [o|]; cbn [profile_group offsets_of] in *.
  2:{ injection HG as <-. subst. inversion HP; subst. exists [], []. repeat split; constructor. }
  apply rbind_ok in HG as (cs & HG & EQ). injection EQ as <-. destruct HO as (bss & HO & ->). apply mapM_ok in HG.
  destruct (Forall2_split _ _ _ HP) as (psss & -> & HPS). clear HP.
  revert bss HO psss HPS HT. induction HG as [|w c ws cs E _ IH]; intros bss HO psss HPS HT; inversion HO as [|? bs ? bss' O1 O2]; subst; inversion HPS as [|? ps ? psss' P1 P2]; subst.
  - exists [], []. repeat split; constructor.
  - cbn [concat] in HT. rewrite concat_app in HT. destruct (IH bss' O2 psss' P2) as (css2 & gs2 & A2 & C2 & E2 & F2). { intros p Hp. apply HT, in_or_app. right. exact Hp. }
    destruct (profile_retold _ _ _ _ _ _ _ _ _ _ _ _ E HR O1 P1) as (gs1 & A1 & C1 & F1). { intros p Hp. apply HT, in_or_app. left. exact Hp. }
    exists (concat gs1 :: css2), (gs1 ++ gs2). split; [cbn; apply Forall2_app; assumption|]. split; [constructor; assumption|]. split; [cbn; rewrite concat_app; congruence|]. cbn [concat]. rewrite concat_app. apply Forall2_app; assumption.
Qed.
Lemma wire_profile_strays K TK WK h r ws o sd t tl h' r' j' st radius paths : user_heap h ->
  job_wire_profile K TK WK h r ws o sd t tl = (h', Ok r') -> hget h' r' = Some j' -> job_printable h' j' -> ms_ended st = false ->
  tool_radius j' = Some radius -> toolpaths_of K TK WK j' radius ws (Some o) sd t paths -> (forall p, In p paths -> entered_straight K (j_op_safe_height j') p) ->
  exists p bs before groups, to_gcode h' r' = Ok p /\ parse_program p = Some bs /\ snd (run st bs) = before ++ concat groups /\ continues h r st before /\
    Forall2 (traced_and K (j_op_safe_height j') (j_plunge_feed j') (j_feed j')) paths groups.
Proof.
  intros HU HD HJ HP HE HR HO HT.
  assert (HU' : user_heap h') by (pose proof (user_wire_profile h K TK WK r ws o sd t tl HU) as X; rewrite HD in X; exact X).
  unfold job_wire_profile in HD. destruct (hget h r) as [j|] eqn:Ej; [|rewrite fluent_op_none in HD by exact Ej; discriminate].
  pose proof (fluent_op_spec h r j tl "Wire Profile" (wire_profile_gen K TK WK ws o sd t) Ej) as F. rewrite HD in F. inversion F as [|h1 r1 j1 cmds U E1 Eg]; subst.
  rewrite hget_new in HJ. injection HJ as <-. unfold wire_profile_gen in Eg. apply rbind_ok in Eg as (cs & Eg & EQ). injection EQ as <-.
  destruct (group_retold K TK WK j1 sd t radius ws (Some o) cs paths Eg HR HO HT) as (css & gs & AL & CC & EG & G).
  destruct (program_after _ _ _ _ _ _ _ _ _ st (j_operations j1) (Op (List.length h1) "Wire Profile" (map Motion cs)) HU HU' Ej HD (hget_new _ _) HP HE eq_refl) as (p & bs & before & st' & A & B & RD & E & CT).
  assert (ME := made_calls css st' RD CC). rewrite <- (alike_blocks _ _ AL) in ME. rewrite EG in ME. destruct (cut_events_and _ _ _ _ _ _ _ _ G ME) as (groups & EE & FG).
  exists p, bs, before, groups. split; [exact A|]. split; [exact B|]. split; [|split; [exact CT|exact FG]]. rewrite E. cbn [op_commands]. rewrite EE. reflexivity.
Qed.
Lemma profile_strays K TK WK h r shapes oo io sd t tl h' r' j' st radius inners outers : user_heap h ->
  job_profile K TK WK h r shapes oo io sd t tl = (h', Ok r') -> hget h' r' = Some j' -> job_printable h' j' -> ms_ended st = false ->
  tool_radius j' = Some radius ->
  toolpaths_of K TK WK j' radius (flat_map inners_of shapes) io sd t inners -> toolpaths_of K TK WK j' radius (flat_map outer_of shapes) oo sd t outers ->
  (forall p, In p (inners ++ outers) -> entered_straight K (j_op_safe_height j') p) ->
  exists p bs before groups, to_gcode h' r' = Ok p /\ parse_program p = Some bs /\ snd (run st bs) = before ++ concat groups /\ continues h r st before /\
    Forall2 (traced_and K (j_op_safe_height j') (j_plunge_feed j') (j_feed j')) (inners ++ outers) groups.
Proof.
  intros HU HD HJ HP HE HR HI HO HT.
  assert (HU' : user_heap h') by (pose proof (user_profile h K TK WK r shapes oo io sd t tl HU) as X; rewrite HD in X; exact X).
  unfold job_profile in HD. destruct (hget h r) as [j|] eqn:Ej; [|discriminate].
  destruct (negb (is_some (j_tool_diameter j))); [discriminate|]. destruct (negb (is_some oo) && negb (is_some io))%bool; [discriminate|].
  assert (SU : Forall supported shapes).
  { apply Forall_forall. intros x Hx ->. assert (X : extract_wires shapes = Err ValueError) by (apply extract_wires_err; auto). rewrite X in HD. discriminate. }
  rewrite (extract_wires_ok shapes SU) in HD.
  pose proof (fluent_op_spec h r j tl "Profile" (profile_gen K TK WK (flat_map outer_of shapes) (flat_map inners_of shapes) oo io sd t) Ej) as F. rewrite HD in F. inversion F as [|h1 r1 j1 cmds U E1 Eg]; subst.
  rewrite hget_new in HJ. injection HJ as <-. unfold profile_gen in Eg. apply rbind_ok in Eg as (ci & Ei & Eg). apply rbind_ok in Eg as (co & Eo & EQ). injection EQ as <-.
  destruct (group_retold K TK WK j1 sd t radius _ _ ci inners Ei HR HI) as (csi & gi & ALi & CCi & EGi & Gi). { intros b Hb. apply HT, in_or_app. left. exact Hb. }
  destruct (group_retold K TK WK j1 sd t radius _ _ co outers Eo HR HO) as (cso & go & ALo & CCo & EGo & Go). { intros b Hb. apply HT, in_or_app. right. exact Hb. }
  destruct (program_after _ _ _ _ _ _ _ _ _ st (j_operations j1) (Op (List.length h1) "Profile" (map Motion (ci ++ co))) HU HU' Ej HD (hget_new _ _) HP HE eq_refl) as (p & bs & before & st' & A & B & RD & E & CT).
  assert (ME := made_calls (csi ++ cso) st' RD (proj2 (Forall_app _ _ _) (conj CCi CCo))). rewrite concat_app in ME. rewrite <- (alike_blocks _ _ (Forall2_app ALi ALo)) in ME.
  rewrite EGi, EGo, <- concat_app in ME.
  destruct (cut_events_and _ _ _ _ _ _ _ _ (Forall2_app Gi Go) ME) as (groups & EE & FG).
  exists p, bs, before, groups. split; [exact A|]. split; [exact B|]. split; [|split; [exact CT|exact FG]]. rewrite E. cbn [op_commands]. rewrite EE. reflexivity.
Qed.

(** ** Answers inside the first edge *)
Local Open Scope Qc_scope.
Lemma param_on_path e rest p : e_param0 e <= p -> p <= e_param1 e -> on_path (e :: rest) (e_param e p).
Proof.
  intros A B. destruct (Qc_eq_dec (e_param1 e) (e_param0 e)) as [E|N].
  - exists e, 0. split; [left; reflexivity|]. split; [discriminate|]. split; [discriminate|]. assert (p = e_param0 e) as -> by (apply Qcle_antisym; [rewrite <- E; exact B|exact A]).
    unfold travel_param. rewrite E. destruct (e_reversed e); f_equal; ring.
  - assert (L : 0 < e_param1 e - e_param0 e). { destruct (Qcle_lt_or_eq _ _ (Qcle_trans _ _ _ A B)) as [X|X]; [qlra|congruence]. }
    assert (N' : e_param1 e - e_param0 e <> 0) by (intros X; rewrite X in L; discriminate L).
    set (w := e_param1 e - e_param0 e) in *. set (s := (p - e_param0 e) / w).
    assert (S0 : 0 <= s). { unfold s. apply le_qdiv; [exact L|]. qlra. }
    assert (S1 : s <= 1). { unfold s. apply Qcnot_lt_le. intros X. apply lt_qdiv in X; [|exact L]. unfold w in X. qlra. }
    assert (SP : s * w = p - e_param0 e) by (unfold s; field; exact N').
    unfold travel_param. destruct (e_reversed e) eqn:R.
    + exists e, (1 - s). split; [left; reflexivity|]. split; [qlra|]. split; [qlra|]. unfold travel_param. rewrite R. f_equal. unfold w in SP.
      replace ((1 - (1 - s)) * e_param1 e + (1 - s) * e_param0 e) with (e_param0 e + s * (e_param1 e - e_param0 e)) by ring. rewrite SP. ring.
    + exists e, s. split; [left; reflexivity|]. split; [exact S0|]. split; [exact S1|]. unfold travel_param. rewrite R. f_equal. unfold w in SP.
      replace ((1 - s) * e_param0 e + s * e_param1 e) with (e_param0 e + s * (e_param1 e - e_param0 e)) by ring. rewrite SP. ring.
Qed.
Lemma stray_inside K w places : stray K w places -> inside_first K w -> Forall (on_path w) places.
Proof.
  intros [->|(e & rest & u & d & id & p & -> & EK & _ & ->)] HI; [constructor|]. destruct (HI _ _ _ _ EK) as (e' & r' & [= <- <-] & A & B). constructor; [apply param_on_path; assumption|constructor].
Qed.
Lemma end_on_path w e : In e w -> edge_sound e -> on_path w (travel_end e).
Proof. intros He HS. destruct (on_way_end e HS) as (t & A & B & C). exists e, t. auto. Qed.
Lemma traced_kept K safe pf feed w es : traced_and K safe pf feed w es -> (forall e, In e w -> edge_sound e) -> (forall e, In e w -> e_geom e = GLINE) -> inside_first K w ->
  kept_to safe pf feed w es.
Proof.
  intros (main & more & places & -> & (entry & down & bodies & -> & FM & _ & SX & SZ & SF & FB) & ST & FP) HS HL HI. pose proof (stray_inside _ _ _ ST HI) as HP.
  exists entry, down, (concat bodies ++ more). split; [symmetry; apply app_assoc|]. split; [exact FM|]. split; [exact SX|]. split; [exact SZ|]. split; [exact SF|]. apply Forall_app. split.
  - assert (G : forall es', Forall2 (edge_traced K feed) es' bodies -> (forall e, In e es' -> In e w) -> Forall (fun ev => ev_kind ev = GLinear /\ feeds_at feed ev /\ exists v, on_path w v /\ stands_at v (ev_to ev)) (concat bodies)).
    { clear - HS HL. intros es' F. induction F as [|e b es' bodies HE _ IH]; intros HI; [constructor|]. cbn. apply Forall_app. split; [|apply IH; intros; apply HI; right; assumption].
      destruct HE as (FF & _ & (front & final & E & SE) & SH). assert (IE := HI e (or_introl eq_refl)). unfold edge_shape_made in SH. rewrite (HL e IE) in SH. destruct SH as (ev & -> & KE).
      assert (final = ev) as ->. { destruct front as [|? [|? ?]]; cbn in E; [injection E as <-; reflexivity|discriminate|discriminate]. }
      constructor; [|constructor]. split; [exact KE|]. inversion FF; subst. split; [assumption|]. exists (travel_end e). split; [apply end_on_path; auto|exact SE]. }
    exact (G w FB (fun _ H => H)).
  - clear - FP HP. induction FP as [|v ev places more (A & B & C) _ IH]; [constructor|]. inversion HP; subst. constructor; [|apply IH; assumption]. eauto.
Qed.
Lemma wire_profile_kept K TK WK h r ws o sd t tl h' r' j' st radius paths : user_heap h ->
  job_wire_profile K TK WK h r ws o sd t tl = (h', Ok r') -> hget h' r' = Some j' -> job_printable h' j' -> ms_ended st = false ->
  tool_radius j' = Some radius -> toolpaths_of K TK WK j' radius ws (Some o) sd t paths ->
  (forall p, In p paths -> entered_straight K (j_op_safe_height j') p /\ (forall e, In e p -> e_geom e = GLINE) /\ inside_first K p) ->
  exists p bs before groups, to_gcode h' r' = Ok p /\ parse_program p = Some bs /\ snd (run st bs) = before ++ concat groups /\ continues h r st before /\
    Forall2 (kept_to (j_op_safe_height j') (j_plunge_feed j') (j_feed j')) paths groups.
Proof.
  intros HU HD HJ HP HE HR HO HT. destruct (wire_profile_strays K TK WK h r ws o sd t tl h' r' j' st radius paths HU HD HJ HP HE HR HO (fun p I => proj1 (HT p I))) as (p & bs & before & groups & A & B & C & D & F).
  exists p, bs, before, groups. repeat (split; [assumption|]). clear - F HT. induction F as [|w es paths groups H _ IH]; constructor; [|apply IH; intros; apply HT; right; assumption].
  destruct (HT w (or_introl eq_refl)) as ((_ & _ & HS) & HL & HI). eapply traced_kept; eassumption.
Qed.

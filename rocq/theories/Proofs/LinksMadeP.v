(** Proofs for Spec/LinksMade.v. *)
From Verif Require Import Base.Str Base.Py Spec.Gcode Spec.Blocks Spec.Machine Spec.Program Spec.Paths Spec.Jobs Spec.Feeds Spec.Moves Spec.Axes Spec.Rapids Spec.Wires Spec.Curves Spec.Profiles Spec.OnMachine Spec.Arcs Spec.Traced Spec.Strays Spec.LinksMade
  Model.Groups Model.Geometry Model.Plane Model.Edges Model.Job Model.Routers Model.Tabs Model.Profile
  Proofs.MachineP Proofs.JobP Proofs.ProgramThmP Proofs.GeomP Proofs.RouteP Proofs.EdgeP Proofs.WireP Proofs.RouteThmP Proofs.AxesP Proofs.RapidsP Proofs.HistoryP Proofs.ProfileP Proofs.ProfileThmP Proofs.OnMachineP Proofs.TracedP Proofs.TabsP Proofs.StraysP.
From Coq Require Import Lia.
Local Open Scope Qc_scope.
Local Open Scope list_scope.

(** ** Parts of edges *)
Definition in_range (e : edge) (p : Qc) : Prop := e_param0 e <= p /\ p <= e_param1 e.
Lemma range_on_way e p : in_range e p -> on_way e (e_param e p).
Proof. intros [A B]. destruct (param_on_path e [] p A B) as (e' & t & [<-|[]] & T0 & T1 & E). exists t. auto. Qed.
Lemma range_mid e a b : in_range e a -> in_range e b -> in_range e ((a + b) / qz 2).
Proof.
  intros [A B] [C D]. assert (T : qz 2 = 1 + 1) by (apply Qc_is_canon; reflexivity). assert (P : 0 < qz 2) by reflexivity. split.
  - apply le_qdiv; [exact P|]. rewrite T. qlra.
  - apply Qcnot_lt_le. intros X. apply lt_qdiv in X; [|exact P]. rewrite T in X. qlra.
Qed.
Definition part_along (K : kernel) (precision : nat) (feed : pynum) (e : edge) (a b : Qc) (c : list motion) : Prop :=
  edge_sound e /\ in_range e a /\ in_range e b /\ is_spline_geom (e_geom e) = false /\
  exists sp ep arrow v, route_edge K e precision sp ep arrow (Some feed) = Ok (c, v) /\
    (sp = Some a \/ (sp = None /\ a = edge_start_param e)) /\ (ep = Some b \/ (ep = None /\ b = edge_end_param e)).
Lemma part_made K precision feed e a b c es : part_along K precision feed e a b c -> Forall2 made c es -> part_traced K feed e a b es.
Proof.
  intros (SO & RA & RB & NS & sp & ep & arrow & v & HR & HA & HB) HM.
  assert (EA : match sp with None => travel_start e | Some p => e_param e p end = e_param e a) by (destruct HA as [-> | [-> ->]]; [reflexivity|symmetry; apply param_start, SO]).
  assert (EB : match ep with None => travel_end e | Some p => e_param e p end = e_param e b) by (destruct HB as [-> | [-> ->]]; [reflexivity|symmetry; apply param_end, SO]).
  assert (SH : part_shape K e a b es).
  { unfold route_edge in HR. change (edge_start_point e) with (travel_start e) in HR. change (edge_end_point e) with (travel_end e) in HR. rewrite EA, EB in HR.
    assert (DA : dflt sp (edge_start_param e) = a) by (destruct HA as [-> | [-> ->]]; reflexivity). assert (DB : dflt ep (edge_end_param e) = b) by (destruct HB as [-> | [-> ->]]; reflexivity).
    cbv zeta in HR. rewrite DA, DB in HR. clear DA DB. apply rbind_ok in HR as (c0 & HR & EQ). injection EQ as -> _. unfold part_shape.
    assert (LIN : c = [mk_cut (from_vector (e_param e b)) (Some (from_vector (e_param e a))) arrow (Some feed)] -> exists ev, es = [ev] /\ ev_kind ev = GLinear).
    { intros ->. inversion HM as [|? ev ? e3 X H3]; subst. inversion H3; subst. exists ev. split; [reflexivity|]. destruct X as (st & _ & KE & _). exact KE. }
    assert (MID : e_param e (nth 2 (linspace a b 5) 0) = e_param e ((a + b) / qz 2)).
    { rewrite linspace_nth_d by lia. f_equal. change (Z.of_nat 2) with 2%Z. change (Z.of_nat 5 - 1)%Z with 4%Z. assert (F : qz 4 = qz 2 * qz 2) by (apply Qc_is_canon; reflexivity). rewrite F. assert (T : qz 2 = 1 + 1) by (apply Qc_is_canon; reflexivity). rewrite T. field. split; discriminate. }
    assert (ARC : rbind (is_arc_clockwise2 e) (fun cw =>
        if e_closed e then
          Ok [mk_arc cw (from_vector (e_param e (nth 2 (linspace a b 5) 0))) (Some (from_vector (e_param e a))) (from_vector (e_center e)) (from_vector (e_param e (nth 1 (linspace a b 5) 0))) arrow (Some feed);
              mk_arc cw (from_vector (e_param e b)) (Some (from_vector (e_param e (nth 2 (linspace a b 5) 0)))) (from_vector (e_center e)) (from_vector (e_param e (nth 3 (linspace a b 5) 0))) arrow (Some feed)]
        else if k_veq K (e_param e a) (e_param e b) then Ok [mk_cut (from_vector (e_param e b)) (Some (from_vector (e_param e a))) arrow (Some feed)]
        else Ok [mk_arc cw (from_vector (e_param e b)) (Some (from_vector (e_param e a))) (from_vector (e_center e)) (from_vector (e_param e (nth 1 (linspace a b 3) 0))) arrow (Some feed)]) = Ok c ->
      if e_closed e then exists x y, es = [x; y] /\ arc_made e x /\ arc_made e y /\ stands_at (e_param e ((a + b) / qz 2)) (ev_to x)
      else if k_veq K (e_param e a) (e_param e b) then exists ev, es = [ev] /\ ev_kind ev = GLinear
      else exists x, es = [x] /\ arc_made e x).
    { intros H. apply rbind_ok in H as (cw & HW & H). rewrite MID in H. destruct (e_closed e).
      - injection H as H. rewrite !mk_arc_full in H. subst c. inversion HM as [|? x ? e3 X1 H3]; subst. inversion H3 as [|? y ? e4 X2 H4]; subst. inversion H4; subst.
        destruct (arc_event e cw (e_param e a) (e_param e (nth 1 (linspace a b 5) 0)) (e_param e ((a + b) / qz 2)) _ _ x (range_on_way _ _ RA) (range_on_way _ _ (range_mid _ _ _ RA RB)) HW (ex_intro _ arrow eq_refl) X1) as [A1 S1].
        destruct (arc_event e cw (e_param e ((a + b) / qz 2)) (e_param e (nth 3 (linspace a b 5) 0)) (e_param e b) _ _ y (range_on_way _ _ (range_mid _ _ _ RA RB)) (range_on_way _ _ RB) HW (ex_intro _ arrow eq_refl) X2) as [A2 _].
        exists x, y. auto.
      - destruct (k_veq K (e_param e a) (e_param e b)); [apply LIN; congruence|]. injection H as H. rewrite mk_arc_full in H. subst c. inversion HM as [|? x ? e3 X1 H3]; subst. inversion H3; subst. exists x. split; [reflexivity|].
        apply (arc_event e cw (e_param e a) (e_param e (nth 1 (linspace a b 3) 0)) (e_param e b) _ _ x (range_on_way _ _ RA) (range_on_way _ _ RB) HW (ex_intro _ arrow eq_refl) X1). }
    destruct (e_geom e); try discriminate NS; try discriminate HR; [apply LIN; congruence|apply ARC, HR|apply ARC, HR]. }
  destruct (route_edge_chain _ _ _ _ _ _ _ _ _ SO ltac:(congruence) HR) as (_ & NE & FF & CO & AF). cbv zeta in *. rewrite EA in CO, AF. rewrite EB in AF. split; [|split; [|split; [|exact SH]]].
  - clear - FF HM. induction HM as [|m ev c es (st & _ & K' & F & _) _ IH]; [constructor|]. inversion FF as [|? ? (NR & FE) FF']; subst. constructor; [|apply IH; assumption].
    split; [rewrite K'; apply not_rapid_kind; assumption|]. rewrite F, after_feed, FE. reflexivity.
  - clear SH. destruct HM as [|m ev c es (st & M & _ & F & _) _]; [contradiction NE; reflexivity|]. exists ev, es. split; [reflexivity|].
    destruct CO as [E _]. rewrite F. apply stands_from. rewrite <- E. exact M.
  - clear SH. destruct c as [|m c _] using rev_ind; [contradiction NE; reflexivity|]. rewrite after_last in AF.
    apply Forall2_app_inv_l in HM as (e1 & e2 & _ & HM & ->). inversion HM as [|? ev ? e3 (st & _ & _ & _ & T & _) H3]; subst. inversion H3; subst.
    exists e1, ev. split; [reflexivity|]. rewrite T. apply stands_to, AF.
Qed.

(** ** Wires *)
Definition visited_cut (K : kernel) (precision : nat) (so : option Qc) (S : Qc) (pf feed : pynum) (w : wire) (g : list motion) : Prop :=
  cut_wire K precision S pf feed (wire_edges w) g \/
  exists s u d t e rest, so = Some s /\ d <> 0 /\ d <= s /\ k_nearest K u w = Some (d, t) /\ rotation (wire_edges w) (e :: rest) /\
    match t with
    | TVertex v => k_veq K (travel_start e) v = true /\
        exists bodies, g = MCut KCut (from_vector u) (from_vector (travel_start e)) false (Some feed) :: concat bodies /\ Forall2 (cut_along K precision feed) (e :: rest) bodies
    | TEdge id p => e_id e = id /\
        exists head bodies tail, g = MCut KCut (from_vector u) (from_vector (e_param e p)) false (Some feed) :: head ++ concat bodies ++ tail /\
          part_along K precision feed e p (last_param e) head /\ Forall2 (cut_along K precision feed) rest bodies /\ part_along K precision feed e (first_param e) p tail
    end.
Lemma ends_in_range e p : in_range e p -> in_range e (edge_start_param e) /\ in_range e (edge_end_param e).
Proof. intros [A B]. assert (C := Qcle_trans _ _ _ A B). unfold edge_start_param, edge_end_param, in_range. destruct (e_reversed e); repeat split; auto using Qcle_refl. Qed.
Lemma wire_visited_cut K j so pe pp w es param access body closing v : wire_routed K j so pe pp w es param access body closing v ->
  (forall u, pe = Some u -> pp = from_vector u) -> (forall e, In e (wire_edges w) -> edge_sound e) -> connected (wire_edges w) -> (so <> None -> loop (wire_edges w)) ->
  (forall e rest, wire_edges w = e :: rest -> vz (travel_start e) < j_op_safe_height j) -> (forall u, good_answer so w (k_nearest K u w)) -> answers_in_range K w ->
  visited_cut K (j_precision j) so (j_op_safe_height j) (j_plunge_feed j) (j_feed j) w (access ++ body ++ closing) /\ after pp (access ++ body ++ closing) = from_vector v.
Proof.
  intros HW HPP HS HC HL HZ HG HI.
  destruct HW as [e0 es0 body0 closing0 param0 v0 EW EP NL HB HCl|u d t s e0 es0 body0 closing0 param0 v0 EPe HN Es S1 S2 S3 HSh EP HB HCl].
  - assert (param0 = None).
    { rewrite EP. destruct pe as [u|]; [|reflexivity]. destruct (k_nearest K u w) as [[d [?|id p]]|] eqn:E; try reflexivity.
      exfalso. pose proof (HG u) as HA. rewrite E in HA. destruct HA as (HA & _). eapply NL; [reflexivity|exact E|exact HA]. }
    clear EP. subst param0. cbn [truthy] in HCl. destruct HCl as [-> ->]. rewrite app_nil_r. rewrite <- EW in HB. destruct (edges_cut _ _ _ _ _ HS HB) as (bs & EB & HF).
    assert (L := HZ _ _ EW). split.
    + left. destruct (enter pp (travel_start e0) (j_rapid_height j) (j_op_safe_height j) (j_plunge_feed j) L) as (front & m & E & FR & PL). exists front, m, (vz (travel_start e0)), bs. rewrite E, EB. auto.
    + destruct (rapid_to_safe pp (travel_start e0) (j_rapid_height j) (j_op_safe_height j) (j_plunge_feed j)) as (_ & _ & _ & _ & _ & A6 & _). rewrite after_app, A6. apply qltb_lt in L. rewrite L.
      replace (V3 (vx (travel_start e0)) (vy (travel_start e0)) (vz (travel_start e0))) with (travel_start e0) by (destruct (travel_start e0); reflexivity). rewrite EW in HB, HC.
      refine (proj2 (route_edges_chain K j (e0 :: es0) true None body0 e0 es0 eq_refl _ HC _ HB)); [rewrite <- EW; exact HS|congruence].
  - destruct (shift_edges_spec _ _ _ _ HSh) as (HR & e1 & r1 & E1 & HIn & HT). injection E1 as <- <-. rewrite (HPP u EPe).
    assert (HLo : loop (e0 :: es0)) by (eapply loop_rotation; [apply HL; congruence|exact HR]).
    assert (HS' : forall e, In e (e0 :: es0) -> edge_sound e) by (intros e He; apply HS; eapply rotation_in; eassumption).
    pose proof (HG u) as HA. rewrite HN in HA. destruct t as [tv|id p].
    + subst param0. cbn [truthy] in *. destruct HCl as [-> ->]. rewrite app_nil_r. split.
      * right. exists s, u, d, (TVertex tv), e0, es0. repeat (split; [assumption|]). destruct (edges_cut _ _ _ _ _ HS' HB) as (bs & EB & HF). exists bs. split; [cbn [app]; rewrite EB; reflexivity|exact HF].
      * cbn [app after m_end]. refine (proj2 (route_edges_chain K j (e0 :: es0) true None body0 e0 es0 eq_refl HS' (proj1 HLo) _ HB)). congruence.
    + cbn [good_answer] in HA. destruct HA as (_ & Hp & Hspl). subst param0. assert (T : truthy (Some p) = true) by (apply truthy_some; exact Hp). rewrite T in *. cbn [dflt] in *.
      assert (Hsp : is_spline_geom (e_geom e0) = false) by (apply Hspl; assumption). assert (RG := HI _ _ _ _ e0 HN HIn HT). fold (in_range e0 p) in RG. destruct (ends_in_range _ _ RG) as [R1 R2].
      assert (SO := HS' e0 (or_introl eq_refl)). split.
      * right. exists s, u, d, (TEdge id p), e0, es0. repeat (split; [assumption|]). cbn [route_edges] in HB. apply rbind_ok in HB as ([hd vv] & H1 & HB). apply rbind_ok in HB as (cs & H2 & EQ). injection EQ as <-.
        assert (X : forall a b, route_edges K j false a es0 = route_edges K j false b es0) by (clear; induction es0 as [|x r IH]; intros a b; cbn; [reflexivity|]; rewrite (IH a b); reflexivity). rewrite (X (Some p) None) in H2.
        destruct (edges_cut K j es0 false cs (fun e I => HS' e (or_intror I)) H2) as (bs & -> & HF). exists hd, bs, closing0. split; [cbn [app]; rewrite <- app_assoc; reflexivity|].
        split; [|split; [exact HF|]].
        -- split; [exact SO|]. split; [exact RG|]. split; [exact R2|]. split; [exact Hsp|]. exists (Some p), None, true, vv. auto.
        -- split; [exact SO|]. split; [exact R1|]. split; [exact RG|]. split; [exact Hsp|]. exists None, (Some p), false, v0. auto.
      * cbn [app after m_end]. destruct (route_edges_chain K j (e0 :: es0) true (Some p) body0 e0 es0 eq_refl HS' (proj1 HLo) (fun _ _ => Hsp) HB) as [_ B2]. cbv iota zeta in B2. rewrite after_app, B2.
        destruct HLo as [_ HLo]. rewrite HLo. assert (HQ : is_spline_geom (e_geom e0) = true -> @None Qc = None /\ Some p = None) by congruence.
        destruct (route_edge_chain _ _ _ _ _ _ _ _ _ SO HQ HCl) as (-> & _ & _ & _ & C2). exact C2.
Qed.
Lemma wires_visited_cut K j so ws : forall pe pp gs, wires_routed K j so pe pp ws gs -> (forall u, pe = Some u -> pp = from_vector u) ->
  (forall w e, In w ws -> In e (wire_edges w) -> edge_sound e) -> (forall w, In w ws -> connected (wire_edges w)) -> (so <> None -> forall w, In w ws -> loop (wire_edges w)) ->
  (forall w e rest, In w ws -> wire_edges w = e :: rest -> vz (travel_start e) < j_op_safe_height j) -> (forall w u, In w ws -> good_answer so w (k_nearest K u w)) -> (forall w, In w ws -> answers_in_range K w) ->
  Forall2 (visited_cut K (j_precision j) so (j_op_safe_height j) (j_plunge_feed j) (j_feed j)) ws gs.
Proof.
  induction ws as [|w ws IH]; intros pe pp gs H HPP HS HC HL HZ HG HI; inversion H; subst; [constructor|].
  match goal with HW : wire_routed _ _ _ _ _ _ _ _ _ _ _ _ |- _ =>
    destruct (wire_visited_cut _ _ _ _ _ _ _ _ _ _ _ _ HW HPP (fun e => HS w e (or_introl eq_refl)) (HC w (or_introl eq_refl)) (fun N => HL N w (or_introl eq_refl)) (fun e r => HZ w e r (or_introl eq_refl)) (fun u => HG w u (or_introl eq_refl)) (HI w (or_introl eq_refl))) as [V A] end.
  constructor; [exact V|]. eapply IH; [eassumption|intros u [= <-]; exact A|..]; intros; eauto using in_cons.
Qed.
Lemma visited_events K precision so S pf feed w g es : visited_cut K precision so S pf feed w g -> Forall2 made g es -> wire_visited K so S pf feed w es.
Proof.
  intros [CW|(s & u & d & t & e & rest & Es & D0 & DS & HN & HR & H)] HM; [left; eapply wire_events; eassumption|]. right.
  assert (LINK : forall x ev, made (MCut KCut (from_vector u) (from_vector x) false (Some feed)) ev -> ev_kind ev = GLinear /\ feeds_at feed ev /\ stands_at u (ev_from ev) /\ stands_at x (ev_to ev)).
  { intros x ev (st & M & KE & F & T & _). split; [exact KE|]. split; [split; [rewrite KE; reflexivity|rewrite F, after_feed; reflexivity]|]. split; [rewrite F; apply stands_from, M|rewrite T; apply stands_to; reflexivity]. }
  assert (BODY : forall es' bodies evs, Forall2 (cut_along K precision feed) es' bodies -> Forall2 made (concat bodies) evs -> exists ess, evs = concat ess /\ Forall2 (edge_traced K feed) es' ess).
  { intros es' bodies evs F HB. destruct (Forall2_split _ _ _ HB) as (ess & -> & HS). exists ess. split; [reflexivity|]. clear - F HS. revert ess HS. induction F; intros ess HS; inversion HS; subst; constructor; [eapply edge_events; eassumption|auto]. }
  destruct t as [tv|id p].
  - destruct H as (V & bodies & -> & F). inversion HM as [|? link ? evs ML HM']; subst. destruct (LINK _ _ ML) as (L1 & L2 & L3 & L4). destruct (BODY _ _ _ F HM') as (ess & -> & FE).
    exists s, u, d, (TVertex tv), link, e, rest. do 8 (split; [first [assumption|reflexivity]|]). split; [exact V|]. split; [exact L4|]. exists ess. auto.
  - destruct H as (V & hd & bodies & tl & -> & P1 & F & P2). inversion HM as [|? link ? evs ML HM']; subst. destruct (LINK _ _ ML) as (L1 & L2 & L3 & L4).
    apply Forall2_app_inv_l in HM' as (ev1 & evs' & M1 & HM' & ->). apply Forall2_app_inv_l in HM' as (ev2 & ev3 & M2 & M3 & ->). destruct (BODY _ _ _ F M2) as (ess & -> & FE).
    exists s, u, d, (TEdge (e_id e) p), link, e, rest. do 8 (split; [first [assumption|reflexivity]|]). split; [reflexivity|]. split; [exact L4|]. exists ev1, ess, ev3. split; [reflexivity|]. split; [eapply part_made; eassumption|]. split; [exact FE|]. eapply part_made; eassumption.
Qed.
Lemma wires_visited K j ws so cmds st : route_wires K j ws so None = Ok cmds -> ready st ->
  (forall w, In w ws -> wire_edges w <> []) -> (forall w e, In w ws -> In e (wire_edges w) -> edge_sound e) -> (forall w, In w ws -> connected (wire_edges w)) -> (so <> None -> forall w, In w ws -> loop (wire_edges w)) ->
  (forall w e rest, In w ws -> wire_edges w = e :: rest -> vz (travel_start e) < j_op_safe_height j) -> (forall w u, In w ws -> good_answer so w (k_nearest K u w)) -> (forall w, In w ws -> answers_in_range K w) ->
  exists groups, snd (run st (flat_map command_blocks (map Motion cmds))) = concat groups /\
    Forall2 (wire_visited K so (j_op_safe_height j) (j_plunge_feed j) (j_feed j)) ws groups.
Proof.
  intros H RD NE HS HC HL HZ HG HI. assert (C := wires_continuous _ _ _ _ _ _ H HS HC HL HZ HG). cbn [dflt] in C.
  destruct (wires_split _ _ _ _ _ _ H NE) as (gs & -> & HW). cbn [dflt] in HW.
  assert (V := wires_visited_cut _ _ _ _ _ _ _ HW ltac:(discriminate) HS HC HL HZ HG HI).
  destruct (made_from (concat gs) st av_none RD (matches_none st) C) as [_ M]. destruct (Forall2_split _ _ _ M) as (ess & -> & F). exists ess. split; [reflexivity|].
  clear - V F. revert ess F. induction V; intros ess F; inversion F; subst; constructor; [eapply visited_events; eassumption|auto].
Qed.

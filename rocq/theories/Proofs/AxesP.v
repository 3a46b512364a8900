(** Coordinates in the commands of every operation. *)
From Verif Require Import Base.Str Base.Py Spec.Gcode Spec.Blocks Spec.Machine Spec.Program Spec.Jobs Spec.Arcs Spec.Feeds Spec.Moves Spec.Home Spec.Axes
  Model.Groups Model.Geometry Model.Plane Model.Edges Model.Job Model.Routers Model.Profile Model.Drill Model.Pocket Model.PocketOp Model.Strategy Model.Surface
  Proofs.MachineP Proofs.JobP Proofs.ProgramThmP Proofs.GeomP Proofs.RouteP Proofs.EdgeP Proofs.WireP Proofs.ProfileThmP Proofs.RouteThmP Proofs.SurfaceP Proofs.SurfaceThmP Proofs.FeedP Proofs.HomeP.
From Coq Require Import Lia.
Local Open Scope list_scope.

Definition somewhere (v : avec) : Prop := v = av_none \/ known v.
Lemma known_from p : known (from_vector p).
Proof. exists p. reflexivity. Qed.
Lemma known_av x y z : known (AV (Some x) (Some y) (Some z)).
Proof. exists (V3 x y z). reflexivity. Qed.
Lemma known_xyz v : known v <-> is_some (ax v) = true /\ is_some (ay v) = true /\ is_some (az v) = true.
Proof.
  split; [intros (p & ->); auto|]. destruct v as [[x|] [y|] [z|]]; cbn; intros (A & B & C); try discriminate. apply known_av.
Qed.
Local Hint Resolve known_from known_av : core.
Lemma placed_known R m : known (m_end m) -> rapid m \/ known (m_start m) -> placed R m.
Proof. right. auto. Qed.

(** Places known at the end of a list. *)
Lemma after_known p ms : known p -> Forall (fun m => known (m_end m)) ms -> known (after p ms).
Proof. intros H F. revert p H. induction F as [|m ms H _ IH]; intros p HP; cbn [after]; auto. Qed.

(** ** Routers *)
Lemma rapid_to_placed start e R S pf : somewhere start -> Forall (placed R) (rapid_to start e R (Some S) pf) /\ known (after start (rapid_to start e R (Some S) pf)).
Proof.
  intros HS. destruct (rapid_to_shape start e R (Some S) pf) as (tr & de & -> & HT & ->).
  assert (H1 : placed R (MRapid KRetract start (AV (ax start) (ay start) (Some R)) false)).
  { destruct HS as [->|(p & ->)]; [left; repeat split|right; split; [apply known_av|left; exact I]]. }
  assert (HD : forall s, Forall (placed R) (MRapid KPlungeRapid s (AV (Some (vx e)) (Some (vy e)) (Some S)) true
                  :: (if qltb (vz e) S then [MCut KPlungeCut (AV (Some (vx e)) (Some (vy e)) (Some S)) (AV (Some (vx e)) (Some (vy e)) (Some (vz e))) true pf] else []))).
  { intros s. constructor; [apply placed_known; [cbn; auto|left; exact I]|]. destruct (qltb (vz e) S); fall; apply placed_known; cbn; auto. }
  split.
  - constructor; [exact H1|]. apply Forall_app. split; [|apply HD].
    destruct HT as [(-> & _)|(-> & _)]; fall; apply placed_known; [cbn; auto|left; exact I].
  - cbn [after]. rewrite after_app. cbn [after m_end]. destruct (qltb (vz e) S); cbn; auto.
Qed.
Lemma cuts_through_placed R arrow feed pts : forall st, known st -> Forall (placed R) (cuts_through st pts arrow feed).
Proof.
  induction pts as [|p pts IH]; intros st H; cbn [cuts_through]; constructor; [|apply IH; auto].
  rewrite mk_cut_full. apply placed_known; cbn; auto.
Qed.
Lemma route_edge_placed R K e prec sp ep arrow feed cmds v : route_edge K e prec sp ep arrow feed = Ok (cmds, v) -> Forall (placed R) cmds.
Proof.
  intros H. unfold route_edge in H. apply rbind_ok in H as (c & H & HE). injection HE as <- _.
  destruct (e_geom e); try discriminate.
  - injection H as <-. rewrite mk_cut_full. fall; apply placed_known; cbn; auto.
  - apply rbind_ok in H as (cw & _ & H). destruct (e_closed e); [|destruct (k_veq _ _ _)]; injection H as <-;
      rewrite ?mk_arc_full, ?mk_cut_full; fall; apply placed_known; cbn; auto.
  - apply rbind_ok in H as (cw & _ & H). destruct (e_closed e); [|destruct (k_veq _ _ _)]; injection H as <-;
      rewrite ?mk_arc_full, ?mk_cut_full; fall; apply placed_known; cbn; auto.
  - destruct (e_reversed e); injection H as <-; apply cuts_through_placed; auto.
  - destruct (e_reversed e); injection H as <-; apply cuts_through_placed; auto.
  - destruct (e_reversed e); injection H as <-; apply cuts_through_placed; auto.
Qed.
Lemma route_edges_placed R K j param es : forall first body, route_edges K j first param es = Ok body -> Forall (placed R) body.
Proof.
  induction es as [|e es IH]; intros first body H; cbn [route_edges] in H.
  - injection H as <-. constructor.
  - apply rbind_ok in H as ([c v] & H1 & H). apply rbind_ok in H as (cs & H2 & H). injection H as <-.
    apply Forall_app. split; [eapply route_edge_placed; exact H1|eapply IH; exact H2].
Qed.
(** Edges never rise from an unknown place. *)
Lemma cuts_through_known arrow feed pts : forall st, Forall (fun m => known (m_end m)) (cuts_through st pts arrow feed).
Proof. induction pts as [|p pts IH]; intros st; cbn [cuts_through]; constructor; [rewrite mk_cut_full; cbn; auto|apply IH]. Qed.
Lemma route_edge_known K e prec sp ep arrow feed cmds v : route_edge K e prec sp ep arrow feed = Ok (cmds, v) -> Forall (fun m => known (m_end m)) cmds.
Proof.
  intros H. unfold route_edge in H. apply rbind_ok in H as (c & H & HE). injection HE as <- _.
  destruct (e_geom e); try discriminate.
  - injection H as <-. repeat constructor. cbn; auto.
  - apply rbind_ok in H as (cw & _ & H). destruct (e_closed e); [|destruct (k_veq _ _ _)]; injection H as <-;
      rewrite ?mk_arc_full, ?mk_cut_full; repeat constructor; cbn; auto.
  - apply rbind_ok in H as (cw & _ & H). destruct (e_closed e); [|destruct (k_veq _ _ _)]; injection H as <-;
      rewrite ?mk_arc_full, ?mk_cut_full; repeat constructor; cbn; auto.
  - destruct (e_reversed e); injection H as <-; apply cuts_through_known; auto.
  - destruct (e_reversed e); injection H as <-; apply cuts_through_known; auto.
  - destruct (e_reversed e); injection H as <-; apply cuts_through_known; auto.
Qed.
Lemma route_edges_known K j param es : forall first body, route_edges K j first param es = Ok body -> Forall (fun m => known (m_end m)) body.
Proof.
  induction es as [|e es IH]; intros first body H; cbn [route_edges] in H.
  - injection H as <-. constructor.
  - apply rbind_ok in H as ([c v] & H1 & H). apply rbind_ok in H as (cs & H2 & H). injection H as <-.
    apply Forall_app. split; [eapply route_edge_known; exact H1|eapply IH; exact H2].
Qed.
Lemma wire_routed_placed K j so pe pp w es param access body closing v :
  wire_routed K j so pe pp w es param access body closing v -> somewhere pp -> (pe <> None -> known pp) ->
  Forall (placed (j_rapid_height j)) (access ++ body ++ closing) /\ known (after pp (access ++ body ++ closing)).
Proof.
  intros HW HS HK.
  assert (HX : Forall (placed (j_rapid_height j)) access /\ known (after pp access)).
  { destruct HW as [e0 es body closing param v _ _ _ _ _|u d t s e0 es body closing param v HP _ _ _ _ _ _ _ _ _].
    - apply rapid_to_placed, HS.
    - split; [|cbn; auto]. fall; apply placed_known; cbn; [auto|right; apply HK; congruence]. }
  assert (HB : (exists p f es', route_edges K j f p es' = Ok body) /\ (closing = [] \/ exists e0 p, route_edge K e0 (j_precision j) None p false (Some (j_feed j)) = Ok (closing, v))).
  { destruct HW as [e0 es body closing param v _ _ _ HB HC|u d t s e0 es body closing param v HP _ _ _ _ _ _ _ HB HC];
      (split; [eauto|]; destruct (truthy param); [right; eauto|left; apply HC]). }
  destruct HX as (HX1 & HX2), HB as ((p & f & es' & HB) & HC). rewrite !Forall_app, !after_app. split; [split; [exact HX1|split; [eapply route_edges_placed; exact HB|]]|].
  - destruct HC as [->|(e0 & q & HC)]; [constructor|]. eapply route_edge_placed; exact HC.
  - apply after_known; [apply after_known; [exact HX2|eapply route_edges_known; exact HB]|].
    destruct HC as [->|(e0 & q & HC)]; [constructor|]. eapply route_edge_known; exact HC.
Qed.
Lemma wires_routed_placed K j so ws : forall pe pp gs, wires_routed K j so pe pp ws gs -> somewhere pp -> (pe <> None -> known pp) ->
  Forall (placed (j_rapid_height j)) (concat gs) /\ somewhere (after pp (concat gs)).
Proof.
  induction ws as [|w ws IH]; intros pe pp gs H HS HK; inversion H; subst; [split; [constructor|exact HS]|].
  match goal with HW : wire_routed _ _ _ _ _ _ _ _ _ _ _ _ |- _ => destruct (wire_routed_placed _ _ _ _ _ _ _ _ _ _ _ _ HW HS HK) as (A & B) end.
  match goal with HR : wires_routed _ _ _ _ _ ws _ |- _ => destruct (IH _ _ _ HR) as (C & D) end; [right; exact B|intros _; exact B|].
  cbn [concat]. rewrite Forall_app, after_app. auto.
Qed.
Lemma route_wires_placed K j ws so pp cmds : somewhere (dflt pp av_none) -> route_wires K j ws so pp = Ok cmds ->
  Forall (placed (j_rapid_height j)) cmds /\ somewhere (after (dflt pp av_none) cmds).
Proof.
  intros HS H. unfold route_wires in H. apply rbind_ok in H as (r & H & E). injection E as <-.
  pose proof (route_wires_routed _ _ _ _ _ _ _ H) as HR. destruct r as [cmds|]; [|split; [constructor|exact HS]].
  destruct HR as (gs & HG & ->). eapply wires_routed_placed; [exact HG|exact HS|congruence].
Qed.
Lemma cut_poly_placed R d f : forall pts pos, known pos -> Forall (placed R) (cut_poly d f pos pts) /\ known (after pos (cut_poly d f pos pts)).
Proof.
  induction pts as [|[x y] pts IH]; intros pos H; cbn [cut_poly]; [split; [constructor|exact H]|].
  destruct (IH (AV (Some x) (Some y) (Some d))) as (A & B); [auto|]. split; [constructor; [apply placed_known; cbn; auto|exact A]|exact B].
Qed.
Lemma polyface_placed j so pe pp f cmds pos v : route_polyface j so pe pp f = Ok (cmds, pos, v) -> somewhere pp -> (pe <> None -> known pp) ->
  Forall (placed (j_rapid_height j)) cmds /\ known pos.
Proof.
  unfold route_polyface. intros H HS HK. destruct (pf_outer f) as [|p0 ps] eqn:E0; [discriminate H|].
  apply rbind_ok in H as (near & HN & H).
  set (linked := match near with Some (d, c, (i, _)) => match so with Some s => if truthy so && truthy (Some d) && qleb d s then Some (c, i) else None | None => None end | None => None end) in H.
  assert (HL : linked <> None -> known pp).
  { intros N. apply HK. intros ->. injection HN as <-. apply N. reflexivity. }
  assert (X : exists access poly, Forall (placed (j_rapid_height j)) access /\ known (after pp access) /\
    (let pos := last_end access pp in
      let body := cut_poly (pf_depth f) (j_feed j) pos (tl poly) in
      let pos := last_end body pos in
      let '(closing, wire_end) :=
        match near with
        | Some (_, c, _) =>
            ([cut_abs (Some (fst c)) (Some (snd c)) (Some (pf_depth f)) (Some pos) false (Some (j_feed j))], c)
        | None => ([], last poly p0)
        end in
      let cmds := access ++ body ++ closing in
      Ok (cmds, last_end cmds pp, wire_end)) = Ok (cmds, pos, v)).
  { destruct linked as [[c i]|].
    - eexists _, _. split; [|split; [|exact H]]; [|cbn; auto]. fall; apply placed_known; cbn; [auto|right; apply HL; congruence].
    - eexists _, _. split; [|split; [|exact H]]; eapply rapid_to_placed, HS. }
  destruct X as (access & poly & A & B & X). cbv zeta in X. rewrite last_end_after in X.
  destruct (cut_poly_placed (j_rapid_height j) (pf_depth f) (j_feed j) (tl poly) _ B) as (C & D).
  set (body := cut_poly (pf_depth f) (j_feed j) (after pp access) (tl poly)) in *. rewrite last_end_after in X.
  destruct near as [[[d c] i]|]; injection X as <- <- _; rewrite last_end_after, !Forall_app, !after_app.
  - split; [split; [exact A|split; [exact C|]]|cbn; auto]. fall; apply placed_known; cbn; auto.
  - split; [split; [exact A|split; [exact C|constructor]]|exact D].
Qed.
Lemma polyface_pos j so pe pp f cmds pos v : route_polyface j so pe pp f = Ok (cmds, pos, v) -> pos = last_end cmds pp.
Proof.
  unfold route_polyface. intros H. destruct (pf_outer f) as [|p0 ps] eqn:E0; [discriminate H|]. apply rbind_ok in H as (near & _ & H).
  match type of H with (let '(_, _) := ?X in _) = _ => destruct X as [access poly] end. cbv zeta in H.
  match type of H with (let '(_, _) := ?X in _) = _ => destruct X as [closing we] end. injection H as <- <- _. reflexivity.
Qed.
Lemma polyfaces_placed j so fs : forall pe pp cmds, route_polyfaces_from j so pe pp fs = Ok cmds -> somewhere pp -> (pe <> None -> known pp) ->
  Forall (placed (j_rapid_height j)) cmds /\ somewhere (after pp cmds).
Proof.
  induction fs as [|f fs IH]; intros pe pp cmds H HS HK; cbn [route_polyfaces_from] in H; [injection H as <-; split; [constructor|exact HS]|].
  apply rbind_ok in H as (((c & p) & e) & H1 & H). apply rbind_ok in H as (rest & H2 & H). injection H as <-.
  destruct (polyface_placed _ _ _ _ _ _ _ _ H1 HS HK) as (A & B). pose proof (polyface_pos _ _ _ _ _ _ _ _ H1) as EP. rewrite last_end_after in EP.
  destruct (IH _ _ _ H2) as (C & D); [right; exact B|auto|]. rewrite Forall_app, after_app, <- EP. auto.
Qed.

(** ** Operations *)
Lemma profile_group_placed K TK WK j sd t ws o ms : profile_group K TK WK j sd t ws o = Ok ms -> Forall (placed (j_rapid_height j)) ms.
Proof.
  unfold profile_group. destruct o as [o|]; [|intros [= <-]; constructor]. intros H. apply rbind_ok in H as (cs & H & E). injection E as <-.
  apply mapM_ok in H. induction H as [|w c ws cs H _ IH]; [constructor|]. cbn [concat]. apply Forall_app. split; [|exact IH].
  destruct (profile_inv _ _ _ _ _ _ _ _ _ H) as (r & bs & ps & _ & _ & _ & HR). eapply (route_wires_placed K j _ _ None); [left; reflexivity|exact HR].
Qed.
Lemma profile_placed K TK WK os is_ oo io sd t : placed_gen j_rapid_height (profile_gen K TK WK os is_ oo io sd t).
Proof.
  intros j cmds H. unfold profile_gen in H. apply rbind_ok in H as (ci & Hi & H). apply rbind_ok in H as (co & Ho & H). injection H as <-.
  eexists. split; [reflexivity|]. apply Forall_app. split; eapply profile_group_placed; eassumption.
Qed.
Lemma wire_profile_placed K TK WK ws o sd t : placed_gen j_rapid_height (wire_profile_gen K TK WK ws o sd t).
Proof.
  intros j cmds H. unfold wire_profile_gen in H. apply rbind_ok in H as (ci & Hi & H). injection H as <-.
  eexists. split; [reflexivity|]. eapply profile_group_placed; eassumption.
Qed.
Lemma sequences_placed {A} R (route : list A -> avec -> result (list motion)) (all : bool -> avec -> list (list A) -> result (list motion)) :
  (forall s pos c, somewhere pos -> route s pos = Ok c -> Forall (placed R) c /\ somewhere (after pos c)) ->
  (forall done pos, all done pos [] = Ok []) ->
  (forall done pos s ss, all done pos (s :: ss) = do c <- route s pos; match c, done with [], false => Err IndexError | _, _ => do rest <- all true (last_end c pos) ss; Ok (c ++ rest) end) ->
  forall ss done pos cmds, somewhere pos -> all done pos ss = Ok cmds -> Forall (placed R) cmds.
Proof.
  intros HR H0 H1. induction ss as [|s ss IH]; intros done pos cmds HP H; [rewrite H0 in H; injection H as <-; constructor|].
  rewrite H1 in H. apply rbind_ok in H as (c & HC & H). destruct (HR _ _ _ HP HC) as (A1 & A2). rewrite <- last_end_after in A2.
  assert (X : exists rest, all true (last_end c pos) ss = Ok rest /\ cmds = c ++ rest).
  { destruct c as [|m c]; [destruct done; [|discriminate]|]; apply rbind_ok in H as (rest & H2 & H); exists rest; (split; [exact H2|congruence]). }
  destruct X as (rest & H2 & ->). apply Forall_app. split; [exact A1|]. eapply IH; [exact A2|exact H2].
Qed.
Lemma pocket_all_placed K WK F E fuel eng j areas avoids a cmds : pocket K WK F E fuel eng j areas avoids a = Ok cmds -> Forall (placed (j_rapid_height j)) cmds.
Proof.
  unfold pocket. intros H. do 5 (apply rbind_ok in H as (? & _ & H)). destruct eng; [| |discriminate H].
  - apply rbind_ok in H as (? & _ & H). apply rbind_ok in H as (? & _ & H). unfold pocket_clipper in H. do 4 (apply rbind_ok in H as (? & _ & H)).
    match type of H with route_sequences j ?so _ _ _ = _ =>
      refine (sequences_placed _ (fun s pos => route_polyface_outers j s (Some so) (Some pos)) (fun done pos ss => route_sequences j so done pos ss) _ _ _ _ _ _ _ (or_introl eq_refl) H) end.
    + intros s pos c HP HC. unfold route_polyface_outers in HC. eapply polyfaces_placed; [exact HC|exact HP|congruence].
    + reflexivity.
    + intros done pos s ss. cbn [route_sequences]. destruct (route_polyface_outers j s _ (Some pos)) as [[|]|]; destruct done; reflexivity.
  - unfold pocket_cq in H. do 4 (apply rbind_ok in H as (? & _ & H)).
    match type of H with route_wire_sequences K j ?so _ _ _ = _ =>
      refine (sequences_placed _ (fun s pos => route_wires K j (map WWire s) (Some so) (Some pos)) (fun done pos ss => route_wire_sequences K j so done pos ss) _ _ _ _ _ _ _ (or_introl eq_refl) H) end.
    + intros s pos c HP HC. exact (route_wires_placed K j _ _ (Some pos) _ HP HC).
    + reflexivity.
    + intros done pos s ss. cbn [route_wire_sequences]. destruct (route_wires K j (map WWire s) _ (Some pos)) as [[|]|]; destruct done; reflexivity.
Qed.
Lemma pocket_placed K WK F E fuel areas avoids a : placed_gen j_rapid_height (pocket_gen K WK F E fuel areas avoids a).
Proof.
  intros j cmds H. unfold pocket_gen in H. apply rbind_ok in H as (ms & H & E'). injection E' as <-. exists ms. split; [reflexivity|].
  eapply pocket_all_placed; exact H.
Qed.
Lemma holes_placed j d : forall points pos, somewhere pos -> Forall (placed (j_op_safe_height j)) (holes j d pos points).
Proof.
  induction points as [|p points IH]; intros pos HP; cbn [holes]; [constructor|]. apply Forall_app. split.
  - unfold hole. destruct HP as [->|(q & ->)]; fall;
      first [left; repeat split; fail|right; split; [apply known_av|first [left; exact I|right; apply known_av]]].
  - apply IH. right. cbn. auto.
Qed.
Lemma drill_placed o d : placed_gen j_op_safe_height (drill_gen o d).
Proof.
  intros j cmds H. destruct o as [os|]; [|discriminate]. destruct d as [d|]; [|discriminate]. unfold drill_gen in H.
  apply rbind_ok in H as (vss & _ & H). destruct (concat vss) as [|v vs] eqn:E; [discriminate|]. cbv zeta in H.
  apply rbind_ok in H as (order & _ & H). injection H as <-. eexists. split; [reflexivity|]. apply holes_placed. left. reflexivity.
Qed.
Lemma end_pos_after pos ms : end_pos pos ms = after pos ms.
Proof.
  unfold end_pos. revert pos. induction ms as [|m ms IH]; intros pos; [reflexivity|]. cbn [after]. rewrite <- IH.
  destruct ms as [|m' ms]; [reflexivity|]. cbn [last]. clear. revert m'. induction ms as [|x ms IH]; intros m'; [reflexivity|]. cbn [last] in *. apply IH.
Qed.
Lemma surface_cuts_placed R depth : forall points pos, known pos -> Forall (placed R) (surface_cuts depth pos points) /\ known (after pos (surface_cuts depth pos points)).
Proof.
  induction points as [|p points IH]; intros pos HP; cbn [surface_cuts]; [split; [constructor|exact HP]|].
  destruct (IH (AV (Some (vx p)) (Some (vy p)) (Some (qmax depth (vz p))))) as (A & B); [auto|]. split; [constructor; [apply placed_known; cbn; auto|exact A]|exact B].
Qed.
Lemma surface_runs_placed j depth : forall runs pos, somewhere pos -> Forall (placed (j_rapid_height j)) (surface_runs j depth pos runs) /\ somewhere (after pos (surface_runs j depth pos runs)).
Proof.
  induction runs as [|run runs IH]; intros pos HP; cbn [surface_runs]; [split; [constructor|exact HP]|]. rewrite end_pos_after, Forall_app, after_app.
  assert (X : Forall (placed (j_rapid_height j)) (surface_run j depth pos run) /\ somewhere (after pos (surface_run j depth pos run))).
  { destruct run as [|p points]; [split; [constructor|exact HP]|]. unfold surface_run.
    match goal with |- context [surface_cuts depth ?q points] => destruct (surface_cuts_placed (j_rapid_height j) depth points q) as (A & B) end; [destruct HP as [->|(q & ->)]; apply known_av|].
    split; [|right; exact B].
    destruct HP as [->|(q & ->)]; (constructor; [|constructor; [|constructor; [|exact A]]]); 
      first [left; repeat split; fail|right; split; [apply known_av|left; exact I]]. }
  destruct X as (X1 & X2). destruct (IH _ X2) as (Y1 & Y2). auto.
Qed.
Lemma surface_passes_placed j seqs all : forall ds i pos, somewhere pos -> Forall (placed (j_rapid_height j)) (surface_passes j seqs all i ds pos).
Proof.
  induction ds as [|d ds IH]; intros i pos HP; cbn [surface_passes]; [constructor|]. rewrite end_pos_after. 
  destruct (surface_runs_placed j d (chop_sequences_by_depth seqs (depth_limit all i)) pos HP) as (A & B). apply Forall_app. split; [exact A|apply IH, B].
Qed.
Lemma surface_placed K C a objects : placed_gen j_rapid_height (surface_gen K C a objects).
Proof.
  intros j cmds H. destruct (surface_gen_inv _ _ _ _ _ _ H) as (faces & zmin & base & bs & mss & _ & _ & _ & _ & F & ->).
  eexists. split; [reflexivity|]. clear - F. induction F as [|b ms bs1 mss1 H _ IH]; [constructor|]. cbn [concat]. apply Forall_app. split; [|exact IH].
  unfold surface_boundary in H. apply rbind_ok in H as (seqs & _ & H). apply rbind_ok in H as (ds & _ & H). injection H as <-. apply surface_passes_placed. left. reflexivity.
Qed.

(** ** Jobs *)
(** The commands of an operation: one configuration command, or placed motions. *)
Definition commands_user (cs : list command) : Prop :=
  (exists c, cs = [Config c]) \/ (exists R ms, cs = map Motion ms /\ Forall (placed R) ms /\ starts_straight R ms).
Definition user_gen (gen : job -> result (list command)) : Prop := forall j cmds, gen j = Ok cmds ->
  exists R ms, cmds = map Motion ms /\ Forall (placed R) ms /\ starts_straight R ms.
Lemma map_motion_inj a : forall b, map Motion a = map Motion b -> a = b.
Proof. induction a as [|x a IH]; intros [|y b] H; try discriminate; [reflexivity|]. cbn in H. injection H as -> H. rewrite (IH _ H). reflexivity. Qed.
Lemma user_gen_of height gen : placed_gen height gen -> straight_gen height gen -> user_gen gen.
Proof.
  intros H1 H2 j cmds E. destruct (H1 j cmds E) as (ms & -> & F). destruct (H2 j _ E) as (ms' & E' & S). apply map_motion_inj in E' as <-. eauto.
Qed.
Definition op_user (h : heap) (j : job) (o : operation) : Prop :=
  (exists owner, hget h (op_job o) = Some owner /\ j_name owner = j_name j) /\ comment_safe (op_name o) = true /\
  commands_user (op_commands o).
Definition job_user (h : heap) (j : job) : Prop := Forall (op_user h j) (j_operations j).
Definition grows (h h' : heap) : Prop := forall r j, hget h r = Some j -> exists j', hget h' r = Some j' /\ j_name j' = j_name j.
Lemma job_user_grows h h' j j' : grows h h' -> j_name j' = j_name j -> j_operations j' = j_operations j -> job_user h j -> job_user h' j'.
Proof.
  unfold job_user. intros G EN EO H. rewrite EO. eapply Forall_impl; [|exact H]. intros o ((ow & A & B) & C & D).
  destruct (G _ _ A) as (ow' & A' & B'). split; [exists ow'; split; [exact A'|congruence]|auto].
Qed.
Lemma grows_app h j : grows h (h ++ [j]).
Proof. intros r j' H. exists j'. split; [apply hget_app_some, H|reflexivity]. Qed.
Lemma grows_hset h r j j0 : hget h r = Some j0 -> j_name j = j_name j0 -> grows h (hset h r j).
Proof.
  intros H E r' j' H'. destruct (Nat.eq_dec r r') as [<-|N].
  - exists j. split; [eapply hget_hset_same; exact H|congruence].
  - exists j'. split; [rewrite hget_hset_other by exact N; exact H'|reflexivity].
Qed.
Lemma users_grow h h' : grows h h' -> Forall (job_user h) h -> Forall (job_user h') h.
Proof. intros G H. eapply Forall_impl; [|exact H]. intros j. apply (job_user_grows h h' j j G); reflexivity. Qed.
Lemma add_user h j j' name cmds :
  Forall (job_user h) h -> job_user h j -> j_name j' = j_name j -> j_operations j' = j_operations j ++ [Op (List.length h) name cmds] ->
  comment_safe name = true -> commands_user cmds ->
  Forall (job_user (h ++ [j'])) (h ++ [j']).
Proof.
  intros H HJ EN EO HN HC. apply Forall_app. split; [apply (users_grow h); [apply grows_app|exact H]|]. constructor; [|constructor].
  unfold job_user. rewrite EO. apply Forall_app. split.
  - eapply Forall_impl; [|exact HJ]. intros o ((ow & A & B) & C). split; [|exact C]. exists ow. split; [apply hget_app_some, A|congruence].
  - constructor; [|constructor]. split; [|split; [exact HN|exact HC]]. exists j'. split; [apply hget_new|reflexivity].
Qed.
Lemma fluent_user h r t name gen : user_gen gen -> comment_safe name = true ->
  Forall (job_user h) h -> Forall (job_user (fst (fluent_op h r t name gen))) (fst (fluent_op h r t name gen)).
Proof.
  intros HG HN H. unfold fluent_op. destruct (hget h r) as [j|] eqn:Ej; [|exact H].
  assert (U : Forall (job_user (fst (update_tool h r j t))) (fst (update_tool h r j t))).
  { pose proof (Forall_hget _ _ _ _ H Ej) as HJ. destruct (update_tool_spec h r j t); cbn [fst].
    - exact H.
    - eapply add_user; [exact H|exact HJ|reflexivity|reflexivity|reflexivity|left; eauto].
    - eapply add_user; [exact H|exact HJ|reflexivity|reflexivity|reflexivity|left; eauto].
    - assert (G : grows h (hset h r (updated j t))) by (eapply grows_hset; [exact Ej|reflexivity]).
      apply Forall_hset; [apply (users_grow h); [exact G|exact H]|]. eapply job_user_grows; [exact G|reflexivity|reflexivity|exact HJ]. }
  destruct (update_tool h r j t) as [h1 r1]. cbn [fst] in U. destruct (hget h1 r1) as [j1|] eqn:Ej1; [|exact U].
  destruct (gen j1) as [cmds|e] eqn:Eg; [|exact U]. cbn [fst add_operation halloc].
  eapply add_user; [exact U|exact (Forall_hget _ _ _ _ U Ej1)|reflexivity|reflexivity|exact HN|].
  destruct (HG _ _ Eg) as (R & ms & -> & F). right. eauto.
Qed.
Lemma user_motions gen : user_gen gen -> motion_gen gen.
Proof. intros H j cmds E. destruct (H j cmds E) as (R & ms & -> & _). eauto. Qed.

Lemma user_calls (P : heap -> Prop) : P [] -> (forall h j, P h -> j_operations j = [] -> P (h ++ [j])) ->
  (forall h r t name gen, P h -> user_gen gen -> comment_safe name = true -> P (fst (fluent_op h r t name gen))) ->
  forall h, user_heap h -> P h.
Proof.
  intros H0 H1 H2 h H. induction H as [|h j _ IH Hj|h K TK WK r shapes oo io sd t tl _ IH|h K TK WK r ws o sd t tl _ IH|h K WK F E fuel r areas avoids a tl _ IH|h r o d t _ IH|h K C r a objects _ IH].
  - exact H0.
  - apply H1; assumption.
  - unfold job_profile. destruct (hget h r) as [j|]; [|exact IH]. destruct (negb (is_some (j_tool_diameter j))); [exact IH|].
    destruct (negb (is_some oo) && negb (is_some io)); [exact IH|]. destruct (extract_wires shapes) as [[outers inners]|]; [|exact IH].
    eapply H2; [exact IH|eapply user_gen_of; [apply profile_placed|apply profile_straight]|reflexivity].
  - eapply H2; [exact IH|eapply user_gen_of; [apply wire_profile_placed|apply wire_profile_straight]|reflexivity].
  - eapply H2; [exact IH|eapply user_gen_of; [apply pocket_placed|apply pocket_straight]|reflexivity].
  - eapply H2; [exact IH|eapply user_gen_of; [apply drill_placed|apply drill_straight]|reflexivity].
  - eapply H2; [exact IH|eapply user_gen_of; [apply surface_placed|apply surface_straight]|reflexivity].
Qed.
Lemma user_reachable h : user_heap h -> reachable h.
Proof.
  apply user_calls; [constructor|intros; constructor; assumption|].
  intros h' r t name gen H HG _. apply reach_call; [exact H|eapply user_motions; exact HG].
Qed.
Lemma user_jobs h : user_heap h -> Forall (job_user h) h.
Proof.
  apply (user_calls (fun h => Forall (job_user h) h)); [constructor| |].
  - intros h' j H Hj. apply Forall_app. split; [apply (users_grow h'); [apply grows_app|exact H]|]. constructor; [|constructor]. unfold job_user. rewrite Hj. constructor.
  - intros h' r t name gen H HG HN. eapply fluent_user; eassumption.
Qed.

Lemma commands_placed cs c : commands_user cs -> In c cs -> match c with Motion m => exists R, placed R m | Config _ => True end.
Proof.
  intros [(c' & ->)|(R & ms & -> & F & _)] H.
  - destruct H as [<-|[]]. exact I.
  - apply in_map_iff in H as (m & <- & H). exists R. exact (proj1 (Forall_forall _ _) F m H).
Qed.
Lemma placed_printable R m : placed R m -> printable m = true.
Proof.
  destruct m as [| |cw st en c mid arrow feed]; try reflexivity. intros [([] & _)|(_ & [[]|(p & E)])]. cbn in E. subst st. cbn.
  destruct (ax c), (ay c), (az c); reflexivity.
Qed.
Lemma placed_axis R m : placed R m -> has_some_axis (m_end m) = true.
Proof. unfold has_some_axis. intros [(_ & _ & ->)|((p & ->) & _)]; reflexivity. Qed.
Lemma printable_text m : printable m = true -> exists s, str_motion m = Ok s.
Proof.
  destruct m as [| |cw st en c mid arrow feed]; cbn [str_motion]; intros H; [eauto|eauto|].
  cbn [printable] in H. unfold to_vector, rbind. destruct (ax c), (ax st); try discriminate H; destruct (ay c), (ay st); try discriminate H; destruct (az c), (az st); try discriminate H; eexists; reflexivity.
Qed.

Lemma user_printable h r j : user_heap h -> hget h r = Some j -> comment_safe (j_name j) = true -> plain_num (j_feed j) -> plain_opt (j_speed j) ->
  Forall (fun o => Forall numbers_ok (op_commands o)) (j_operations j) -> job_printable h j.
Proof.
  intros HU HJ HN HF HS HO. split; [exact HN|]. split; [exact HF|]. split; [exact HS|].
  pose proof (Forall_hget _ _ _ _ (user_jobs h HU) HJ) as U. unfold job_user in U. rewrite Forall_forall in *. intros o Ho.
  destruct (U o Ho) as ((ow & A & B) & C & D). split; [exists ow; split; [exact A|congruence]|]. split; [exact C|].
  specialize (HO o Ho). rewrite Forall_forall in *. intros c Hc. specialize (HO c Hc). pose proof (commands_placed _ _ D Hc) as D'.
  destruct c; [|exact HO]. destruct D' as (R & D'). split; [exact HO|]. eapply placed_printable; exact D'.
Qed.
Lemma user_total h r j : user_heap h -> hget h r = Some j -> exists s, to_gcode h r = Ok s.
Proof.
  intros HU HJ. pose proof (Forall_hget _ _ _ _ (user_jobs h HU) HJ) as U. unfold to_gcode. rewrite HJ. unfold job_to_gcode.
  assert (X : exists ss, mapM (fun o => do n <- name_of h (op_job o); op_to_gcode n o) (j_operations j) = Ok ss).
  { unfold job_user in U. induction U as [|o os ((ow & A & _) & _ & D) _ (ss & IH)]; [exists []; reflexivity|]. cbn [mapM]. unfold name_of at 1. rewrite A. cbn [rbind].
    unfold op_to_gcode at 1. assert (Y : exists cs, mapM str_command (op_commands o) = Ok cs).
    { pose proof (fun c => commands_placed _ c D) as D'. clear D. induction (op_commands o) as [|c cs IHc]; [exists []; reflexivity|].
      destruct IHc as (cs' & IHc); [intros c' Hc'; apply D'; right; exact Hc'|]. cbn [mapM]. rewrite IHc. specialize (D' c (or_introl eq_refl)).
      destruct c as [m|c]; cbn [str_command]; [|cbn [rbind]; eauto]. destruct D' as (R & D). destruct (printable_text m (placed_printable _ _ D)) as (s & ->). cbn [rbind]. eauto. }
    destruct Y as (cs & ->). cbn [rbind]. rewrite IH. cbn [rbind]. eauto. }
  destruct X as (ss & ->). cbn [rbind]. eauto.
Qed.
Lemma user_legal h r j : user_heap h -> hget h r = Some j -> job_printable h j ->
  exists s bs, to_gcode h r = Ok s /\ parse_program s = Some bs /\ Forall (fun b => legal_block b = true) bs.
Proof.
  intros HU HJ HP. apply (legal_text h r j HJ HP). pose proof (Forall_hget _ _ _ _ (user_jobs h HU) HJ) as U.
  eapply Forall_impl; [|exact U]. intros o (_ & _ & D). apply Forall_forall. intros c Hc. pose proof (commands_placed _ _ D Hc) as H. destruct c as [m|c]; [|exact I]. destruct H as (R & H). eapply placed_axis; exact H.
Qed.

(** ** On the machine *)
Lemma known_moves ms : forall st, ready st -> position_known st -> Forall placed_move (snd (run st (flat_map command_blocks (map Motion ms)))).
Proof.
  induction ms as [|m ms IH]; intros st Hr HP; [constructor|]. cbn [map flat_map command_blocks app]. rewrite run_cons, exec_motion by apply Hr. cbn [fst snd app].
  destruct HP as (x & y & z & HX & HY & HZ). constructor.
  - split; cbn [ev_from ev_to].
    + intros _. exists x, y, z. split; [exact HX|]. split; [exact HY|exact HZ].
    + intros C. change (ms_z st = None) in C. congruence.
  - apply IH; [exact Hr|]. unfold position_known, after_motion. cbn [set_motion set_pos ms_x ms_y ms_z]. rewrite HX, HY, HZ.
    destruct (ax (m_end m)), (ay (m_end m)), (az (m_end m)); cbn; eexists _, _, _; repeat split.
Qed.
Lemma op_moves co cs st : Forall (wf_command co) cs -> commands_user cs -> ready st -> Forall placed_move (snd (run st (flat_map command_blocks cs))).
Proof.
  intros W [(c & ->)|(R & ms & -> & _ & S)] Hr.
  - destruct (makes_commands co [Config c] st W Hr) as (_ & T). set (es := snd _) in *. cbn [flat_map command_moves app] in T. clearbody es. inversion T. constructor.
  - destruct ms as [|m1 [|m2 ms]]; [constructor|destruct S as [_ []]|]. destruct S as ((R1 & S1 & E1) & (R2 & S2 & x & y & E2)).
    cbn [map flat_map command_blocks app]. rewrite run_cons, exec_motion by apply Hr. cbn [fst snd app]. rewrite run_cons, exec_motion by apply Hr. cbn [fst snd app].
    constructor; [|constructor].
    + split; cbn [ev_kind ev_from ev_to]; [destruct m1; try contradiction; discriminate|]. intros _. unfold after_motion. rewrite E1. split; reflexivity.
    + split; cbn [ev_kind ev_from ev_to]; [destruct m2; try contradiction; discriminate|]. unfold before_motion, after_motion. rewrite E1. cbn. discriminate.
    + apply known_moves; [exact Hr|]. set (s1 := after_motion st m1). exists (rounded 3 x), (rounded 3 y), (rounded 3 R). unfold after_motion. rewrite E2. cbn. auto.
Qed.
Lemma ops_moves co os : forall st, Forall (fun o => Forall (wf_command co) (op_commands o)) os -> Forall (fun o => commands_user (op_commands o)) os -> ready st ->
  Forall placed_move (snd (run st (ops_blocks os))).
Proof.
  induction os as [|o os IH]; intros st Hw Hu Hr.
  - cbn [ops_blocks]. rewrite run_blank. constructor.
  - inversion Hw as [|? ? Ho Hos]; inversion Hu as [|? ? Uo Uos]; subst. pose proof (makes_commands co (op_commands o) st Ho Hr) as (M & _).
    pose proof (op_moves co _ _ Ho Uo Hr) as A.
    destruct os as [|o2 os]; [cbn [ops_blocks]; unfold op_blocks; rewrite run_blank; exact A|].
    change (ops_blocks (o :: o2 :: os)) with ([] :: flat_map command_blocks (op_commands o) ++ [] :: [] :: ops_blocks (o2 :: os)).
    rewrite run_blank, run_app. cbn [snd]. apply Forall_app. split; [exact A|]. rewrite !run_blank. apply IH; assumption.
Qed.
Lemma user_moves h r j st : user_heap h -> hget h r = Some j -> job_printable h j -> ms_ended st = false ->
  exists s bs, to_gcode h r = Ok s /\ parse_program s = Some bs /\ Forall placed_move (snd (run st bs)).
Proof.
  intros HU HJ HP HE. destruct (to_gcode_text h r j HJ HP) as (s & Es & Eb). exists s, (program_blocks j). split; [exact Es|]. split; [exact Eb|].
  pose proof (reachable_job_wf h r j (user_reachable h HU) HJ) as W.
  assert (U : Forall (fun o => commands_user (op_commands o)) (j_operations j)).
  { eapply Forall_impl; [|exact (Forall_hget _ _ _ _ (user_jobs h HU) HJ)]. intros o (_ & _ & D). exact D. }
  unfold program_blocks. rewrite run_app, run_header by exact HE. cbn [fst snd app]. rewrite run_app. cbn [snd].
  destruct (makes_ops _ _ (after_start (after_safety st) (j_speed j) (j_coolant j)) W (ready_header _ _ _)) as [R _].
  rewrite run_footer by apply R. cbn [snd]. rewrite app_nil_r. eapply ops_moves; [exact W|exact U|apply ready_header].
Qed.

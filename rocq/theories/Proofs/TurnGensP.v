From Verif Require Import Base.Str Base.Py Spec.Gcode Spec.Blocks Spec.Machine Spec.Jobs Spec.Arcs Spec.Feeds Spec.Moves Spec.Home Spec.Axes Spec.Alike Spec.Paths Spec.Drills Spec.Turn Spec.TurnWire Spec.TurnFace Spec.TurnMoves
  Model.Groups Model.Geometry Model.Plane Model.Edges Model.Command Model.Job Model.Routers Model.Tabs Model.Profile Model.Drill Model.Pocket Model.PocketOp
  Proofs.RouteP Proofs.EdgeP Proofs.WireP Proofs.ProfileThmP Proofs.RouteThmP Proofs.AxesP Proofs.AlikeP Proofs.TurnP Proofs.TurnWireP Proofs.TurnFaceP.
Local Open Scope list_scope.

(** ** Arcs know where they start and their centre *)
Definition centred (m : motion) : Prop := match m with MArc _ s _ c _ _ _ => both s /\ both c | _ => True end.
Lemma both_from p : both (from_vector p). Proof. exists (vx p), (vy p). split; reflexivity. Qed.
Lemma straight_centred ms : Forall straight ms -> Forall centred ms.
Proof. intros H. eapply Forall_impl; [|exact H]. intros [| |]; cbn; tauto. Qed.
Lemma cuts_through_centred a f pts : forall st, Forall centred (cuts_through st pts a f).
Proof. induction pts as [|p pts IH]; intros st; cbn [cuts_through]; constructor; [exact I|apply IH]. Qed.
Lemma route_edge_centred K e prec sp ep arrow feed cmds v : route_edge K e prec sp ep arrow feed = Ok (cmds, v) -> Forall centred cmds.
Proof.
  intros H. unfold route_edge in H. apply rbind_ok in H as (c & H & HE). injection HE as <- _.
  destruct (e_geom e); try discriminate.
  - injection H as <-. repeat constructor.
  - apply rbind_ok in H as (cw & _ & H). destruct (e_closed e); [|destruct (k_veq _ _ _)]; injection H as <-;
      rewrite ?mk_arc_full, ?mk_cut_full; repeat constructor; apply both_from.
  - apply rbind_ok in H as (cw & _ & H). destruct (e_closed e); [|destruct (k_veq _ _ _)]; injection H as <-;
      rewrite ?mk_arc_full, ?mk_cut_full; repeat constructor; apply both_from.
  - destruct (e_reversed e); injection H as <-; apply cuts_through_centred.
  - destruct (e_reversed e); injection H as <-; apply cuts_through_centred.
  - destruct (e_reversed e); injection H as <-; apply cuts_through_centred.
Qed.
Lemma route_edges_centred K j param es : forall first body, route_edges K j first param es = Ok body -> Forall centred body.
Proof.
  induction es as [|e es IH]; intros first body H; cbn [route_edges] in H.
  - injection H as <-. constructor.
  - apply rbind_ok in H as ([c v] & H1 & H). apply rbind_ok in H as (cs & H2 & H). injection H as <-.
    apply Forall_app. split; [eapply route_edge_centred; exact H1|eapply IH; exact H2].
Qed.
Lemma wire_routed_centred K j so pe pp w es param access body closing v :
  wire_routed K j so pe pp w es param access body closing v -> Forall centred (access ++ body ++ closing).
Proof.
  intros HW. assert (HX : Forall centred access).
  { destruct HW as [e0 es body closing param v _ _ _ _ _|u d t s e0 es body closing param v HP _ _ _ _ _ _ _ _ _].
    - apply straight_centred, rapid_to_straight.
    - repeat constructor. }
  assert (HB : (exists p f es', route_edges K j f p es' = Ok body) /\ (closing = [] \/ exists e0 p, route_edge K e0 (j_precision j) None p false (Some (j_feed j)) = Ok (closing, v))).
  { destruct HW as [e0 es body closing param v _ _ _ HB HC|u d t s e0 es body closing param v HP _ _ _ _ _ _ _ HB HC];
      (split; [eauto|]; destruct (truthy param); [right; eauto|left; apply HC]). }
  destruct HB as ((p & f & es' & HB) & HC). rewrite !Forall_app. split; [exact HX|]. split; [eapply route_edges_centred; exact HB|].
  destruct HC as [->|(e0 & q & HC)]; [constructor|]. eapply route_edge_centred; exact HC.
Qed.
Lemma wires_routed_centred K j so ws : forall pe pp gs, wires_routed K j so pe pp ws gs -> Forall centred (concat gs).
Proof.
  induction ws as [|w ws IH]; intros pe pp gs H; inversion H; subst; [constructor|]. cbn [concat]. apply Forall_app. split.
  - match goal with HW : wire_routed _ _ _ _ _ _ _ _ _ _ _ _ |- _ => exact (wire_routed_centred _ _ _ _ _ _ _ _ _ _ _ _ HW) end.
  - match goal with HR : wires_routed _ _ _ _ _ ws _ |- _ => exact (IH _ _ _ HR) end.
Qed.
Lemma route_wires_centred K j ws so pp cmds : route_wires K j ws so pp = Ok cmds -> Forall centred cmds.
Proof.
  intros H. unfold route_wires in H. apply rbind_ok in H as (r & H & E). injection E as <-.
  pose proof (route_wires_routed _ _ _ _ _ _ _ H) as HR. destruct r as [cmds|]; [|constructor].
  destruct HR as (gs & HG & ->). eapply wires_routed_centred; exact HG.
Qed.
Lemma profile_group_centred K TK WK j sd t ws o ms : profile_group K TK WK j sd t ws o = Ok ms -> Forall centred ms.
Proof.
  unfold profile_group. destruct o as [o|]; [|intros [= <-]; constructor]. intros H. apply rbind_ok in H as (cs & H & E). injection E as <-.
  apply mapM_ok in H. induction H as [|w c ws cs H _ IH]; [constructor|]. cbn [concat]. apply Forall_app. split; [|exact IH].
  destruct (profile_inv _ _ _ _ _ _ _ _ _ H) as (r & bs & ps & _ & _ & _ & HR). eapply route_wires_centred; exact HR.
Qed.
Lemma holes_straight j d : forall points pos, Forall straight (holes j d pos points).
Proof. induction points as [|p points IH]; intros pos; cbn [holes]; [constructor|]. apply Forall_app. split; [unfold hole; repeat constructor|apply IH]. Qed.

(** ** Whole commands *)
Lemma placed_whole R m : placed R m -> centred m -> whole_motion m.
Proof.
  intros [(_ & _ & E)|((p & E) & _)] C; (split; [rewrite E|exact C]); [right; split; reflexivity|left; apply both_from].
Qed.
Lemma whole_list height gen j cs : placed_gen height gen -> gen j = Ok cs -> (forall ms, cs = map Motion ms -> Forall centred ms) -> Forall whole_command cs.
Proof.
  intros P E C. destruct (P j cs E) as (ms & -> & F). pose proof (C ms eq_refl) as F'. clear C E. induction ms as [|m ms IH]; [constructor|].
  inversion F; subst. inversion F'; subst. constructor; [eapply placed_whole; eassumption|apply IH; assumption].
Qed.
Lemma profile_whole K TK WK os is_ oo io sd t j cs : profile_gen K TK WK os is_ oo io sd t j = Ok cs -> Forall whole_command cs.
Proof.
  intros H. eapply whole_list; [apply profile_placed|exact H|]. intros ms E. unfold profile_gen in H. apply rbind_ok in H as (ci & Hi & H). apply rbind_ok in H as (co & Ho & H).
  injection H as H. rewrite <- H in E. apply map_motion_inj in E. subst ms. apply Forall_app. split; eapply profile_group_centred; eassumption.
Qed.
Lemma wire_profile_whole K TK WK ws o sd t j cs : wire_profile_gen K TK WK ws o sd t j = Ok cs -> Forall whole_command cs.
Proof.
  intros H. eapply whole_list; [apply wire_profile_placed|exact H|]. intros ms E. unfold wire_profile_gen in H. apply rbind_ok in H as (ci & Hi & H).
  injection H as H. rewrite <- H in E. apply map_motion_inj in E. subst ms. eapply profile_group_centred; eassumption.
Qed.
Lemma pocket_whole K WK F E fuel areas avoids a j cs : pocket_gen K WK F E fuel areas avoids a j = Ok cs -> Forall whole_command cs.
Proof.
  intros H. eapply whole_list; [apply pocket_placed|exact H|]. intros ms Em. unfold pocket_gen in H. apply rbind_ok in H as (ci & Hi & H).
  injection H as H. rewrite <- H in Em. apply map_motion_inj in Em. subst ms. apply straight_centred.
  unfold pocket in Hi. do 5 (apply rbind_ok in Hi as (? & _ & Hi)). apply rbind_ok in Hi as (? & _ & Hi). apply rbind_ok in Hi as (? & _ & Hi). eapply pocket_straight; exact Hi.
Qed.
Lemma drill_motions os z j cs : drill_gen os z j = Ok cs -> exists ms, cs = map Motion ms /\ Forall straight ms.
Proof.
  intros H. destruct os as [os|]; [|discriminate]. destruct z as [z|]; [|discriminate]. unfold drill_gen in H.
  apply rbind_ok in H as (vss & _ & H). destruct (concat vss) as [|v vs] eqn:E; [discriminate|]. cbv zeta in H.
  apply rbind_ok in H as (order & _ & H). injection H as <-. eexists. split; [reflexivity|]. apply holes_straight.
Qed.
Lemma drill_whole os z j cs : drill_gen os z j = Ok cs -> Forall whole_command cs.
Proof.
  intros H. eapply whole_list; [apply drill_placed|exact H|]. intros ms E. destruct (drill_motions _ _ _ _ H) as (ms' & E' & S). rewrite E' in E. apply map_motion_inj in E. subst ms. apply straight_centred, S.
Qed.
Lemma drill_turned T o os os' z j ps : turns T o -> wanted_holes (to_world (j_top j)) os ps -> wanted_holes (to_world (j_top j)) os' (map T ps) ->
  drill_gen (Some os') z j = rmap (map (turn_order T o)) (drill_gen (Some os) z j).
Proof.
  intros TO W W'. rewrite (drill_turn T os os' z j ps (turns_rigid T o TO) W W'). destruct (drill_gen (Some os) z j) as [cs|] eqn:E; [|reflexivity].
  unfold rmap. cbn [rbind]. f_equal. destruct (drill_motions _ _ _ _ E) as (ms & -> & S). rewrite !map_map. cbn [turn_command turn_order].
  pose proof (straight_turned T o ms S) as Q. apply (f_equal (map Motion)) in Q. rewrite !map_map in Q. exact Q.
Qed.

(** ** The operations *)
Lemma gens_turned : 
  (forall top T o os os' z ps, turns T o -> wanted_holes (to_world top) os ps -> wanted_holes (to_world top) os' (map T ps) ->
     settled (drill_gen (Some os) z) /\ turned_gen top T o (drill_gen (Some os) z) (drill_gen (Some os') z)) /\
  (forall top T o K TK WK given, turns T o -> kernel_turns T o K -> tab_kernel_turns T o TK -> wire_kernel_turns T o WK top given ->
     (forall os is_ oo io sd t, settled (profile_gen K TK WK os is_ oo io sd t) /\ turned_gen top T o (profile_gen K TK WK os is_ oo io sd t) (profile_gen K TK WK (map given os) (map given is_) oo io sd t)) /\
     (forall ws r sd t, settled (wire_profile_gen K TK WK ws r sd t) /\ turned_gen top T o (wire_profile_gen K TK WK ws r sd t) (wire_profile_gen K TK WK (map given ws) r sd t))) /\
  (forall top T o K WK F gw given shadow E, turns T o -> kernel_turns T o K -> wire_kernel_turns T o WK top gw -> face_kernel_turns F top given shadow T o -> engine_turns T E ->
     forall fuel ops avoids a, settled (pocket_gen K WK F E fuel ops avoids a) /\ turned_gen top T o (pocket_gen K WK F E fuel ops avoids a) (pocket_gen K WK F E fuel (map given ops) (option_map (map given) avoids) a)).
Proof.
  split; [|split].
  - intros top T o os os' z ps TO W W'. split; [apply drill_settled|]. intros j <-. split; [eapply drill_turned; eassumption|apply drill_whole].
  - intros top T o K TK WK given TO KM TM WM. split; intros.
    + split; [apply profile_settled|]. intros j <-. split; [apply profile_gen_turned; assumption|apply profile_whole].
    + split; [apply wire_profile_settled|]. intros j <-. split; [apply wire_profile_turned; assumption|apply wire_profile_whole].
  - intros top T o K WK F gw given shadow E TO KM WM FM EM fuel ops avoids a. split; [apply pocket_settled|]. intros j <-. split; [eapply pocket_gen_turned; eassumption|apply pocket_whole].
Qed.

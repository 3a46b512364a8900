(** Proofs for Spec/TracedArcs.v. *)
From Verif Require Import Base.Str Base.Py Spec.Gcode Spec.Blocks Spec.Machine Spec.Program Spec.Jobs Spec.Axes Spec.Wires Spec.Profiles Spec.OnMachine Spec.Arcs Spec.Traced Spec.TracedArcs
  Model.Groups Model.Geometry Model.Plane Model.Edges Model.Job Model.Routers Model.Tabs Model.Profile Proofs.TracedP.
Local Open Scope list_scope.

Lemma linear_no_arc ev : ev_kind ev = GLinear -> ~ is_arc ev.
Proof. intros E [H|H]; congruence. Qed.
Lemma arc_proper e ev : level_circle e -> arc_made e ev -> proper_arc ev.
Proof. intros L (A & _ & _ & _ & _ & _ & B). destruct (B L) as [C D]. split; [exact A|]. split; assumption. Qed.
Lemma edge_arcs K feed e es : (circular e -> level_circle e) -> edge_traced K feed e es -> forall ev, In ev es -> is_arc ev -> proper_arc ev.
Proof.
  intros L (_ & _ & _ & S) ev Hev HA. unfold edge_shape_made in S.
  assert (LIN : (exists v, es = [v] /\ ev_kind v = GLinear) -> False).
  { intros (v & -> & E). destruct Hev as [<-|[]]. exact (linear_no_arc _ E HA). }
  assert (ARC : circular e -> (if e_closed e then exists a b, es = [a; b] /\ arc_made e a /\ arc_made e b /\ stands_at (travel_param e (qq 1 2)) (ev_to a)
      else if k_veq K (travel_start e) (travel_end e) then exists v, es = [v] /\ ev_kind v = GLinear
      else exists a, es = [a] /\ arc_made e a) -> proper_arc ev).
  { intros C H. specialize (L C). destruct (e_closed e).
    - destruct H as (a & b & -> & A & B & _). destruct Hev as [<-|[<-|[]]]; eapply arc_proper; eassumption.
    - destruct (k_veq K (travel_start e) (travel_end e)); [contradiction (LIN H)|]. destruct H as (a & -> & A). destruct Hev as [<-|[]]. eapply arc_proper; eassumption. }
  assert (SPL : (exists n vs, Spec.Curves.sampled_in e n vs /\ Forall2 (fun v w => ev_kind w = GLinear /\ stands_at v (ev_to w)) vs es) -> False).
  { intros (n & vs & _ & F). clear - F Hev HA. induction F as [|v w vs es [E _] _ IH]; [contradiction|]. destruct Hev as [<-|Hev]; [exact (linear_no_arc _ E HA)|exact (IH Hev)]. }
  destruct (e_geom e) eqn:EG; try (contradiction (LIN S)); try (contradiction (SPL S)); try contradiction; (apply ARC; [|exact S]); unfold circular; auto.
Qed.
Lemma wire_arcs K safe pf feed w es : (forall e, In e w -> circular e -> level_circle e) -> wire_traced K safe pf feed w es ->
  forall ev, In ev es -> is_arc ev -> proper_arc ev.
Proof.
  intros L (entry & down & bodies & -> & FM & KD & _ & _ & _ & F) ev Hev HA. apply in_app_or in Hev as [Hev|Hev].
  - assert (X : In ev (feed_moves entry)) by (apply filter_In; split; [exact Hev|destruct HA as [->| ->]; reflexivity]).
    rewrite FM in X. destruct X as [<-|[]]. contradiction (linear_no_arc _ KD HA).
  - revert L Hev. induction F as [|e b w bs T _ IH]; intros L Hev; [contradiction|]. cbn [concat] in Hev. apply in_app_or in Hev as [Hev|Hev].
    + eapply edge_arcs; [|exact T|exact Hev|exact HA]. apply L. left. reflexivity.
    + apply IH; [|exact Hev]. intros e' I. apply L. right. exact I.
Qed.
Lemma groups_arcs K safe pf feed ws gs : (forall w e, In w ws -> In e w -> circular e -> level_circle e) -> Forall2 (wire_traced K safe pf feed) ws gs ->
  forall ev, In ev (concat gs) -> is_arc ev -> proper_arc ev.
Proof.
  intros L F ev Hev HA. revert L Hev. induction F as [|w g ws gs T _ IH]; intros L Hev; [contradiction|]. cbn [concat] in Hev. apply in_app_or in Hev as [Hev|Hev].
  - eapply wire_arcs; [|exact T|exact Hev|exact HA]. intros e. apply (L w). left. reflexivity.
  - apply IH; [|exact Hev]. intros w' e I. apply (L w' e). right. exact I.
Qed.

Lemma wire_profile_arcs K TK WK h r ws o sd t tl h' r' j' st radius paths : user_heap h ->
  job_wire_profile K TK WK h r ws o sd t tl = (h', Ok r') -> hget h' r' = Some j' -> job_printable h' j' -> ms_ended st = false ->
  tool_radius j' = Some radius -> toolpaths_of K TK WK j' radius ws (Some o) sd t paths -> (forall p, In p paths -> traceable K (j_op_safe_height j') p) ->
  (forall p e, In p paths -> In e p -> circular e -> level_circle e) ->
  exists p bs before groups, to_gcode h' r' = Ok p /\ parse_program p = Some bs /\ snd (run st bs) = before ++ concat groups /\ continues h r st before /\
    Forall2 (wire_traced K (j_op_safe_height j') (j_plunge_feed j') (j_feed j')) paths groups /\
    forall ev, In ev (concat groups) -> is_arc ev -> proper_arc ev.
Proof.
  intros HU HD HJ HP HE HR HT TR L. destruct (wire_profile_traced K TK WK h r ws o sd t tl h' r' j' st radius paths HU HD HJ HP HE HR HT TR) as (p & bs & before & groups & A & B & C & CT & D).
  exists p, bs, before, groups. split; [exact A|]. split; [exact B|]. split; [exact C|]. split; [exact CT|]. split; [exact D|]. eapply groups_arcs; eassumption.
Qed.
Lemma profile_arcs K TK WK h r shapes oo io sd t tl h' r' j' st radius inners outers : user_heap h ->
  job_profile K TK WK h r shapes oo io sd t tl = (h', Ok r') -> hget h' r' = Some j' -> job_printable h' j' -> ms_ended st = false ->
  tool_radius j' = Some radius ->
  toolpaths_of K TK WK j' radius (flat_map inners_of shapes) io sd t inners -> toolpaths_of K TK WK j' radius (flat_map outer_of shapes) oo sd t outers ->
  (forall p, In p (inners ++ outers) -> traceable K (j_op_safe_height j') p) ->
  (forall p e, In p (inners ++ outers) -> In e p -> circular e -> level_circle e) ->
  exists p bs before groups, to_gcode h' r' = Ok p /\ parse_program p = Some bs /\ snd (run st bs) = before ++ concat groups /\ continues h r st before /\
    Forall2 (wire_traced K (j_op_safe_height j') (j_plunge_feed j') (j_feed j')) (inners ++ outers) groups /\
    forall ev, In ev (concat groups) -> is_arc ev -> proper_arc ev.
Proof.
  intros HU HD HJ HP HE HR HI HO TR L. destruct (profile_traced K TK WK h r shapes oo io sd t tl h' r' j' st radius inners outers HU HD HJ HP HE HR HI HO TR) as (p & bs & before & groups & A & B & C & CT & D).
  exists p, bs, before, groups. split; [exact A|]. split; [exact B|]. split; [exact C|]. split; [exact CT|]. split; [exact D|]. eapply groups_arcs; eassumption.
Qed.

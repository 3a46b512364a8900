(** Final forms for Props/Routing.v. *)
From Verif Require Import Base.Str Base.Py Model.Geometry Model.Edges Model.Routers
  Spec.Paths Spec.Moves Spec.Contours Spec.Wires Proofs.GeomP Proofs.RouteP Proofs.EdgeP Proofs.WireP.
Local Open Scope Qc_scope.
Local Open Scope list_scope.

Lemma outers_safe j fs so pp cmds : route_polyface_outers j fs so pp = Ok cmds ->
  continuous (dflt pp av_none) cmds /\
  Forall (fun m => rapid m -> safe_rapid (j_rapid_height j) (j_op_safe_height j) m) cmds /\
  Forall (fun m => ~ rapid m -> exists f, In f fs /\
            ok_feed (j_op_safe_height j) (j_plunge_feed j) (j_feed j) (pf_depth f) m) cmds.
Proof.
  intros H. destruct (route_polyfaces_routed _ _ _ _ _ _ H) as (gs & HG & ->).
  exact (routed_safe _ _ _ _ _ _ HG).
Qed.

Lemma outers_level j fs so pp cmds d : route_polyface_outers j fs so pp = Ok cmds ->
  d < j_op_safe_height j -> (forall f, In f fs -> pf_depth f = d) ->
  Forall (fun m => ~ rapid m -> plunge (j_op_safe_height j) d (j_plunge_feed j) m \/
                                (at_height m d /\ m_feed m = Some (j_feed j))) cmds.
Proof.
  intros H L HD. destruct (route_polyfaces_routed _ _ _ _ _ _ H) as (gs & HG & ->).
  eapply routed_level; try eassumption. congruence.
Qed.

Lemma outers_groups j fs so pp cmds : route_polyface_outers j fs so pp = Ok cmds ->
  (forall f, In f fs -> closed_path (pf_outer f)) ->
  exists gs, cmds = concat gs /\ Forall2 group_ok fs gs.
Proof.
  intros H HF. destruct (route_polyfaces_routed _ _ _ _ _ _ H) as (gs & HG & ->). exists gs. split; [reflexivity|].
  eapply routed_groups; [|exact HG]. apply Forall_forall. exact HF.
Qed.

Lemma outers_links j fs so pp cmds : route_polyface_outers j fs so pp = Ok cmds ->
  exists gs, cmds = concat gs /\ Forall2 (link_ok so) fs gs.
Proof.
  intros H. destruct (route_polyfaces_routed _ _ _ _ _ _ H) as (gs & HG & ->). exists gs. split; [reflexivity|].
  eapply routed_links; [|exact HG]. discriminate.
Qed.

Lemma outers_follow j fs so pp cmds : route_polyface_outers j fs so pp = Ok cmds ->
  (forall f, In f fs -> closed_path (pf_outer f)) ->
  (forall s, so = Some s -> 0 < s -> 1 <= s) -> (retracts cmds <= 1)%nat ->
  Forall (fun m => ~ rapid m -> vertical m \/ follows so fs m) cmds.
Proof.
  intros H HF Hs HR. destruct (route_polyfaces_routed _ _ _ _ _ _ H) as (gs & HG & ->).
  eapply routed_follows; try eassumption; [apply Forall_forall; exact HF|discriminate|]. cbn iota. lia.
Qed.

Lemma outers_total_from j so fs : (forall f, In f fs -> pf_outer f <> [] /\ proper (pf_outer f)) ->
  forall pe pp, exists cmds, route_polyfaces_from j so pe pp fs = Ok cmds.
Proof.
  induction fs as [|f fs IH]; intros HF pe pp; [eexists; reflexivity|].
  cbn [route_polyfaces_from].
  assert (HR : exists c pos e, route_polyface j so pe pp f = Ok (c, pos, e)).
  { destruct (HF f (or_introl eq_refl)) as [NE PR]. unfold route_polyface.
    destruct (pf_outer f) as [|p0 rest] eqn:E; [congruence|].
    assert (HN : exists near, match pe with Some e => distance_to_path e (p0 :: rest) | None => Ok None end = Ok near).
    { destruct pe as [e|]; [|eexists; reflexivity]. apply distance_to_path_total_from. exact PR. }
    destruct HN as (near & ->). cbn [rbind].
    repeat match goal with |- context [let '(_, _) := ?x in _] => destruct x end. eexists _, _, _. reflexivity. }
  destruct HR as (c & pos & e & ->). cbn [rbind].
  destruct (IH (fun g G => HF g (or_intror G)) (Some e) pos) as (cs & ->). eexists; reflexivity.
Qed.
Lemma outers_total j fs so pp : (forall f, In f fs -> pf_outer f <> [] /\ proper (pf_outer f)) ->
  exists cmds, route_polyface_outers j fs so pp = Ok cmds.
Proof. intros H. apply outers_total_from. exact H. Qed.

(** Wires *)
Lemma wires_safe K j ws so pp cmds : route_wires K j ws so pp = Ok cmds ->
  Forall (fun m => (rapid m -> safe_rapid (j_rapid_height j) (j_op_safe_height j) m) /\
                   (~ rapid m -> feed_ok (j_op_safe_height j) (j_plunge_feed j) (j_feed j) m)) cmds.
Proof.
  intros H. unfold route_wires in H. apply rbind_ok in H. destruct H as (r & H & E). injection E as <-.
  pose proof (route_wires_routed _ _ _ _ _ _ _ H) as HR. destruct r as [cmds|]; [|constructor].
  destruct HR as (gs & HG & ->). eapply wires_routed_safe. exact HG.
Qed.

Lemma wires_none K j so ws : forall pe pp r, route_wires_from K j so pe pp ws = Ok r ->
  (exists w, In w ws /\ wire_edges w = []) -> r = None.
Proof.
  induction ws as [|w ws IH]; intros pe pp r H (x & Hx & E); [destruct Hx|].
  cbn [route_wires_from] in H. apply rbind_ok in H. destruct H as (o & H1 & H).
  destruct Hx as [->|Hx].
  - unfold route_wire in H1. rewrite E in H1. injection H1 as <-. injection H as <-. reflexivity.
  - destruct o as [[[c pos] e]|]; [|injection H as <-; reflexivity].
    apply rbind_ok in H. destruct H as (rest & H2 & H). rewrite (IH _ _ _ H2) in H; [injection H as <-; reflexivity|].
    exists x. auto.
Qed.

Lemma wires_split K j ws so pp cmds : route_wires K j ws so pp = Ok cmds ->
  (forall w, In w ws -> wire_edges w <> []) ->
  exists gs, cmds = concat gs /\ wires_routed K j so None (dflt pp av_none) ws gs.
Proof.
  intros H NE. unfold route_wires in H. apply rbind_ok in H. destruct H as (r & H & E). injection E as <-.
  pose proof (route_wires_routed _ _ _ _ _ _ _ H) as HR. destruct r as [cmds|].
  - destruct HR as (gs & HG & ->). exists gs. auto.
  - destruct HR as (w & Hw & E). exfalso. exact (NE w Hw E).
Qed.

Lemma wires_covered K j ws so pp cmds : route_wires K j ws so pp = Ok cmds ->
  (forall w, In w ws -> wire_edges w <> []) ->
  exists gs, cmds = concat gs /\ Forall2 (covers (j_feed j)) ws gs.
Proof.
  intros H NE. destruct (wires_split _ _ _ _ _ _ H NE) as (gs & -> & HG). exists gs. split; [reflexivity|].
  eapply wires_routed_covers. exact HG.
Qed.
Lemma wires_dropped K j ws so pp cmds w : route_wires K j ws so pp = Ok cmds ->
  In w ws -> wire_edges w = [] -> cmds = [].
Proof.
  intros H Hw E. unfold route_wires in H. apply rbind_ok in H. destruct H as (r & H & E2). injection E2 as <-.
  rewrite (wires_none _ _ _ _ _ _ _ H); [reflexivity|]. exists w. auto.
Qed.

Lemma wires_travelled K j ws so pp cmds : route_wires K j ws so pp = Ok cmds ->
  (forall w, In w ws -> wire_edges w <> []) ->
  (forall w e, In w ws -> In e (wire_edges w) -> edge_sound e) ->
  (forall w u d id p, In w ws -> k_nearest K u w <> Some (d, TEdge id p)) ->
  exists gs, cmds = concat gs /\ Forall2 (travelled so) ws gs.
Proof.
  intros H NE HS HK. destruct (wires_split _ _ _ _ _ _ H NE) as (gs & -> & HG). exists gs. split; [reflexivity|].
  eapply wires_routed_travelled; eassumption.
Qed.

Lemma wires_continuous K j ws so pp cmds : route_wires K j ws so pp = Ok cmds ->
  (forall w e, In w ws -> In e (wire_edges w) -> edge_sound e) ->
  (forall w, In w ws -> connected (wire_edges w)) ->
  (so <> None -> forall w, In w ws -> loop (wire_edges w)) ->
  (forall w e rest, In w ws -> wire_edges w = e :: rest -> vz (travel_start e) < j_op_safe_height j) ->
  (forall w u, In w ws -> good_answer so w (k_nearest K u w)) ->
  continuous (dflt pp av_none) cmds.
Proof.
  intros H HS HC HL HZ HG. unfold route_wires in H. apply rbind_ok in H. destruct H as (r & H & E). injection E as <-.
  pose proof (route_wires_routed _ _ _ _ _ _ _ H) as HR. destruct r as [cmds|]; [|exact I].
  destruct HR as (gs & HW & ->). eapply wires_routed_continuous; eassumption.
Qed.

(** Three-point arc direction. *)
Lemma arc_direction3 s m e :
  (forall b, is_arc_clockwise s m e = Ok b -> (b = true <-> vz (cross (vsub m s) (vsub e m)) < 0)) /\
  (forall x, is_arc_clockwise s m e = Err x <-> x = NotImplementedError /\ vz s <> vz m).
Proof.
  unfold is_arc_clockwise. destruct (qeqb (vz s) (vz m)) eqn:E; cbn [negb].
  - split; [|intros x; split; [discriminate|]; intros [_ C]; exfalso; apply C, qeqb_eq, E].
    intros b [= <-]. rewrite qltb_lt. destruct s, m, e. cbn -[Qcmult Qcplus Qcminus].
    match goal with |- 0 < ?a <-> ?b < 0 => assert (HE : a = - b) by ring; rewrite HE end.
    match goal with |- 0 < - ?b <-> _ => generalize b end. intros q. split; intros Hq; qlra.
  - split; [discriminate|]. intros x. split.
    + intros [= <-]. split; [reflexivity|]. intros C. apply qeqb_eq in C. congruence.
    + intros [-> _]. reflexivity.
Qed.

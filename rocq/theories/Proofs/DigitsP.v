(** The precision of a job (C148). *)
From Verif Require Import Base.Str Base.Py Model.Groups Model.Geometry Model.Plane Model.Edges Model.Command Model.Job Model.Interp Model.Routers Model.Profile
  Model.Drill Model.Strategy Model.Surface Spec.Jobs Spec.Alike Spec.Digits Proofs.JobP Proofs.HistoryP Proofs.AlikeP.
Local Open Scope string_scope.
Local Open Scope Qc_scope.
Local Open Scope list_scope.

Lemma but_precision_eq j j' : but_precision j j' -> j' = at_precision (j_precision j') j.
Proof. destruct j, j'. unfold but_precision, at_precision. cbn. intros [=]. subst. reflexivity. Qed.

(** ** The text *)
Lemma nth_both {A B} (R : A -> B -> Prop) l l' : Forall2 R l l' -> forall n,
  match nth_error l n, nth_error l' n with Some a, Some b => R a b | None, None => True | _, _ => False end.
Proof. induction 1 as [|a b l l' H _ IH]; intros [|n]; cbn; auto. apply IH. Qed.
Lemma text_any_precision h h' r : Forall2 but_precision h h' -> to_gcode h r = to_gcode h' r.
Proof.
  intros H. unfold to_gcode, hget. pose proof (nth_both _ _ _ H r) as K. destruct (nth_error h r) as [j|], (nth_error h' r) as [j'|]; [|destruct K|destruct K|reflexivity].
  apply but_precision_eq in K. rewrite K. unfold job_to_gcode. cbn [at_precision j_operations j_name j_feed j_unit j_speed j_coolant].
  rewrite (mapM_ext (fun o => do n <- name_of h (op_job o); op_to_gcode n o) (fun o => do n <- name_of h' (op_job o); op_to_gcode n o)); [reflexivity|].
  intros o. unfold name_of, hget. pose proof (nth_both _ _ _ H (op_job o)) as L.
  destruct (nth_error h (op_job o)) as [k|], (nth_error h' (op_job o)) as [k'|]; [|destruct L|destruct L|reflexivity].
  apply but_precision_eq in L. rewrite L. reflexivity.
Qed.

(** ** Drilling and surfacing *)
Lemma holes_any j p d ps : forall pp, holes (at_precision p j) d pp ps = holes j d pp ps.
Proof.
  induction ps as [|q ps IH]; intros pp; [reflexivity|]. cbn [holes]. change (hole (at_precision p j) d pp q) with (hole j d pp q). rewrite IH. reflexivity.
Qed.
Lemma drill_any_precision o d j p : drill_gen o d (at_precision p j) = drill_gen o d j.
Proof.
  unfold drill_gen. destruct o as [os|]; [|reflexivity]. destruct d as [d|]; [|reflexivity]. change (j_top (at_precision p j)) with (j_top j).
  destruct (mapM _ os) as [vs|]; [|reflexivity]. cbn [rbind]. destruct (concat vs); [reflexivity|].
  destruct (order_points _ _ _); [|reflexivity]. cbn [rbind]. rewrite holes_any. reflexivity.
Qed.
Lemma surface_runs_any j p d rs : forall pp, surface_runs (at_precision p j) d pp rs = surface_runs j d pp rs.
Proof.
  induction rs as [|r rs IH]; intros pp; [reflexivity|]. cbn [surface_runs]. change (surface_run (at_precision p j) d pp r) with (surface_run j d pp r).
  rewrite IH. reflexivity.
Qed.
Lemma surface_passes_any j p seqs all ds : forall i pp, surface_passes (at_precision p j) seqs all i ds pp = surface_passes j seqs all i ds pp.
Proof. induction ds as [|d ds IH]; intros i pp; [reflexivity|]. cbn [surface_passes]. rewrite surface_runs_any, IH. reflexivity. Qed.
Lemma surface_any_precision K C a os j p : surface_gen K C a os (at_precision p j) = surface_gen K C a os j.
Proof.
  unfold surface_gen. change (j_top (at_precision p j)) with (j_top j).
  destruct (wp_to_faces os) as [fs|]; [|reflexivity]. cbn [rbind]. destruct (sk_zmin K _ fs) as [z|]; [|reflexivity]. cbn [rbind].
  destruct (sk_project K _ fs) as [b|]; [|reflexivity]. cbn [rbind]. destruct (mapM _ b) as [bs|]; [|reflexivity]. cbn [rbind].
  rewrite (mapM_ext _ (surface_boundary K C a j fs z)); [reflexivity|]. intros x. unfold surface_boundary. change (j_top (at_precision p j)) with (j_top j).
  destruct (surface_sequences _ _ _ _ _ _ _); [|reflexivity]. cbn [rbind]. destruct (surface_depths _ _ _); [|reflexivity]. cbn [rbind].
  rewrite surface_passes_any. reflexivity.
Qed.

(** ** Profiles *)
Lemma route_edge_any K e p p' sp ep a f : no_curve e -> route_edge K e p sp ep a f = route_edge K e p' sp ep a f.
Proof. intros [H|[H|H]]; unfold route_edge; rewrite H; reflexivity. Qed.
Lemma route_edges_any K j p param es : Forall no_curve es -> forall first, route_edges K (at_precision p j) first param es = route_edges K j first param es.
Proof.
  induction 1 as [|e es H _ IH]; intros first; [reflexivity|]. cbn [route_edges at_precision j_precision j_feed].
  rewrite (route_edge_any K e p (j_precision j)) by exact H. rewrite IH. reflexivity.
Qed.
Lemma shifted_in K es t es' : shift_edges K es t = Ok es' -> Forall no_curve es -> Forall no_curve es'.
Proof.
  unfold shift_edges. destruct (match t with TEdge _ _ => _ | TVertex _ => _ end) as [i|]; [|discriminate]. intros [= <-] H.
  rewrite <- (firstn_skipn i es) in H. apply Forall_app in H. apply Forall_app. tauto.
Qed.
Lemma route_wire_any K j p so pe pp w : Forall no_curve (wire_edges w) -> route_wire K (at_precision p j) so pe pp w = route_wire K j so pe pp w.
Proof.
  intros H. unfold route_wire. destruct (wire_edges w) as [|e0 es]; [reflexivity|].
  cbn [at_precision j_precision j_feed j_plunge_feed j_rapid_height j_op_safe_height].
  match goal with |- rbind ?x _ = rbind ?y _ => assert (E : forall a edges, y = Ok (a, edges) -> Forall no_curve (hd e0 edges :: edges)); [|destruct y as [[a edges]|e] eqn:Y; [specialize (E _ _ eq_refl)|reflexivity]] end.
  { intros a edges. match goal with |- context [match ?l with Some _ => rbind _ _ | None => _ end] => destruct l as [t|] end.
    - intros K0. apply rbind_ok in K0. destruct K0 as (es' & S & K0). injection K0 as <- <-. apply (shifted_in _ _ _ _ S) in H.
      destruct es' as [|e1 es']; [constructor; [|constructor]|cbn; constructor; [inversion H; assumption|exact H]].
      exfalso. clear - S. unfold shift_edges in S. destruct (match t with TEdge _ _ => _ | TVertex _ => _ end) as [i|]; [|discriminate].
      injection S as S. apply (f_equal (@length edge)) in S. rewrite app_length, Nat.add_comm, <- app_length, firstn_skipn in S. discriminate S.
    - intros [= <- <-]. cbn. constructor; [inversion H; assumption|exact H]. }
  cbn [rbind]. inversion E as [|? ? E0 E1]; subst. rewrite (route_edges_any K j p) by exact E1.
  rewrite (route_edge_any K (hd e0 edges) p (j_precision j)) by exact E0. reflexivity.
Qed.
Lemma route_wires_from_any K j p so ws : Forall (fun w => Forall no_curve (wire_edges w)) ws -> forall pe pp,
  route_wires_from K (at_precision p j) so pe pp ws = route_wires_from K j so pe pp ws.
Proof.
  induction 1 as [|w ws H _ IH]; intros pe pp; [reflexivity|]. cbn [route_wires_from]. rewrite route_wire_any by exact H.
  destruct (route_wire K j so pe pp w) as [[[[c p1] v]|]|e]; cbn [rbind]; [|reflexivity|reflexivity]. rewrite IH. reflexivity.
Qed.
Lemma route_wires_any K j p ws so pp : Forall (fun w => Forall no_curve (wire_edges w)) ws ->
  route_wires K (at_precision p j) ws so pp = route_wires K j ws so pp.
Proof. intros H. unfold route_wires. rewrite route_wires_from_any by exact H. reflexivity. Qed.

Lemma profile_any_precision K TK WK j p w o sd t :
  (forall r bases paths, tool_radius j = Some r -> offset_wire K WK (wk_transform WK (j_top j) w) (o * r) = Ok bases ->
     mapM (profile_toolpaths TK WK j sd t) bases = Ok paths -> Forall (Forall no_curve) (concat paths)) ->
  profile K TK WK (at_precision p j) w o sd t = profile K TK WK j w o sd t.
Proof.
  intros H. unfold profile. change (tool_radius (at_precision p j)) with (tool_radius j). change (j_top (at_precision p j)) with (j_top j).
  destruct (tool_radius j) as [r|]; [|reflexivity]. specialize (H r).
  destruct (offset_wire K WK _ _) as [bases|e]; [|reflexivity]. cbn [rbind].
  change (mapM (profile_toolpaths TK WK (at_precision p j) sd t) bases) with (mapM (profile_toolpaths TK WK j sd t) bases).
  destruct (mapM (profile_toolpaths TK WK j sd t) bases) as [paths|e] eqn:MP; [|reflexivity]. cbn [rbind].
  apply route_wires_any. rewrite Forall_map. exact (H _ _ eq_refl eq_refl MP).
Qed.

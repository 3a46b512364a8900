(** * Heights of routed wires *)
From Verif Require Import Base.Str Base.Py Model.Geometry Model.Edges Model.Routers
  Spec.Paths Spec.Moves Spec.Wires Spec.Profiles Proofs.GeomP Proofs.RouteP Proofs.EdgeP Proofs.WireP Proofs.RouteThmP.
Local Open Scope Qc_scope.
Local Open Scope list_scope.

Section Heights.
Variable P : Qc -> Prop.
Notation good := (fun m => exists z, az (m_end m) = Some z /\ P z).

Lemma cuts_through_heights arrow feed pts : forall st, (forall p, In p pts -> P (vz p)) ->
  Forall good (cuts_through st pts arrow feed).
Proof.
  induction pts as [|p pts IH]; intros st H; cbn [cuts_through]; [constructor|].
  constructor; [|apply IH; intros q Hq; apply H; right; exact Hq].
  rewrite mk_cut_full. exists (vz p). split; [reflexivity|apply H; left; reflexivity].
Qed.

Lemma route_edge_heights K e prec sp ep arrow feed cmds v : edge_heights P e ->
  route_edge K e prec sp ep arrow feed = Ok (cmds, v) -> Forall good cmds.
Proof.
  intros (H1 & H2 & H3 & H4) H. unfold route_edge in H. apply rbind_ok in H as (c & H & HE). injection HE as <- _.
  assert (HT : P (vz (match ep with None => edge_end_point e | Some p => e_param e p end))).
  { destruct ep; [apply H3|]. unfold edge_end_point. destruct (e_reversed e); assumption. }
  destruct (e_geom e).
  - injection H as <-. rewrite mk_cut_full. constructor; [|constructor]. eexists. split; [reflexivity|exact HT].
  - apply rbind_ok in H as (cw & _ & H). destruct (e_closed e); [|destruct (k_veq _ _ _)]; injection H as <-;
      rewrite ?mk_arc_full, ?mk_cut_full; repeat (constructor; [eexists; split; [reflexivity|first [exact HT|apply H3]]|]); constructor.
  - apply rbind_ok in H as (cw & _ & H). destruct (e_closed e); [|destruct (k_veq _ _ _)]; injection H as <-;
      rewrite ?mk_arc_full, ?mk_cut_full; repeat (constructor; [eexists; split; [reflexivity|first [exact HT|apply H3]]|]); constructor.
  - destruct (e_reversed e); injection H as <-; apply cuts_through_heights; intros p Hp; apply in_map_iff in Hp as (d & <- & _); apply H4.
  - destruct (e_reversed e); injection H as <-; apply cuts_through_heights; intros p Hp; apply in_map_iff in Hp as (d & <- & _); apply H4.
  - destruct (e_reversed e); injection H as <-; apply cuts_through_heights; intros p Hp; apply in_map_iff in Hp as (d & <- & _); apply H4.
  - discriminate.
Qed.

Lemma route_edges_heights K j param es : forall first body, (forall e, In e es -> edge_heights P e) ->
  route_edges K j first param es = Ok body -> Forall good body.
Proof.
  induction es as [|e es IH]; intros first body HE H.
  - cbn in H. injection H as <-. constructor.
  - cbn [route_edges] in H. apply rbind_ok in H as ([c v] & H1 & H). apply rbind_ok in H as (cs & H2 & H). injection H as <-.
    rewrite Forall_app. split; [eapply route_edge_heights; [|exact H1]; apply HE; left; reflexivity|].
    eapply IH; [|exact H2]. intros e' He. apply HE. right. exact He.
Qed.

Lemma wire_routed_heights K j so pe pp w es param access body closing v :
  wire_routed K j so pe pp w es param access body closing v -> (forall e, In e (wire_edges w) -> edge_heights P e) ->
  cuts_at P (access ++ body ++ closing).
Proof.
  intros HW HE.
  assert (HI : forall e, In e es -> edge_heights P e).
  { intros e He. apply HE. destruct HW as [e0 es body closing param v EW|u d t s e0 es body closing param v _ _ _ _ _ _ HS _ _ _].
    - rewrite EW. exact He.
    - destruct (shift_edges_spec _ _ _ _ HS) as (HR & _). exact (rotation_in _ _ _ HR He). }
  assert (Body : forall p b, route_edges K j true p es = Ok b -> cuts_at P b).
  { intros p b Hb. pose proof (route_edges_heights _ _ _ _ _ _ HI Hb) as F. eapply Forall_impl; [|exact F]. cbn. intros m Hm _. exact Hm. }
  unfold cuts_at in *. rewrite !Forall_app.
  destruct HW as [e0 es body closing param v EW _ _ HB HC|u d t s e0 es body closing param v _ _ _ _ _ _ HS _ HB HC].
  - split; [|split; [eapply Body; exact HB|]].
    + destruct (rapid_to_safe pp (travel_start e0) (j_rapid_height j) (j_op_safe_height j) (j_plunge_feed j)) as (_ & _ & _ & H4 & _).
      eapply Forall_impl; [|exact H4]. cbn. intros m Hm NR. destruct (Hm NR) as (_ & _ & _ & HZ & _). eexists. split; [exact HZ|].
      destruct (HI e0 ltac:(left; reflexivity)) as (A & B & _). unfold travel_start. destruct (e_reversed e0); assumption.
    + destruct (truthy param); [|destruct HC as [-> _]; constructor].
      pose proof (route_edge_heights _ _ _ _ _ _ _ _ _ (HI e0 ltac:(left; reflexivity)) HC) as F.
      eapply Forall_impl; [|exact F]. cbn. intros m Hm _. exact Hm.
  - split; [|split; [eapply Body; exact HB|]].
    + constructor; [|constructor]. intros _. eexists. split; [reflexivity|].
      destruct (HI e0 ltac:(left; reflexivity)) as (A & B & C & _).
      destruct (truthy param); [apply C|]. unfold travel_start. destruct (e_reversed e0); assumption.
    + destruct (truthy param); [|destruct HC as [-> _]; constructor].
      pose proof (route_edge_heights _ _ _ _ _ _ _ _ _ (HI e0 ltac:(left; reflexivity)) HC) as F.
      eapply Forall_impl; [|exact F]. cbn. intros m Hm _. exact Hm.
Qed.
End Heights.

Lemma wires_routed_heights K j so ws : forall pe pp gs, wires_routed K j so pe pp ws gs ->
  Forall2 (fun w g => forall P, (forall e, In e (wire_edges w) -> edge_heights P e) -> cuts_at P g) ws gs.
Proof.
  induction ws as [|w ws IH]; intros pe pp gs H; inversion H; subst; constructor; [|eapply IH; eassumption].
  intros P HE. eapply wire_routed_heights; eassumption.
Qed.

(** Every wire of a list without empty wires: its edges in order, at its own heights. *)
Lemma wires_at_heights K j ws so pp cmds : route_wires K j ws so pp = Ok cmds ->
  (forall w, In w ws -> wire_edges w <> []) ->
  exists gs, cmds = concat gs /\
    Forall2 (fun w g => covers (j_feed j) w g /\ forall P, (forall e, In e (wire_edges w) -> edge_heights P e) -> cuts_at P g) ws gs.
Proof.
  intros H HN. unfold route_wires in H. apply rbind_ok in H as (r & H & E). injection E as <-.
  pose proof (route_wires_routed _ _ _ _ _ _ _ H) as HR. destruct r as [cmds|].
  - destruct HR as (gs & HG & ->). exists gs. split; [reflexivity|].
    pose proof (wires_routed_covers _ _ _ _ _ _ _ HG) as F1. pose proof (wires_routed_heights _ _ _ _ _ _ _ HG) as F2.
    clear HG H HN. revert F2. induction F1; intros F2; inversion F2; subst; constructor; auto.
  - destruct HR as (w & Hw & E). destruct (HN w Hw E).
Qed.

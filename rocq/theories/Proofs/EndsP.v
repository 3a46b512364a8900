From Verif Require Import Base.Str Base.Py Model.Geometry Model.Plane Model.Edges Model.Command Model.Job Model.Interp Model.Routers Model.Pocket Model.Profile Model.Drill Model.PocketOp
  Spec.Paths Spec.Moves Spec.Wires Spec.Contours Spec.Ends Proofs.GeomP Proofs.RouteP Proofs.EdgeP Proofs.WireP Proofs.RouteThmP Proofs.ProfileP Proofs.ProfileThmP Proofs.HomeP Proofs.PocketOpP Proofs.TracedPocketP Proofs.RouteEx Proofs.ProfileEx Proofs.PocketEx Proofs.PocketOpEx.
Local Open Scope Qc_scope.
Local Open Scope list_scope.

Lemma ends_app a b : (b = [] -> ends_in_cut a) -> ends_in_cut b -> ends_in_cut (a ++ b).
Proof.
  intros A [->|(l & m & -> & H)]; [rewrite app_nil_r; apply A; reflexivity|]. right. exists (a ++ l), m. rewrite app_assoc. auto.
Qed.
Lemma ends_concat gs : Forall ends_in_cut gs -> ends_in_cut (concat gs).
Proof. induction 1 as [|g gs H _ IH]; [left; reflexivity|]. cbn [concat]. apply ends_app; auto. Qed.
Lemma ends_all ms : Forall (fun m => ~ rapid m) ms -> ends_in_cut ms.
Proof.
  intros F. destruct ms as [|m ms] using rev_ind; [left; reflexivity|clear IHms]. right. exists ms, m. split; [reflexivity|].
  apply Forall_app in F as [_ F]. inversion F; assumption.
Qed.

Lemma edges_cut K j param e es body : route_edges K j true param (e :: es) = Ok body -> body <> [] /\ Forall (fun m => ~ rapid m) body.
Proof.
  intros H. destruct (route_edges_cuts _ _ _ _ _ _ H) as (gs & -> & F). split.
  - inversion F as [|? g ? gs' [N _] _]; subst. cbn [concat]. destruct g; [contradiction|discriminate].
  - clear H. induction F as [|e0 c es0 gs [_ F1] F IH]; [constructor|]. cbn [concat]. apply Forall_app. split; [|exact IH].
    eapply Forall_impl; [|exact F1]. intros m [M _]. exact M.
Qed.
Lemma closing_cut K j e0 (param : option Qc) (closing : list motion) v (b : bool) (P : Prop) :
  (if b then route_edge K e0 (j_precision j) None param false (Some (j_feed j)) = Ok (closing, v) else closing = [] /\ P) ->
  Forall (fun m => ~ rapid m) closing.
Proof.
  destruct b; [|intros [-> _]; constructor]. intros H. destruct (route_edge_cuts _ _ _ _ _ _ _ _ _ H) as (_ & F & _).
  eapply Forall_impl; [|exact F]. intros m [M _]. exact M.
Qed.
Lemma wire_ends K j so pe pp w es param access body closing v : wire_routed K j so pe pp w es param access body closing v ->
  ends_in_cut (access ++ body ++ closing).
Proof.
  intros H.
  assert (B : (body <> [] /\ Forall (fun m => ~ rapid m) body) /\ Forall (fun m => ~ rapid m) closing).
  { inversion H as [e0 es0 b c prm v0 E1 E2 E3 RB RC|u d t s e0 es0 b c prm v0 E1 E2 E3 E4 E5 E6 E7 E8 RB RC]; subst;
      (split; [eapply edges_cut; exact RB|eapply closing_cut; exact RC]). }
  destruct B as ((N & F1) & F2). apply ends_app; [intros C; apply app_eq_nil in C as [C _]; contradiction|].
  apply ends_all, Forall_app; split; assumption.
Qed.
Lemma wires_end K j ws so pp cmds : route_wires K j ws so pp = Ok cmds -> ends_in_cut cmds.
Proof.
  intros H. unfold route_wires in H. apply rbind_ok in H. destruct H as (r & H & E). injection E as <-.
  pose proof (route_wires_routed _ _ _ _ _ _ _ H) as HR. destruct r as [cmds|]; [|left; reflexivity]. destruct HR as (gs & HG & ->).
  apply ends_concat. clear H. induction HG as [|pe pp0 w ws es param access body closing v gs WR g HG IH]; constructor; [|exact IH]. eapply wire_ends; exact WR.
Qed.

Lemma profile_group_ends K TK WK j sd t ws o ms : profile_group K TK WK j sd t ws o = Ok ms -> ends_in_cut ms.
Proof.
  unfold profile_group. destruct o as [o|]; [|intros [= <-]; left; reflexivity]. intros H. apply rbind_ok in H as (cs & H & E). injection E as <-.
  apply ends_concat. apply mapM_ok in H. induction H as [|w c ws cs H _ IH]; constructor; [|exact IH].
  destruct (profile_inv _ _ _ _ _ _ _ _ _ H) as (r & bs & ps & _ & _ & _ & HR). eapply wires_end; exact HR.
Qed.
Lemma profile_ends K TK WK os is_ oo io sd t : cut_gen (profile_gen K TK WK os is_ oo io sd t).
Proof.
  intros j cmds H. unfold profile_gen in H. apply rbind_ok in H as (ci & Hi & H). apply rbind_ok in H as (co & Ho & H). injection H as <-.
  eexists. split; [reflexivity|]. apply ends_app; [intros _|]; eapply profile_group_ends; eassumption.
Qed.
Lemma wire_profile_ends K TK WK ws o sd t : cut_gen (wire_profile_gen K TK WK ws o sd t).
Proof.
  intros j cmds H. unfold wire_profile_gen in H. apply rbind_ok in H as (ci & Hi & H). injection H as <-.
  eexists. split; [reflexivity|]. eapply profile_group_ends; eassumption.
Qed.
Lemma wire_sequences_end K j so ss : forall done pos ms, route_wire_sequences K j so done pos ss = Ok ms -> ends_in_cut ms.
Proof.
  induction ss as [|s ss IH]; intros done pos ms H; cbn [route_wire_sequences] in H; [injection H as <-; left; reflexivity|].
  apply rbind_ok in H as (c & HC & H). assert (H' : exists rest, route_wire_sequences K j so true (last_end c pos) ss = Ok rest /\ ms = c ++ rest).
  { destruct c, done; try discriminate H; apply rbind_ok in H as (rest & HR & H); injection H as <-; eauto. }
  destruct H' as (rest & HR & ->). apply ends_app; [intros _; eapply wires_end; exact HC|eapply IH; exact HR].
Qed.
Lemma pocket_cq_ends K WK F fuel j ops avoids a b c d so ms : pocket_cq K WK F fuel j ops avoids a b c d so = Ok ms -> ends_in_cut ms.
Proof.
  unfold pocket_cq. intros H. do 4 (apply rbind_ok in H as (? & _ & H)). eapply wire_sequences_end; exact H.
Qed.

Lemma contour_ends S pf feed f g : cut_contour S pf feed f g -> ends_in_cut g.
Proof.
  intros (access & cuts & rnd & chord & -> & _ & _ & _ & F & D). apply ends_app.
  - intros _. destruct D as [(front & m & -> & _ & (P & _))|(m & -> & P & _)]; [right; exists front, m|right; exists [], m]; (split; [reflexivity|]);
      intros R; destruct m; cbn in *; contradiction.
  - apply ends_all. eapply Forall_impl; [|exact F]. intros m (P & _) R. destruct m; cbn in *; contradiction.
Qed.
Lemma pocket_ends K WK F E fuel areas avoids a j cmds : pocket_gen K WK F E fuel areas avoids a j = Ok cmds ->
  0 < j_op_safe_height j -> (forall s, pa_stepdown a = Some s -> 0 <= s) -> exists ms, cmds = map Motion ms /\ ends_in_cut ms.
Proof.
  intros H S0 SD. unfold pocket_gen in H. apply rbind_ok in H as (ms & H & E'). injection E' as <-. exists ms. split; [reflexivity|].
  destruct (pocket_clipper_ok _ _ _ _ _ _ _ _ _ _ H) as (radius & ps & qs & _ & _ & _ & PC).
  destruct (pocket_cut _ _ _ _ _ _ _ _ _ _ _ _ PC S0 SD) as (opss & avss & pockets & ss & gs & _ & _ & _ & _ & -> & _ & CC).
  apply ends_concat. clear - CC. induction CC; constructor; [eapply contour_ends; eassumption|assumption].
Qed.
Lemma pocket_ends_ex : exists K WK F E fuel areas a j cmds,
  pocket_gen K WK F E fuel areas None a j = Ok cmds /\ 0 < j_op_safe_height j /\ pa_stepdown a = Some 1 /\ cmds <> [].
Proof.
  exists K0, flat_wk, rect_fk, box_engine, 20%nat, [rface 0 0 10 8 (-2)], (down_args 1), ex_job, (map Motion clipper_cmds).
  destruct clipper_runs as (H & _ & N). split; [unfold pocket_gen; cbn [pocket] in H; rewrite H; reflexivity|]. split; [reflexivity|]. split; [reflexivity|].
  intros C. apply map_eq_nil in C. contradiction.
Qed.

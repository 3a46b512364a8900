From Verif Require Import Base.Str Base.Py Model.Groups Model.Geometry Model.Plane Model.Command Model.Job Model.Strategy Model.Drill
  Spec.Paths Spec.Drills Spec.Order Proofs.DrillP Proofs.PartsP.
From Coq Require Import Permutation.
Local Open Scope Qc_scope.
Local Open Scope list_scope.

Lemma nearest_again here pts o : nearest_first here pts o -> nearest_first here o o.
Proof.
  induction 1 as [here|here l1 p l2 o H1 H2 H IH]; [constructor|]. apply (nearest_next here [] p o o); [intros q []| |exact IH].
  intros q Hq. apply (Permutation_in _ (nearest_first_perm _ _ _ H)) in Hq. apply in_app_or in Hq as [Hq|Hq]; [apply Qclt_le_weak, H1|apply H2]; exact Hq.
Qed.
Lemma hole_places j z pp p : cut_places (map Motion (hole j z pp p)) = [p].
Proof. destruct p, pp as [[a|] [b|] [c|]]; reflexivity. Qed.
Lemma holes_places j z ps : forall pp, cut_places (map Motion (holes j z pp ps)) = ps.
Proof.
  induction ps as [|p ps IH]; intros pp; [reflexivity|]. cbn [holes]. cbn zeta. rewrite map_app. unfold cut_places. rewrite flat_map_app.
  fold (cut_places (map Motion (hole j z pp p))). rewrite hole_places. cbn [app]. f_equal. apply IH.
Qed.
Lemma drill_order os z j cs : drill_gen (Some os) (Some z) j = Ok cs -> exists p pts o, wanted_holes (to_world (j_top j)) os (p :: pts) /\ nearest_first p pts o /\
  cut_places cs = p :: o /\ cs = map Motion (holes j z av_none (p :: o)).
Proof.
  unfold drill_gen. intros H. destruct (mapM (object_vectors (j_top j)) os) as [vs|] eqn:E; [|discriminate]. cbn [rbind] in H. destruct (concat vs) as [|v l] eqn:C; [discriminate|].
  cbn zeta in H. change (map plan (v :: l)) with (plan v :: map plan l) in H. destruct (order_first (plan v) (map plan l)) as (o & Q & N). rewrite Q in H. cbn [rbind] in H.
  assert (X : cs = map Motion (holes j z av_none (plan v :: o))) by congruence. clear H. subst cs.
  exists (plan v), (map plan l), o. split; [|split; [exact N|split; [apply holes_places|reflexivity]]].
  exists vs. split; [apply objects_ok; exact E|]. rewrite C. reflexivity.
Qed.
Lemma drill_again os os' z j cs : drill_gen (Some os) (Some z) j = Ok cs -> wanted_holes (to_world (j_top j)) os' (cut_places cs) -> drill_gen (Some os') (Some z) j = Ok cs.
Proof.
  intros H W. destruct (drill_order _ _ _ _ H) as (p & pts & o & _ & N & P & ->). rewrite P in W. clear H P. destruct (wanted_known _ _ _ W) as (vs & E & M). unfold drill_gen.
  rewrite E. cbn [rbind]. destruct (concat vs) as [|v l]; [discriminate M|]. cbn zeta. rewrite M. destruct (order_first p o) as (o2 & -> & N2).
  rewrite (nearest_first_unique _ _ _ N2 _ (nearest_again _ _ _ N)). reflexivity.
Qed.
Lemma nearest_legs here pts o : nearest_first here pts o -> forall l1 a b l2 c, here :: o = l1 ++ a :: b :: l2 -> In c (b :: l2) -> sqd a b <= sqd a c.
Proof.
  induction 1 as [here|here m1 p m2 o H1 H2 H IH]; intros l1 a b l2 c E Hc.
  - destruct l1 as [|x [|y l1]]; discriminate E.
  - destruct l1 as [|x l1]; [|injection E as -> E; exact (IH l1 a b l2 c E Hc)].
    cbn [app] in E. injection E as <- <- <-. destruct Hc as [<-|Hc]; [apply Qcle_refl|].
    apply (Permutation_in _ (nearest_first_perm _ _ _ H)) in Hc. apply in_app_or in Hc as [Hc|Hc]; [apply Qclt_le_weak, H1|apply H2]; exact Hc.
Qed.
Lemma drill_legs os z j cs l1 a b l2 c : drill_gen (Some os) (Some z) j = Ok cs -> cut_places cs = l1 ++ a :: b :: l2 -> In c (b :: l2) -> sqd a b <= sqd a c.
Proof. intros H E. destruct (drill_order _ _ _ _ H) as (p & pts & o & _ & N & P & _). rewrite P in E. exact (nearest_legs _ _ _ N _ _ _ _ _ E). Qed.

(** * Lemmas about operations with and without a stepdown *)
From Verif Require Import Base.Str Base.Py Model.Geometry Model.Edges Model.Routers Model.Tabs Model.Profile Model.Pocket Spec.Pockets Spec.Finer Spec.Deeper Spec.FloorPass Proofs.GeomP Proofs.PocketP Proofs.StepdownP Proofs.FinerP Proofs.DeeperP.
Local Open Scope Qc_scope.
Local Open Scope list_scope.

Lemma stepdown_raised ss st s out q : 0 < s -> apply_stepdown ss st s = Ok out -> In q out -> raised ss q.
Proof.
  intros S0 H Hq. apply stepdown_ok in H as (d & (_ & U) & ->). apply in_flat_map in Hq as (z & Hz & Hq). apply in_map_iff in Hq as (q0 & <- & Hq).
  destruct (steps_both s (dflt st 0) d d _ _ S0 (Qcle_refl d) (arange_down s _ _ S0) (arange_down s _ _ S0)) as (_ & _ & _ & B). specialize (B z Hz).
  exists q0, z. split; [exact Hq|]. split; [reflexivity|]. intros f Hf. rewrite (U f); [exact B|]. apply in_concat. exists q0. split; assumption.
Qed.
Lemma raised_more ss ss' q : raised ss q -> (forall x, In x ss -> In x ss') -> raised ss' q.
Proof. intros (q0 & z & I & R) H. exists q0, z. split; [apply H, I|exact R]. Qed.
Lemma fill_floors E fuel n so s : 0 < s -> forall ops sh ss, fill_ops E fuel n so (Some s) sh ops = Ok ss ->
  exists ss0, fill_ops E fuel n so None sh ops = Ok ss0 /\ among ss0 ss /\ forall q, In q ss -> In q ss0 \/ raised ss0 q.
Proof.
  intros S0. assert (N : qeqb s 0 = false) by (destruct (qeqb s 0) eqn:Q; [|reflexivity]; apply qeqb_eq in Q; rewrite Q in S0; discriminate S0).
  induction ops as [|op ops IH]; intros sh ss H; cbn [fill_ops] in *; [injection H as <-; exists []; split; [reflexivity|]; split; [constructor|intros q []]|]. rewrite N in H.
  apply rbind_ok in H as (fill & -> & H). apply rbind_ok in H as (st & E2 & H). apply rbind_ok in H as (rest & E3 & H). injection H as <-. cbn [rbind].
  destruct (IH _ _ E3) as (r0 & -> & A & R). exists (fill ++ r0). split; [reflexivity|]. split.
  - change (fill ++ r0) with ([] ++ fill ++ r0). apply among_app; [apply among_nil_l|apply among_app; [apply among_refl|exact A]].
  - apply rbind_ok in E2 as (a & _ & E2). intros q Hq. apply in_app_iff in Hq as [Hq|Hq]; [right|apply in_app_iff in Hq as [Hq|Hq]; [left; apply in_app_iff; left; exact Hq|]].
    + apply (raised_more fill); [exact (stepdown_raised _ _ _ _ _ S0 E2 Hq)|]. intros x Hx. apply in_app_iff. left. exact Hx.
    + destruct (R q Hq) as [K|K]; [left; apply in_app_iff; right; exact K|right; apply (raised_more r0); [exact K|]; intros x Hx; apply in_app_iff; right; exact Hx].
Qed.
Lemma pocket_floors E fuel j areas avoids oo io ao ai so s cmds cmds0 : 0 < s ->
  pocket_clipper E fuel j areas avoids oo io ao ai so (Some s) = Ok cmds -> pocket_clipper E fuel j areas avoids oo io ao ai so None = Ok cmds0 ->
  exists ss ss0, route_sequences j so false av_none ss = Ok cmds /\ route_sequences j so false av_none ss0 = Ok cmds0 /\ among ss0 ss /\ forall q, In q ss -> In q ss0 \/ raised ss0 q.
Proof.
  unfold pocket_clipper. intros S0 H H'. apply rbind_ok in H as (ops & E1 & H). rewrite E1 in H'. cbn [rbind] in H'. apply rbind_ok in H as (avs & E2 & H). rewrite E2 in H'. cbn [rbind] in H'.
  apply rbind_ok in H as (pops & E3 & H). rewrite E3 in H'. cbn [rbind] in H'. apply rbind_ok in H as (ss & E4 & H). destruct (fill_floors _ _ _ _ _ S0 _ _ _ E4) as (ss0 & E5 & A & R). rewrite E5 in H'. cbn [rbind] in H'.
  exists ss, ss0. auto.
Qed.
Lemma profile_floor TK WK j s t base ps ps0 : profile_toolpaths TK WK j (Some s) t base = Ok ps -> profile_toolpaths TK WK j None t base = Ok ps0 ->
  exists upper w, ps = upper ++ [w] /\ ps0 = [w].
Proof.
  unfold profile_toolpaths. intros H H'. apply rbind_ok in H as (ls & E1 & H). apply rbind_ok in H' as (l0 & E0 & H'). cbn in E0. injection E0 as <-.
  assert (L : exists upper, ls = upper ++ [base]).
  { unfold profile_layers in E1. destruct (qeqb s 0); [injection E1 as <-; exists []; reflexivity|]. apply rbind_ok in E1 as (above & _ & E1). injection E1 as <-. eexists. cbn; reflexivity. }
  destruct L as (upper & ->). destruct t as [t|]; [|injection H as <-; injection H' as <-; eauto].
  clear E1. cbn [mapM] in H'. apply rbind_ok in H' as (w & W & H'). injection H' as <-.
  revert ps H. induction upper as [|u upper IH]; intros ps H; cbn [app mapM] in H.
  - rewrite W in H. injection H as <-. exists [], w. split; reflexivity.
  - apply rbind_ok in H as (x & _ & H). apply rbind_ok in H as (y & E2 & H). injection H as <-. destruct (IH y E2) as (v & w' & -> & Q). exists (x :: v), w'. split; [reflexivity|exact Q].
Qed.

(** * Lemmas about the depth of holes *)
From Verif Require Import Base.Str Base.Py Model.Geometry Model.Drill Spec.HoleDepth Proofs.RouteEx Proofs.DrillEx.
Local Open Scope Qc_scope.
Local Open Scope list_scope.

Lemma holes_depth j d d' ps : forall pp pp', same_hole (- qabs d) (- qabs d') pp pp' ->
  Forall2 (other_depth (- qabs d) (- qabs d')) (map Motion (holes j d pp ps)) (map Motion (holes j d' pp' ps)).
Proof.
  induction ps as [|p ps IH]; intros pp pp' S; [constructor|]. cbn [holes]. rewrite !map_app. apply Forall2_app; [|apply IH; cbn; right; cbn; repeat split; destruct S as [->|(X & Y & _)]; auto].
  assert (E : ax pp = ax pp' /\ ay pp = ay pp') by (destruct S as [->|(X & Y & _)]; auto). destruct E as [EX EY].
  unfold hole, rapid_abs, plunge_cut_abs, mk_rapid. cbn [init_motion m_end or_else ax ay az map]. rewrite EX, EY.
  constructor; [constructor; exact S|]. constructor; [constructor; left; reflexivity|]. constructor; [constructor; left; reflexivity|]. constructor; [constructor; reflexivity|]. constructor.
Qed.
Lemma drill_depth o d d' j : match drill_gen o (Some d) j, drill_gen o (Some d') j with
  | Ok cs, Ok cs' => Forall2 (other_depth (- qabs d) (- qabs d')) cs cs'
  | Err e, Err e' => e = e'
  | _, _ => False end.
Proof.
  unfold drill_gen. destruct o as [os|]; [|reflexivity]. destruct (mapM _ os) as [vs|]; [|reflexivity]. cbn [rbind]. destruct (concat vs) as [|v vs']; [reflexivity|]. cbv zeta.
  destruct (order_points _ _ _) as [order|]; [|reflexivity]. cbn [rbind]. apply holes_depth. left. reflexivity.
Qed.
Lemma qabs_opp x : qabs (- x) = qabs x.
Proof. destruct (qabs_spec x) as [[-> H]|[-> H]]; [rewrite qabs_neg; [ring|qlra]|rewrite qabs_pos; [reflexivity|qlra]]. Qed.
Lemma holes_sign j d ps : forall pp, holes j (- d) pp ps = holes j d pp ps.
Proof. induction ps as [|p ps IH]; intros pp; [reflexivity|]. cbn [holes]. unfold hole. rewrite !qabs_opp, IH. reflexivity. Qed.
Lemma drill_sign o d j : drill_gen o (Some (- d)) j = drill_gen o (Some d) j.
Proof.
  unfold drill_gen. destruct o as [os|]; [|reflexivity]. destruct (mapM _ os) as [vs|]; [|reflexivity]. cbn [rbind]. destruct (concat vs) as [|v vs']; [reflexivity|]. cbv zeta.
  destruct (order_points _ _ _) as [order|]; [|reflexivity]. cbn [rbind]. rewrite holes_sign. reflexivity.
Qed.
Lemma job_drill_sign h r o d t : job_drill h r o (Some (- d)) t = job_drill h r o (Some d) t.
Proof.
  unfold job_drill, fluent_op.
  repeat match goal with |- context [match ?x with _ => _ end] => match x with context [drill_gen] => fail 1 | _ => destruct x end end; try reflexivity.
  rewrite drill_sign. reflexivity.
Qed.
Lemma drill_lines o d d' j cs cs' : drill_gen o (Some d) j = Ok cs -> drill_gen o (Some d') j = Ok cs' ->
  Forall2 (fun c c' => str_command c = str_command c' \/ (a_plunge c /\ a_plunge c')) cs cs'.
Proof.
  intros H H'. pose proof (drill_depth o d d' j) as X. rewrite H, H' in X. clear H H'. induction X as [|c c' cs cs' R X IH]; constructor; [|exact IH].
  destruct R; [left; reflexivity|right; split; exact I].
Qed.
Lemma ex_hole_depth : firstn 5 (drill_texts (drill_gen (Some ex_holes) (Some (qz 2)) ex_job)) = ["G0 Z1"; "G0 X0 Y0 Z1"; "G0 X0 Y0 Z0"; "G1 X0 Y0 Z-2 F300"; "G0 X0 Y0 Z1"]%string /\
  firstn 5 (drill_texts (drill_gen (Some ex_holes) (Some (qz (-7))) ex_job)) = ["G0 Z1"; "G0 X0 Y0 Z1"; "G0 X0 Y0 Z0"; "G1 X0 Y0 Z-7 F300"; "G0 X0 Y0 Z1"]%string /\
  drill_gen (Some [DOther]) (Some (qz 2)) ex_job = Err OperationError.
Proof. repeat split; vm_compute; reflexivity. Qed.

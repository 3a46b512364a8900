(** Examples and witnesses for Props/Drill.v. *)
From Verif Require Import Base.Str Base.Py Spec.Paths Spec.Moves Spec.Drills Spec.Jobs Model.Groups Model.Geometry Model.Plane Model.Drill
  Model.Strategy Proofs.RouteEx Proofs.DrillP.
Local Open Scope Qc_scope.
Local Open Scope list_scope.

Definition zh (x y z : Z) : vec := V3 (qz x) (qz y) (qz z).
(** A plate with two holes, a wire and a vector. *)
Definition ex_holes : list drill_object :=
  [DVector (zh 0 0 0); DFace (Ok (zh 99 99 0)) [Ok (zh 10 0 0); Ok (zh 4 3 0)]; DWire (Ok (zh 12 1 0)); DVector (zh 4 3 5)].
Definition drill_texts (r : result (list command)) : list string :=
  match r with
  | Ok cs => map (fun c => match str_command c with Ok s => s | Err _ => "?"%string end) cs
  | Err _ => ["!"%string]
  end.
Lemma ex_drill : exists cmds, drill_gen (Some ex_holes) (Some (qz 2)) ex_job = Ok cmds /\
  firstn 8 (drill_texts (Ok cmds)) =
    ["G0 Z1"; "G0 X0 Y0 Z1"; "G0 X0 Y0 Z0"; "G1 X0 Y0 Z-2 F300"; "G0 X0 Y0 Z1"; "G0 X4 Y3 Z1"; "G0 X4 Y3 Z0"; "G1 X4 Y3 Z-2 F300"]%string /\
  length cmds = 20%nat.
Proof.
  destruct (drill_gen (Some ex_holes) (Some (qz 2)) ex_job) as [cmds|] eqn:E.
  - exists cmds. split; [reflexivity|]. rewrite <- E. split; [vm_compute; reflexivity|].
    apply (f_equal (fun r => match r with Ok c => length c | Err _ => O end)) in E. rewrite <- E. vm_compute. reflexivity.
  - exfalso. vm_compute in E. discriminate.
Qed.
Lemma ex_holes_wanted : wanted_holes (to_world (j_top ex_job)) ex_holes
  [zp 0 0; zp 10 0; zp 4 3; zp 12 1; zp 4 3].
Proof.
  exists [[to_world plane_xy (zh 0 0 0)]; [to_world plane_xy (zh 10 0 0); to_world plane_xy (zh 4 3 0)];
          [to_world plane_xy (zh 12 1 0)]; [to_world plane_xy (zh 4 3 5)]]. split.
  - constructor; [reflexivity|]. constructor; [right; split; [discriminate|]; repeat (constructor; eauto)|].
    constructor; [cbn; eauto|]. constructor; [reflexivity|]. constructor.
  - cbn [concat app map]. repeat (apply f_equal2; [apply pair_eq; apply Qc_is_canon; reflexivity|]). reflexivity.
Qed.
Lemma ex_order : nearest_first (zp 0 0) [zp 10 0; zp 4 3; zp 12 1; zp 4 3] [zp 4 3; zp 4 3; zp 10 0; zp 12 1].
Proof.
  apply (nearest_next _ [zp 10 0] (zp 4 3) [zp 12 1; zp 4 3]).
  { intros q [<-|[]]. vm_compute. reflexivity. } { intros q [<-|[<-|[]]]; vm_compute; discriminate. }
  apply (nearest_next _ [zp 10 0; zp 12 1] (zp 4 3) []).
  { intros q [<-|[<-|[]]]; vm_compute; reflexivity. } { intros q []. }
  apply (nearest_next _ [] (zp 10 0) [zp 12 1]).
  { intros q []. } { intros q [<-|[]]; vm_compute; discriminate. }
  apply (nearest_next _ [] (zp 12 1) []); [intros q []|intros q []|constructor].
Qed.

(** The job plane moved to (10, 0, 0): a hole there should be drilled at the job's origin. *)
Definition moved_top : plane := PL (zh 10 0 0) (V3 1 0 0) (V3 0 1 0) (V3 0 0 1).
Definition moved_job : job :=
  new_job moved_top (PInt 300) None (Some (qz 3)) None "part" (Some (PInt 100)) None None 3 METRIC
          PLANE_XY OFFSET_1 ABSOLUTE ARC_ABSOLUTE CONTINUOUS None.
Lemma drill_misplaced : exists j os d cmds pts, drill_gen (Some os) (Some d) j = Ok (map Motion cmds) /\
  wanted_holes (to_local (j_top j)) os pts /\ pts = [zp 0 0] /\
  exists m, In m cmds /\ straight_cut m /\ xy (m_end m) = Some (zp 20 0).
Proof.
  destruct (drill_gen (Some [DWire (Ok (zh 10 0 0))]) (Some 1) moved_job) as [cs|] eqn:E; [|exfalso; vm_compute in E; discriminate].
  destruct (drill_gen_spec _ _ _ _ E) as (p & pts & order & groups & (vss & HV & HP) & N & -> & D & _).
  inversion HV as [|? ? ? ? H1 H2]; subst. inversion H2; subst. cbn [hole_centers] in H1. destruct H1 as (v & [= <-] & ->).
  cbn [concat app map] in HP. injection HP as -> ->. destruct (nearest_inv _ _ _ N) as [[_ ->]|(a & ? & ? & ? & C & _)]; [|destruct a; discriminate].
  inversion D as [|? g ? ? D1 D2]; subst. inversion D2; subst.
  exists moved_job, [DWire (Ok (zh 10 0 0))], 1, (concat [g]), [zp 0 0]. split; [exact E|]. split.
  { exists [[to_local moved_top (zh 10 0 0)]]. split; [constructor; [cbn; eauto|constructor]|].
    cbn [concat app map]. vm_compute. reflexivity. }
  split; [reflexivity|]. destruct D1 as (u & a & d & c & -> & _ & _ & _ & (C1 & _ & _ & _ & _ & C2)).
  exists c. split; [cbn; auto|]. split; [exact C1|]. rewrite C2. vm_compute. reflexivity.
Qed.
Lemma ex_negative_depth : exists cmds, drill_gen (Some ex_holes) (Some (- qz 2)) ex_job = Ok cmds /\
  drill_gen (Some ex_holes) (Some (qz 2)) ex_job = Ok cmds.
Proof.
  destruct ex_drill as (cmds & E & _). exists cmds. split; [|exact E]. rewrite <- E. unfold drill_gen.
  assert (A : forall p q, holes ex_job (- qz 2) p q = holes ex_job (qz 2) p q); [|cbn [rbind]; destruct (mapM _ _); [|reflexivity]; cbn [rbind]; destruct (concat a); [reflexivity|]; destruct (order_points _ _ _); [cbn [rbind]; rewrite A; reflexivity|reflexivity]].
  intros p q. revert p. induction q as [|q l IH]; intros p; [reflexivity|]. cbn [holes].
  replace (hole ex_job (- qz 2) p q) with (hole ex_job (qz 2) p q); [rewrite IH; reflexivity|].
  unfold hole. replace (qabs (- qz 2)) with (qabs (qz 2)) by (apply Qc_is_canon; reflexivity). reflexivity.
Qed.

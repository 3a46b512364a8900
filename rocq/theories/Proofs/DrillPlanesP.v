(** * For which planes holes are drilled in place (C49) *)
From Verif Require Import Base.Str Base.Py Model.Geometry Model.Plane Model.Drill Spec.Paths Spec.Moves Spec.Drills Proofs.DrillP Proofs.DrillEx Proofs.RouteEx.
Local Open Scope Qc_scope.
Local Open Scope list_scope.

Lemma own_inverse_same top v : own_inverse top -> vx (to_world top v) = vx (to_local top v) /\ vy (to_world top v) = vy (to_local top v).
Proof.
  intros (A & B & C & D & E). unfold to_world, to_local, vadd, vscale, vsub, dot in *. cbn [vx vy vz] in *.
  set (ox := vx (p_origin top)) in *. set (oy := vy (p_origin top)) in *. set (oz := vz (p_origin top)) in *.
  split.
  - transitivity (ox + (vx v * vx (p_xdir top) + (vy v * vy (p_xdir top) + vz v * vz (p_xdir top)))); [rewrite A, B; reflexivity|].
    transitivity ((vx v - ox) * vx (p_xdir top) + (vy v - oy) * vy (p_xdir top) + (vz v - oz) * vz (p_xdir top) +
      (ox + (ox * vx (p_xdir top) + oy * vy (p_xdir top) + oz * vz (p_xdir top)))); [ring|rewrite D; ring].
  - transitivity (oy + (vx v * vx (p_ydir top) + (vy v * vy (p_ydir top) + vz v * vz (p_ydir top)))); [rewrite C, <- A; reflexivity|].
    transitivity ((vx v - ox) * vx (p_ydir top) + (vy v - oy) * vy (p_ydir top) + (vz v - oz) * vz (p_ydir top) +
      (oy + (ox * vx (p_ydir top) + oy * vy (p_ydir top) + oz * vz (p_ydir top)))); [ring|rewrite E; ring].
Qed.

Lemma drill_own_inverse os d j cmds : own_inverse (j_top j) -> drill_gen (Some os) (Some d) j = Ok cmds ->
  exists p pts order groups, wanted_holes (to_local (j_top j)) os (p :: pts) /\ nearest_first p pts order /\
    cmds = map Motion (concat groups) /\
    Forall2 (drilled (j_op_safe_height j) (- qabs d) (j_feed j)) (p :: order) groups.
Proof.
  intros HT H. destruct (drill_nearest _ _ _ _ H) as (p & pts & order & groups & W & N).
  exists p, pts, order, groups. split; [|exact N]. revert W. apply wanted_ext. intros v. apply own_inverse_same. exact HT.
Qed.

(** If it agrees for the origin and the unit vectors the plane is of this kind. *)
Definition same_view (top : plane) (v : vec) : bool :=
  qeqb (vx (to_world top v)) (vx (to_local top v)) && qeqb (vy (to_world top v)) (vy (to_local top v)).
Lemma probes top : forallb (same_view top) [V3 0 0 0; V3 1 0 0; V3 0 1 0; V3 0 0 1] = true -> own_inverse top.
Proof.
  intros H. rewrite forallb_forall in H.
  assert (G : forall v, In v [V3 0 0 0; V3 1 0 0; V3 0 1 0; V3 0 0 1] ->
    vx (to_world top v) = vx (to_local top v) /\ vy (to_world top v) = vy (to_local top v)).
  { intros v I. specialize (H v I). apply andb_true_iff in H. rewrite !qeqb_eq in H. exact H. }
  clear H. destruct (G (V3 0 0 0)) as [A0 B0]; [left; reflexivity|].
  destruct (G (V3 1 0 0)) as [A1 B1]; [right; left; reflexivity|]. destruct (G (V3 0 1 0)) as [A2 B2]; [right; right; left; reflexivity|].
  destruct (G (V3 0 0 1)) as [A3 B3]; [right; right; right; left; reflexivity|]. clear G.
  unfold to_world, to_local, own_inverse, vadd, vscale, vsub, dot in *. cbn [vx vy vz] in *.
  set (ox := vx (p_origin top)) in *. set (oy := vy (p_origin top)) in *. set (oz := vz (p_origin top)) in *.
  destruct (p_xdir top) as [xx xy xz]. destruct (p_ydir top) as [yx yy yz]. destruct (p_zdir top) as [zx zy zz]. cbn [vx vy vz] in *. clearbody ox oy oz.
  assert (K : forall a b : Qc, a - b = 0 -> a = b) by (intros a b HH; rewrite <- (Qcplus_0_r b), <- HH; ring).
  assert (Z : forall a b c d : Qc, a = b -> c = d -> (a - b) - (c - d) = 0) by (intros; subst; ring).
  split; [|split; [|split; [|split]]].
  - apply K. rewrite <- (Z _ _ _ _ A0 A2). ring.
  - apply K. rewrite <- (Z _ _ _ _ A0 A3). ring.
  - apply K. rewrite <- (Z _ _ _ _ B0 B3). ring.
  - transitivity (ox + (0 * xx + (0 * yx + 0 * zx)) - ((0 - ox) * xx + (0 - oy) * xy + (0 - oz) * xz)); [ring|]. rewrite A0. ring.
  - transitivity (oy + (0 * xy + (0 * yy + 0 * zy)) - ((0 - ox) * yx + (0 - oy) * yy + (0 - oz) * yz)); [ring|]. rewrite B0. ring.
Qed.

Lemma drill_one v d j : exists cmds m, drill_gen (Some [DVector v]) (Some d) j = Ok (map Motion cmds) /\
  In m cmds /\ straight_cut m /\ xy (m_end m) = Some (vx (to_world (j_top j) v), vy (to_world (j_top j) v)).
Proof.
  destruct (drill_gen_errors (Some [DVector v]) (Some d) j) as (_ & _ & _ & _ & H).
  destruct (H [DVector v] eq_refl) as (cs & E); [discriminate|discriminate|constructor; [exact I|constructor]|intros [C|[]]; discriminate|].
  destruct (drill_gen_spec _ _ _ _ E) as (p & pts & order & groups & (vss & HV & HP) & N & -> & D & _).
  inversion HV as [|? ? ? ? H1 H2]; subst. inversion H2; subst. cbn [hole_centers] in H1. subst.
  cbn [concat app map] in HP. injection HP as -> ->. destruct (nearest_inv _ _ _ N) as [[_ ->]|(a & ? & ? & ? & C & _)]; [|destruct a; discriminate].
  inversion D as [|? g ? ? D1 D2]; subst. inversion D2; subst. destruct D1 as (u & a & dn & c & -> & _ & _ & _ & (C1 & _ & _ & _ & _ & C2)).
  exists (concat [[u; a; dn; c]]), c. split; [exact E|]. split; [cbn; auto|]. split; [exact C1|exact C2].
Qed.

(** All other planes: some hole is drilled somewhere else. *)
Lemma drill_elsewhere j d : ~ own_inverse (j_top j) -> exists v cmds m p,
  drill_gen (Some [DVector v]) (Some d) j = Ok (map Motion cmds) /\ In m cmds /\ straight_cut m /\ xy (m_end m) = Some p /\
  p <> (vx (to_local (j_top j) v), vy (to_local (j_top j) v)).
Proof.
  intros N. set (vs := [V3 0 0 0; V3 1 0 0; V3 0 1 0; V3 0 0 1]).
  destruct (forallb (same_view (j_top j)) vs) eqn:F; [destruct (N (probes _ F))|].
  assert (exists v, same_view (j_top j) v = false) as (v & HV).
  { clear - F. induction vs as [|v vs IH]; [discriminate|]. cbn [forallb] in F. apply andb_false_iff in F. destruct F as [F|F]; [exists v; exact F|auto]. }
  destruct (drill_one v d j) as (cmds & m & E & I & S & X). exists v, cmds, m. eexists. split; [exact E|]. split; [exact I|]. split; [exact S|]. split; [exact X|].
  intros C. pose proof (f_equal fst C) as C1. pose proof (f_equal snd C) as C2. cbn [fst snd] in C1, C2. unfold same_view in HV. rewrite (proj2 (qeqb_eq _ _) C1), (proj2 (qeqb_eq _ _) C2) in HV. discriminate.
Qed.

(** A job seen from below, its origin anywhere on the YZ plane. *)
Definition below_top : plane := PL (zh 0 7 (-5)) (V3 1 0 0) (V3 0 (- (1)) 0) (V3 0 0 (- (1))).
Lemma below_own_inverse : own_inverse below_top /\ ~ own_inverse moved_top.
Proof.
  split.
  - repeat split; apply qeqb_eq; vm_compute; reflexivity.
  - intros (_ & _ & _ & C & _). apply qeqb_eq in C. vm_compute in C. discriminate.
Qed.

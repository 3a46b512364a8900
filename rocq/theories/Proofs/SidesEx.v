(** An example for C84. *)
From Verif Require Import Base.Str Base.Py Model.Geometry Model.Plane Model.Edges Model.PocketOp
  Spec.Paths Spec.Moves Spec.Wires Spec.Pockets Spec.PocketCq Spec.Sides
  Proofs.RouteEx Proofs.ProfileEx Proofs.PocketEx Proofs.PocketOpEx.
Import Model.Pocket.
From Coq Require Import QArith.
Local Open Scope Qc_scope.
Local Open Scope list_scope.

Definition east : pt := (1, 0).
Lemma reach_east a : reach east a = fst a.
Proof. unfold reach, east. cbn [fst snd]. ring. Qed.

Lemma box_right p : match box_of p with (_, _, c, _) => p <> [] -> forall lim, within east lim p -> c <= lim end.
Proof.
  destruct p as [|[x y] l]; [cbn; congruence|]. cbn [box_of].
  assert (G : forall l a b c d, match fold_left (fun '(a, b, c, d) '(x, y) => (qmin a x, qmin b y, qmax c x, qmax d y)) l (a, b, c, d) with
     (_, _, c', _) => forall lim, c <= lim -> (forall q, In q l -> fst q <= lim) -> c' <= lim end).
  { clear. induction l as [|[x y] l IH]; intros a b c d; [cbn; auto|]. cbn [fold_left]. specialize (IH (qmin a x) (qmin b y) (qmax c x) (qmax d y)).
    destruct (fold_left _ l _) as [[[a' b'] c'] d']. intros lim HC HQ. apply IH; [|intros q Hq; apply HQ; right; exact Hq].
    unfold qmax. destruct (qltb c x); [apply (HQ (x, y)); left; reflexivity|exact HC]. }
  specialize (G l x y x y). destruct (fold_left _ l _) as [[[a' b'] c'] d']. intros _ lim HW.
  apply G; [change x with (fst (x, y)); rewrite <- reach_east; apply HW; left; reflexivity|]. intros q Hq. rewrite <- reach_east. apply HW. right; exact Hq.
Qed.

Lemma box_stays : stays_within box_engine east.
Proof.
  split; [|split].
  - intros p o pr raw lim HO HE HW. cbn [box_engine en_offset] in HE. pose proof (box_right p) as HB.
    destruct p as [|p0 p]; [|].
    { cbn [box_of] in HE. destruct (qltb (0 - o) (0 + o)) eqn:Q; [apply qltb_lt in Q; exfalso; apply (Qclt_not_le _ _ Q); qlra|].
      cbn [andb] in HE. injection HE as <-. constructor. }
    destruct (box_of (p0 :: p)) as [[[a b] c] d]. destruct (qltb (a - o) (c + o)) eqn:Q1; [|cbn [andb] in HE; injection HE as <-; constructor].
    cbn [andb] in HE. destruct (qltb (b - o) (d + o)); injection HE as <-; constructor; [|constructor].
    apply qltb_lt in Q1. specialize (HB ltac:(discriminate) lim HW).
    intros q [<-|[<-|[<-|[<-|[]]]]]; rewrite reach_east; cbn [fst]; qlra.
  - intros ss t lim HE HW. cbn in HE. destruct ss as [|s [|]]; try discriminate HE. injection HE as <-. inversion HW; subst. repeat constructor. assumption.
  - intros ss cs t lim HE HW. cbn in HE. destruct cs; [|discriminate HE]. injection HE as <-. rewrite Forall_forall in *.
    intros nd Hn. apply in_map_iff in Hn. destruct Hn as (s & <- & Hs). cbn. apply HW, Hs.
Qed.

Lemma line_right i a b lim v : vx a <= lim -> vx b <= lim -> of_edge (map_edge (to_local plane_xy) (line i false a b)) v -> vx v <= lim.
Proof.
  assert (X : forall u, vx (to_local plane_xy u) = vx u).
  { intros u. unfold to_local, plane_xy, dot, vsub. cbn [vx vy vz p_origin p_xdir p_ydir p_zdir]. ring. }
  intros HA HB [->|[->|(t & T0 & T1 & ->)]];
    unfold travel_start, travel_end, travel_pos, map_edge, line; cbn [e_reversed e_startPoint e_endPoint e_pos]; rewrite X; try assumption.
  unfold mix. cbn [vx vadd vscale]. qnra.
Qed.
Lemma free_edges : forall f e v, In f [rface 0 0 10 8 (-2)] -> In e (fk_outer rect_fk (fk_transform rect_fk (j_top ex_job) f)) ->
  of_edge e v -> reach east (vx v, vy v) <= qz 10.
Proof.
  intros f e v [<-|[]] He Hv. rewrite reach_east. cbn [fst].
  change (j_top ex_job) with plane_xy in He.
  cbn [rect_fk fk_outer fk_transform rf_outer rface zrect rectangle map] in He.
  destruct He as [<-|[<-|[<-|[<-|[]]]]]; (eapply line_right; [| |exact Hv]); cbn [vx]; apply qz_le; discriminate.
Qed.

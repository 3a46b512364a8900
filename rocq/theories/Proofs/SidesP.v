(** How far the cuts of a pocket reach (C84). *)
From Verif Require Import Base.Str Base.Py Model.Geometry Model.Plane Model.Edges Model.Routers Model.Interp Model.PocketOp
  Spec.Paths Spec.Moves Spec.Wires Spec.Curves Spec.Contours Spec.Pockets Spec.PocketCq Spec.Sides
  Proofs.GeomP Proofs.MotionP Proofs.RouteP Proofs.RouteThmP Proofs.FillP Proofs.PocketP Proofs.StepdownP Proofs.InterpP Proofs.TabsP Proofs.PocketOpP.
From Coq Require Import QArith Permutation Lia.
Local Open Scope Qc_scope.
Local Open Scope list_scope.

(** ** Routing: all feed moves stay in any set containing the contours. *)
Lemma plunge_ends pp p0 d R S pf m :
  In m (rapid_to pp (V3 (fst p0) (snd p0) d) R (Some S) (Some pf)) -> ~ rapid m -> segment_of m p0 p0.
Proof.
  destruct (rapid_to_shape pp (V3 (fst p0) (snd p0) d) R (Some S) (Some pf)) as (tr & de & -> & HT & ->).
  cbn [vx vy vz] in *. intros HI NR.
  destruct HI as [<-|HI]; [contradiction NR; exact I|]. apply in_app_or in HI. destruct HI as [HI|HI].
  - destruct HT as [(-> & _)|(-> & _)]; [destruct HI|]. destruct HI as [<-|[]]. contradiction NR; exact I.
  - destruct HI as [<-|HI]; [contradiction NR; exact I|]. destruct (qltb d S); [|destruct HI]. destruct HI as [<-|[]].
    split; destruct p0; reflexivity.
Qed.

Lemma tour_on p es a b : tour p es -> In (a, b) es -> on_path a p /\ on_path b p.
Proof.
  intros HT HI. destruct (tour_along _ _ _ _ HT HI) as (u & v & H1 & H2 & H3). split; exists u, v; auto.
Qed.

Section Set_.
Context (P : pt -> Prop).
Definition contour_in (f : pathface) : Prop := (forall c, on_path c (pf_outer f) -> P c) /\ (forall a, In a (pf_outer f) -> P a).

Lemma routed_in j so fs : forall pe pp gs,
  Forall (fun f => closed_path (pf_outer f)) fs -> Forall contour_in fs ->
  (forall e, pe = Some e -> xy pp = Some e /\ P e) -> Proofs.RouteP.routed j so pe pp fs gs ->
  Forall (fun m => ~ rapid m -> exists a b, segment_of m a b /\ P a /\ P b) (concat gs).
Proof.
  induction fs as [|f fs IH]; intros pe pp gs HF HI HP H; inversion H; subst; [constructor|].
  inversion HF as [|? ? HF1 HF2]; subst. inversion HI as [|? ? HI1 HI2]; subst. cbn [concat] in *. destruct HI1 as [IC IV].
  match goal with HC : Proofs.RouteP.contour _ _ _ _ _ _ _ _ |- _ =>
    pose proof (contour_group _ _ _ _ _ _ _ _ HF1 HC) as (es & ch & G1 & G2 & G3 & _);
    pose proof (contour_end _ _ _ _ _ _ _ _ HC) as GE;
    rename HC into HC0 end.
  assert (PW : P we).
  { destruct HC0 as [p0 rest EO _|p0 rest e c EO _ HO|e c s i a b -> -> HN HO _ _ _ _].
    - apply IV. rewrite EO. destruct (@exists_last _ (p0 :: rest)) as (l & x & ->); [discriminate|]. rewrite last_last. apply in_or_app. right; left; reflexivity.
    - apply IC, HO.
    - apply IC. exists a, b. split; [eapply nth_error_In; exact HN|exact HO]. }
  rewrite Forall_app. split.
  - unfold g. rewrite Forall_app. split.
    + destruct HC0 as [p0 rest EO _|p0 rest e c EO _ _|e c s i a b -> -> HN HO _ _ _ _].
      * apply Forall_forall. intros m Hm NR. exists p0, p0. split; [eapply plunge_ends; eassumption|]. split; apply IV; rewrite EO; left; reflexivity.
      * apply Forall_forall. intros m Hm NR. exists p0, p0. split; [eapply plunge_ends; eassumption|]. split; apply IV; rewrite EO; left; reflexivity.
      * constructor; [|constructor]. intros _. destruct (HP e eq_refl) as [X1 X2]. exists e, c. split; [split; [exact X1|destruct c; reflexivity]|]. split; [exact X2|exact PW].
    + rewrite Forall_forall. intros m Hm _.
      destruct (Forall2_in_l _ _ _ _ G1 Hm) as ([a b] & HJ & HSeg). exists a, b. split; [exact HSeg|].
      apply in_app_or in HJ. destruct HJ as [HJ|HJ].
      * destruct (tour_on _ _ _ _ G2 HJ) as [T1 T2]. split; apply IC; assumption.
      * destruct G3 as [->|(a' & c' & -> & HD & HO)]; [destruct HJ|]. destruct HJ as [[= <- <-]|[]]. split; [|apply IC, HO].
        apply IV. destruct (pf_outer f); [discriminate|]. injection HD as ->. left; reflexivity.
  - match goal with HR' : Proofs.RouteP.routed _ _ _ _ fs _ |- _ => eapply (IH _ _ _ HF2 HI2); [|exact HR'] end.
    intros e [= <-]. split; [exact GE|exact PW].
Qed.

Lemma outers_in j fs so pp cmds : route_polyface_outers j fs so pp = Ok cmds ->
  (forall f, In f fs -> closed_path (pf_outer f)) -> (forall f, In f fs -> contour_in f) ->
  Forall (fun m => ~ rapid m -> exists a b, segment_of m a b /\ P a /\ P b) cmds.
Proof.
  intros H HF HI. destruct (route_polyfaces_routed _ _ _ _ _ _ H) as (gs & HG & ->).
  eapply routed_in; try eassumption; [apply Forall_forall; exact HF|apply Forall_forall; exact HI|discriminate].
Qed.
End Set_.

(** ** Lines *)
Lemma reach_between n lim a b c : reach n a <= lim -> reach n b <= lim -> on_segment c a b -> reach n c <= lim.
Proof.
  unfold reach. intros HA HB (t & T0 & T1 & ->). cbn [fst snd].
  set (x := fst n * fst a + snd n * snd a) in *. set (y := fst n * fst b + snd n * snd b) in *.
  replace (fst n * ((1 - t) * fst a + t * fst b) + snd n * ((1 - t) * snd a + t * snd b)) with ((1 - t) * x + t * y) by (unfold x, y; ring).
  clearbody x y. qnra.
Qed.
Lemma steps_in p a b : In (a, b) (steps p) -> In a p /\ In b p.
Proof.
  induction p as [|x [|y l] IH]; [intros []|intros []|]. cbn [steps]. intros [[= -> ->]|H]; [split; [left|right; left]; reflexivity|].
  destruct (IH H). split; right; assumption.
Qed.
Lemma within_contour n lim f : within n lim (pf_outer f) -> contour_in (fun c => reach n c <= lim) f.
Proof.
  intros H. split; [|exact H]. intros c (a & b & HS & HO). apply steps_in in HS. destruct HS as [HA HB].
  eapply reach_between; [apply H, HA|apply H, HB|exact HO].
Qed.
Lemma within_closes n lim p q : closes p q -> within n lim p -> within n lim q.
Proof.
  intros (_ & [->|(_ & a & l & -> & ->)]) H; [exact H|]. intros x Hx. apply in_app_or in Hx. destruct Hx as [Hx|[<-|[]]]; [apply H, Hx|apply H; left; reflexivity].
Qed.
Lemma within_le n l1 l2 p : l1 <= l2 -> within n l1 p -> within n l2 p.
Proof. intros HL H a Ha. eapply Qcle_trans; [apply H, Ha|exact HL]. Qed.

Section Pockets_.
Context (E : engine) (n : pt) (SW : stays_within E n).

Lemma offset_within p o pr raw outers lim : o <= 0 -> en_offset E p o pr = Ok raw ->
  Forall2 closes (filter (fun p => match p with [] => false | _ => true end) raw) outers -> within n lim p ->
  forall q, In q outers -> within n (lim + o) q.
Proof.
  intros HO HE HF HW q Hq. destruct SW as (S1 & _). specialize (S1 _ _ _ _ _ HO HE HW). rewrite Forall_forall in S1.
  destruct (Forall2_in_r _ _ _ _ HF Hq) as (x & Hx & K). eapply within_closes; [exact K|]. apply S1. apply filter_In in Hx. apply Hx.
Qed.

Lemma offset_face_within oo io pr f fs lim : oo <= 0 -> offset_face E oo io pr f fs -> within n lim (pf_outer f) ->
  forall g, In g fs -> within n (lim + oo) (pf_outer g).
Proof.
  intros HO (raw & outers & E1 & E2 & HR) HW g Hg. pose proof (offset_within _ _ _ _ _ _ HO E1 E2 HW) as HQ.
  destruct HR as [(_ & ->)|(_ & ins & t & _ & ET & HT)].
  - apply in_map_iff in Hg. destruct Hg as (o & <- & Ho). apply HQ, Ho.
  - destruct SW as (_ & _ & S3). specialize (S3 _ _ _ (lim + oo) ET). rewrite !Forall_forall in S3. specialize (S3 HQ).
    destruct (Forall2_in_r _ _ _ _ HT Hg) as (x & Hx & (_ & K & _)). eapply within_closes; [exact K|]. apply S3, Hx.
Qed.

Lemma level_within ops avoids d fs lim : level E ops avoids d fs -> (forall f, In f ops -> within n lim (pf_outer f)) ->
  forall g, In g fs -> within n lim (pf_outer g).
Proof.
  intros (here & ab & u & subj & t & HP & _ & EU & HU & ED & HT) HW g Hg. destruct SW as (_ & S2 & S3).
  specialize (S2 _ _ lim EU). rewrite !Forall_forall in S2.
  assert (HH : forall p, In p (map pf_outer here) -> within n lim p).
  { intros p Hp. apply in_map_iff in Hp. destruct Hp as (f & <- & Hf). apply HW. eapply Permutation_in in Hf; [|exact HP]. apply filter_In in Hf. apply Hf. }
  specialize (S2 HH). specialize (S3 _ _ _ lim ED). rewrite !Forall_forall in S3.
  assert (HS : forall p, In p subj -> within n lim p).
  { intros p Hp. destruct (Forall2_in_r _ _ _ _ HU Hp) as (x & Hx & K). eapply within_closes; [exact K|]. apply S2, Hx. }
  specialize (S3 HS). destruct (Forall2_in_r _ _ _ _ HT Hg) as (x & Hx & (_ & K & _)). eapply within_closes; [exact K|]. apply S3, Hx.
Qed.

Lemma reached_within pk step pr lim : 0 <= step -> within n lim (pf_outer pk) ->
  forall a c, reached (inward E pk step pr) (pf_outer pk) a c -> within n lim c.
Proof.
  intros HS HW a c HR. induction HR as [|a c l k c' R1 IH R2 R3]; [exact HW|].
  destruct R2 as (raw & cut & E1 & E2 & HC). assert (HN : - step <= 0) by qlra.
  assert (HQ : forall q, In q cut -> within n lim q).
  { intros q Hq. eapply within_le; [|eapply (offset_within _ _ _ _ _ _ HN E1 E2 IH _ Hq)]. qlra. }
  apply nth_error_In in R3. destruct HC as [(_ & ->)|(_ & _ & t & ET & HT)]; [apply HQ, R3|].
  destruct SW as (_ & _ & S3). specialize (S3 _ _ _ lim ET). rewrite !Forall_forall in S3. specialize (S3 HQ).
  destruct (Forall2_in_r _ _ _ _ HT R3) as (x & Hx & K). eapply within_closes; [exact K|]. apply S3, Hx.
Qed.

Lemma fill_within fuel pr so sd lim : 0 <= so -> forall ops before ss, fill_ops E fuel pr so sd before ops = Ok ss ->
  (forall f, In f ops -> within n lim (pf_outer f)) ->
  forall s f, In s ss -> In f s -> within n lim (pf_outer f).
Proof.
  intros HSO. induction ops as [|op ops IH]; intros before ss H HW s f Hs Hf; cbn [fill_ops] in H; [injection H as <-; destruct Hs|].
  apply rbind_ok in H. destruct H as (fill & EF & H). apply rbind_ok in H. destruct H as (stepped & ES & H).
  apply rbind_ok in H. destruct H as (rest & ER & H). injection H as <-.
  destruct (fill_pocket_spec _ _ _ _ _ _ EF) as (addrs & F1 & _).
  assert (HF : forall s f, In s fill -> In f s -> within n lim (pf_outer f)).
  { intros s1 f1 H1 H2. destruct (Forall2_in_r _ _ _ _ F1 H1) as (a1 & _ & F2). destruct (Forall2_in_r _ _ _ _ F2 H2) as (a2 & _ & (R & _)).
    eapply reached_within; [exact HSO|apply HW; left; reflexivity|exact R]. }
  apply in_app_or in Hs. destruct Hs as [Hs|Hs]; [|apply in_app_or in Hs; destruct Hs as [Hs|Hs]].
  - destruct sd as [x|]; [|injection ES as <-; destruct Hs]. destruct (qeqb x 0) eqn:E0; [injection ES as <-; destruct Hs|].
    apply rbind_ok in ES. destruct ES as (st & E1 & E2). destruct (stepdown_ok _ _ _ _ E2) as (d & _ & ->).
    apply in_flat_map in Hs. destruct Hs as (z & Hz & Hs). apply in_map_iff in Hs. destruct Hs as (s1 & <- & Hs1).
    apply in_map_iff in Hf. destruct Hf as (f1 & <- & Hf1). replace (pf_outer (clone_to_depth f1 z)) with (pf_outer f1) by (destruct f1; reflexivity).
    exact (HF _ _ Hs1 Hf1).
  - exact (HF _ _ Hs Hf).
  - eapply IH; [exact ER|intros g Hg; apply HW; right; exact Hg|exact Hs|exact Hf].
Qed.

Lemma pocket_within fuel j areas avoids oo io ao ai so sd cmds lim :
  pocket_clipper E fuel j areas avoids oo io ao ai so sd = Ok cmds -> oo <= 0 -> 0 <= so ->
  (forall f, In f areas -> within n lim (pf_outer f)) ->
  forall m, In m cmds -> ~ rapid m -> exists a b, segment_of m a b /\ forall c, on_segment c a b -> reach n c <= lim + oo.
Proof.
  unfold pocket_clipper. intros H HO HSO HW m Hm NR. apply rbind_ok in H. destruct H as (opss & E1 & H). apply rbind_ok in H. destruct H as (avss & E2 & H).
  apply rbind_ok in H. destruct H as (pockets & E3 & H). apply rbind_ok in H. destruct H as (ss & E4 & H).
  destruct (route_sequences_spec _ _ _ _ _ _ H) as (gs & -> & _ & HG).
  destruct (build_pocket_spec _ _ _ _ E3) as (ds & rs & -> & L2 & _).
  assert (H1 : forall f, In f (concat opss) -> within n (lim + oo) (pf_outer f)).
  { intros f Hf. apply in_concat in Hf. destruct Hf as (os & Hos & Hf). apply mapM_iff in E1. destruct (Forall2_in_r _ _ _ _ E1 Hos) as (a & Ha & EA).
    eapply offset_face_within; [exact HO|apply offset_face_spec; exact EA|apply HW, Ha|exact Hf]. }
  assert (H2 : forall f, In f (concat rs) -> within n (lim + oo) (pf_outer f) /\ closed_path (pf_outer f)).
  { intros g Hg. apply in_concat in Hg. destruct Hg as (r & Hr & Hg). destruct (Forall2_in_r _ _ _ _ L2 Hr) as (d & Hd & L).
    split; [eapply level_within; [exact L|exact H1|exact Hg]|apply (level_closed _ _ _ _ _ _ L Hg)]. }
  assert (H3 : forall s f, In s ss -> In f s -> within n (lim + oo) (pf_outer f)).
  { intros s f Hs Hf. eapply (fill_within _ _ _ _ _ HSO _ _ _ E4); [intros g Hg; apply H2, Hg|exact Hs|exact Hf]. }
  assert (H4 : forall s f, In s ss -> In f s -> closed_path (pf_outer f)).
  { intros s f Hs Hf.
    set (F := fold_right qmin 0 (map pf_depth (concat rs))).
    assert (MN : forall a b, qmin a b <= a /\ qmin a b <= b).
    { intros a b. unfold qmin. destruct (qltb b a) eqn:Q; [apply qltb_lt in Q|apply qltb_nlt in Q]; split; qlra. }
    assert (FF : F <= 0 /\ forall f, In f (concat rs) -> F <= pf_depth f).
    { subst F. clear - MN. induction (concat rs) as [|g l IH]; [split; [apply Qcle_refl|intros f []]|]. cbn [map fold_right].
      destruct (MN (pf_depth g) (fold_right qmin 0 (map pf_depth l))) as [M1 M2]. destruct IH as [I1 I2]. split; [eapply Qcle_trans; eassumption|].
      intros f [<-|Hf]; [exact M1|eapply Qcle_trans; [exact M2|apply I2, Hf]]. }
    eapply (fill_depths _ _ _ _ _ F _ _ _ E4); [apply FF|intros g []|apply FF|apply H2|exact Hs|exact Hf]. }
  apply in_concat in Hm. destruct Hm as (g & Hg & Hm). destruct (Forall2_in_r _ _ _ _ HG Hg) as (s & Hs & p & EP).
  pose proof (outers_in (fun c => reach n c <= lim + oo) _ _ _ _ _ EP (fun f Hf => H4 s f Hs Hf) (fun f Hf => within_contour _ _ _ (H3 s f Hs Hf))) as HI.
  rewrite Forall_forall in HI. destruct (HI m Hm NR) as (a & b & HSg & HA & HB). exists a, b. split; [exact HSg|].
  intros c Hc. exact (reach_between _ _ _ _ _ HA HB Hc).
Qed.
End Pockets_.

(** ** From the faces of the part *)
Lemma edge_samples basis e pr vs v : edge_to_vectors basis e pr = Ok vs -> In v vs -> of_edge e v.
Proof.
  intros H Hv. apply edge_vectors_spec in H. destruct H as [(_ & ->)|(_ & k & (K1 & K2 & K3) & _)].
  - destruct Hv as [<-|[<-|[]]]; [left|right; left]; reflexivity.
  - right; right. apply In_nth_error in Hv. destruct Hv as (i & Hi).
    assert (LI : (i < length vs)%nat) by (apply nth_error_Some; rewrite Hi; discriminate).
    rewrite K3 in Hi by lia. injection Hi as <-. exists (qz (Z.of_nat i) / qz (Z.of_nat k)).
    assert (PK : 0 < qz (Z.of_nat k)) by (apply (qz_lt 0); lia).
    split; [|split; [|reflexivity]].
    + apply le_qdiv; [exact PK|]. replace (0 * qz (Z.of_nat k)) with (qz 0) by (apply Qc_is_canon; cbn; ring). apply qz_le. lia.
    + apply qdiv_le; [exact PK|]. rewrite Qcmult_1_l. apply qz_le. lia.
Qed.
Lemma wire_samples veq basis es pr p q : wire_to_path veq basis es pr = Ok p -> In q p ->
  exists e v, In e es /\ of_edge e v /\ q = (vx v, vy v).
Proof.
  unfold wire_to_path. intros H Hq. apply rbind_ok in H. destruct H as (vs & HV & H). injection H as <-.
  unfold vectors_to_2d_tuples in Hq. apply in_map_iff in Hq. destruct Hq as (v & <- & Hv).
  enough (exists e, In e es /\ of_edge e v) as (e & H1 & H2) by (exists e, v; auto).
  unfold wire_to_vectors in HV. destruct es as [|e es]; [injection HV as <-; destruct Hv|].
  apply rbind_ok in HV. destruct HV as (s & Hs & HV). apply rbind_ok in HV. destruct HV as (rest & Hr & HV).
  set (J := s ++ concat (map (@tl vec) rest)) in *.
  assert (HJ : forall v, In v J -> exists e0, In e0 (e :: es) /\ of_edge e0 v).
  { intros x Hx. unfold J in Hx. apply in_app_or in Hx. destruct Hx as [Hx|Hx]; [exists e; split; [left; reflexivity|eapply edge_samples; eassumption]|].
    apply in_concat in Hx. destruct Hx as (l & Hl & Hx). apply in_map_iff in Hl. destruct Hl as (r & <- & Hl).
    apply mapM_iff in Hr. destruct (Forall2_in_r _ _ _ _ Hr Hl) as (e0 & He0 & EE). exists e0. split; [right; exact He0|].
    eapply edge_samples; [exact EE|]. destruct r; [destruct Hx|right; exact Hx]. }
  destruct (Nat.eqb (length J) 1); [discriminate|]. destruct J as [|v0 J']; [discriminate|]. cbn [andb negb] in HV.
  destruct (veq v0 (last (v0 :: J') v0)); cbn [andb negb] in HV; injection HV as <-; [apply HJ, Hv|].
  change (In v ((v0 :: J') ++ [v0])) in Hv. apply in_app_or in Hv. destruct Hv as [Hv|[<-|[]]]; [apply HJ, Hv|apply HJ; left; reflexivity].
Qed.

Lemma whole_within K WK F E fuel j areas avoids a cmds n lim r :
  pocket K WK F E fuel EngClipper j areas avoids a = Ok cmds -> tool_radius j = Some r ->
  stays_within E n -> outer_distance r avoids a <= 0 -> 0 <= distance r (pa_stepover a) (qq 1 2) ->
  (forall f e v, In f areas -> In e (fk_outer F (fk_transform F (j_top j) f)) -> of_edge e v -> reach n (vx v, vy v) <= lim) ->
  forall m, In m cmds -> ~ rapid m ->
    exists p q, segment_of m p q /\ forall c, on_segment c p q -> reach n c <= lim + outer_distance r avoids a.
Proof.
  intros H HR SW HO HS HE. destruct (pocket_clipper_ok _ _ _ _ _ _ _ _ _ _ H) as (r' & ps & qs & HR' & H1 & H2 & HP).
  rewrite HR in HR'. injection HR' as <-.
  eapply (pocket_within _ _ SW _ _ _ _ _ _ _ _ _ _ _ _ HP HO HS).
  intros p Hp x Hx. destruct (Forall2_in_r _ _ _ _ H1 Hp) as (f & Hf & K1). unfold from_cq_face in K1.
  destruct (negb _); [discriminate|]. apply rbind_ok in K1. destruct K1 as (outer & EO & K1). apply rbind_ok in K1. destruct K1 as (ins & _ & K1).
  injection K1 as <-. cbn [pf_outer] in Hx. destruct (wire_samples _ _ _ _ _ _ EO Hx) as (e & v & He & Hv & ->). exact (HE f e v Hf He Hv).
Qed.

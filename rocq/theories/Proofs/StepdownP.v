(** * Proofs: stepping down and whole pocket operations *)
From Verif Require Import Base.Py Model.Geometry Model.Tree Model.Pocket Spec.Paths Spec.Moves Spec.Contours Spec.Pockets
  Proofs.GeomP Proofs.RouteP Proofs.RouteThmP Proofs.FillP Proofs.PocketP.
Import Model.Pocket.
From Coq Require Import Permutation Arith Lia.
Local Open Scope Qc_scope.
Local Open Scope list_scope.

Lemma Forall2_map_same {A B C} (P : B -> C -> Prop) (f : A -> B) (g : A -> C) l :
  (forall a, In a l -> P (f a) (g a)) -> Forall2 P (map f l) (map g l).
Proof. induction l as [|a l IH]; intros H; constructor; [apply H; left; reflexivity|apply IH; intros b Hb; apply H; right; exact Hb]. Qed.
Lemma Forall2_self {A} (P : A -> A -> Prop) l : (forall a, In a l -> P a a) -> Forall2 P l l.
Proof. induction l as [|a l IH]; intros H; constructor; [apply H; left; reflexivity|apply IH; intros b Hb; apply H; right; exact Hb]. Qed.

Lemma Forall2_in_r {A B} (P : A -> B -> Prop) la lb y : Forall2 P la lb -> In y lb -> exists x, In x la /\ P x y.
Proof. induction 1 as [|a b la lb H _ IH]; intros Hy; [destruct Hy|]. destruct Hy as [<-|Hy]; [exists a; cbn; auto|]. destruct (IH Hy) as (x & Hx & K). exists x; cbn; auto. Qed.

Lemma Forall2_impl {A B} (P Q : A -> B -> Prop) la lb : (forall a b, P a b -> Q a b) -> Forall2 P la lb -> Forall2 Q la lb.
Proof. intros H. induction 1; constructor; auto. Qed.

Lemma clone_all ss d : Forall2 (Forall2 (at_depth d)) ss (map (map (fun f => clone_to_depth f d)) ss).
Proof.
  induction ss as [|s ss IH]; constructor; [|exact IH].
  induction s as [|f s IHs]; constructor; [|exact IHs]. destruct f; repeat split.
Qed.

Definition uniform (d : Qc) (ss : list (list pathface)) : Prop :=
  concat ss <> [] /\ forall f, In f (concat ss) -> pf_depth f = d.

Lemma stepdown_ok ss st s out : apply_stepdown ss st s = Ok out ->
  exists d, uniform d ss /\
    out = flat_map (fun z => map (map (fun f => clone_to_depth f z)) ss) (arange (dflt st 0 - s) d (- s)).
Proof.
  unfold apply_stepdown. intros H. destruct (concat ss) as [|f fs] eqn:EC; cbn [map] in H; [discriminate|].
  destruct (forallb (qeqb (pf_depth f)) (map pf_depth fs)) eqn:EF; [|discriminate]. injection H as <-.
  exists (pf_depth f). split.
  - split; [rewrite EC; discriminate|]. rewrite EC. intros g [->|Hg]; [reflexivity|].
    rewrite forallb_forall in EF. symmetry. apply qeqb_eq, EF, in_map, Hg.
  - destruct st as [x|]; cbn [dflt]; [reflexivity|]. replace (0 - s) with (- s) by (apply Qc_is_canon; qc2q; lra). reflexivity.
Qed.

Lemma stepdown_err ss st s e : apply_stepdown ss st s = Err e <-> e = RuntimeError /\ ~ exists d, uniform d ss.
Proof.
  unfold apply_stepdown. destruct (concat ss) as [|f fs] eqn:EC; cbn [map].
  - split; [intros H; injection H as <-; split; [reflexivity|]; intros (d & N & _); congruence|intros [-> _]; reflexivity].
  - destruct (forallb (qeqb (pf_depth f)) (map pf_depth fs)) eqn:EF.
    + split; [discriminate|]. intros [_ N]. exfalso. apply N. exists (pf_depth f). split; [rewrite EC; discriminate|].
      rewrite EC. intros g [->|Hg]; [reflexivity|]. rewrite forallb_forall in EF. symmetry. apply qeqb_eq, EF, in_map, Hg.
    + split; [intros H; injection H as <-|intros [-> _]; reflexivity]. split; [reflexivity|]. intros (d & _ & HD). rewrite EC in HD.
      assert (forallb (qeqb (pf_depth f)) (map pf_depth fs) = true); [|congruence].
      apply forallb_forall. intros x Hx. apply in_map_iff in Hx. destruct Hx as (g & <- & Hg). apply qeqb_eq.
      rewrite (HD f (or_introl eq_refl)), (HD g (or_intror Hg)). reflexivity.
Qed.

Lemma stepdown_spec ss st s out : 0 < s -> apply_stepdown ss st s = Ok out ->
  exists d, uniform d ss /\ exists ds css, steps_by s (dflt st 0) d ds /\ out = concat css /\
    Forall2 (fun z cs => Forall2 (Forall2 (at_depth z)) ss cs) ds css.
Proof.
  intros Hs H. destruct (stepdown_ok _ _ _ _ H) as (d & HU & ->). exists d. split; [exact HU|].
  exists (arange (dflt st 0 - s) d (- s)), (map (fun z => map (map (fun f => clone_to_depth f z)) ss) (arange (dflt st 0 - s) d (- s))).
  split; [apply arange_down, Hs|]. split; [apply flat_map_concat_map|].
  rewrite <- (map_id (arange (dflt st 0 - s) d (- s))) at 1. apply Forall2_map_same. intros z _. apply clone_all.
Qed.

(** Values of [arange] lie between its ends. *)
Lemma arange_between s st z x : s <> 0 -> In x (arange (st - s) z (- s)) -> (0 < s /\ z < x) \/ (s < 0 /\ st <= x).
Proof.
  intros Hs H. destruct (Qclt_le_dec 0 s) as [P|N].
  - left. split; [exact P|]. pose proof (arange_down s st z P) as K. revert K H. generalize (arange (st - s) z (- s)). intros l.
    revert st. induction l as [|y l IH]; intros st HS Hx; [destruct Hx|destruct Hx as [->|Hx]; [apply HS|eapply IH; [apply HS|exact Hx]]].
  - assert (N' : s < 0) by (destruct (Qcle_lt_or_eq _ _ N); [assumption|contradiction]). right. split; [exact N'|].
    unfold arange in H. apply in_map_iff in H. destruct H as (k & <- & _).
    assert (0 <= qz (Z.of_nat k)) by (rewrite <- qz_0; apply qz_le; lia).
    assert (0 <= qz (Z.of_nat k) * (- s)) by (apply qmul_pos; qlra). qlra.
Qed.

(** ** Start depth *)
Lemma filterM_ok {A} (f : A -> result bool) l r : filterM f l = Ok r ->
  (forall a, In a l -> exists b, f a = Ok b) /\ (forall a, In a r <-> In a l /\ f a = Ok true).
Proof.
  revert r. induction l as [|a l IH]; intros r H; cbn [filterM] in H.
  - injection H as <-. split; [intros a []|intros a; cbn; tauto].
  - apply rbind_ok in H. destruct H as (b & Eb & H). apply rbind_ok in H. destruct H as (k & Ek & H). injection H as <-.
    destruct (IH _ Ek) as [I1 I2]. split.
    + intros x [<-|Hx]; eauto.
    + intros x. destruct b; cbn [In]; rewrite I2; split; intuition (subst; auto; congruence).
Qed.
Lemma smallest_spec l : match smallest l with
  | None => l = []
  | Some m => In m l /\ forall d, In d l -> m <= d
  end.
Proof.
  induction l as [|d l IH]; [reflexivity|]. cbn [smallest]. destruct (smallest l) as [m|].
  - destruct IH as [I1 I2]. unfold qmin. destruct (qltb m d) eqn:Q.
    + apply qltb_lt in Q. split; [right; exact I1|]. intros x [<-|Hx]; [apply Qclt_le_weak, Q|apply I2, Hx].
    + apply qltb_nlt in Q. split; [left; reflexivity|]. intros x [<-|Hx]; [apply Qcle_refl|]. eapply Qcle_trans; [exact Q|apply I2, Hx].
  - subst l. split; [left; reflexivity|]. intros x [<-|[]]. apply Qcle_refl.
Qed.
Lemma start_spec E op before o : determine_stepdown_start_depth E op before = Ok o -> start_depth E before op (dflt o 0).
Proof.
  unfold determine_stepdown_start_depth. intros H. apply rbind_ok in H. destruct H as (cs & EC & H). injection H as <-.
  destruct (filterM_ok _ _ _ EC) as [T I]. pose proof (smallest_spec (map pf_depth cs)) as S. destruct (smallest (map pf_depth cs)) as [m|].
  - left. destruct S as [S1 S2]. apply in_map_iff in S1. destruct S1 as (f & <- & Hf). apply I in Hf. exists f. cbn [dflt].
    split; [apply Hf|]. split; [apply Hf|]. split; [reflexivity|]. intros g Hg1 Hg2. apply S2, in_map, I. auto.
  - right. apply map_eq_nil in S. subst cs. split; [|reflexivity]. intros f Hf. destruct (T f Hf) as (b & Eb). rewrite Eb. f_equal.
    destruct b; [|reflexivity]. destruct (proj2 (I f) (conj Hf Eb)).
Qed.

(** ** The sequences of all pockets *)
Lemma fill_ops_spec E fuel pr so sd : forall ops before ss, fill_ops E fuel pr so sd before ops = Ok ss ->
  pocketed E so sd pr before ops ss.
Proof.
  induction ops as [|op ops IH]; intros before ss H; cbn [fill_ops] in H.
  - injection H as <-. constructor.
  - apply rbind_ok in H. destruct H as (fill & EF & H). apply rbind_ok in H. destruct H as (stepped & ES & H).
    apply rbind_ok in H. destruct H as (rest & ER & H). injection H as <-. rewrite app_assoc. constructor; [|apply IH, ER].
    exists stepped, fill. split; [reflexivity|]. pose proof (fill_pocket_spec _ _ _ _ _ _ EF) as FS. split; [exact FS|].
    destruct sd as [s|]; [|injection ES as <-; reflexivity]. destruct (qeqb s 0) eqn:E0.
    + injection ES as <-. apply qeqb_eq in E0. subst s. split; [reflexivity|]. intros C. exfalso. exact (Qclt_not_le _ _ C (Qcle_refl _)).
    + split; [intros ->; rewrite qeqb_refl in E0; discriminate|]. intros Hs. apply rbind_ok in ES. destruct ES as (st & E1 & E2).
      destruct (stepdown_spec _ _ _ _ Hs E2) as (d & (NE & HD) & ds & css & HS & -> & HC).
      exists (dflt st 0), ds. split; [apply start_spec, E1|]. split; [|exists css; auto].
      assert (d = pf_depth op) as <-; [|exact HS]. destruct FS as (addrs & F1 & _).
      destruct fill as [|s0 fill]; [contradiction NE; reflexivity|].
      destruct (concat (s0 :: fill)) as [|f fs] eqn:EC; [contradiction NE; reflexivity|].
      assert (Hf : In f (concat (s0 :: fill))) by (rewrite EC; left; reflexivity). symmetry. rewrite <- (HD f (or_introl eq_refl)). symmetry.
      apply in_concat in Hf. destruct Hf as (s1 & H1 & H2).
      destruct (Forall2_in_r _ _ _ _ F1 H1) as (a1 & _ & F2). destruct (Forall2_in_r _ _ _ _ F2 H2) as (a2 & _ & F3). apply F3.
Qed.

Lemma fill_depths E fuel pr so sd F : forall ops before ss, fill_ops E fuel pr so sd before ops = Ok ss ->
  F <= 0 -> (forall f, In f before -> F <= pf_depth f) -> (forall f, In f ops -> F <= pf_depth f) ->
  (forall f, In f ops -> closed_path (pf_outer f)) ->
  forall s f, In s ss -> In f s -> F <= pf_depth f /\ closed_path (pf_outer f).
Proof.
  induction ops as [|op ops IH]; intros before ss H F0 HB HO HC s f Hs Hf; cbn [fill_ops] in H.
  - injection H as <-. destruct Hs.
  - apply rbind_ok in H. destruct H as (fill & EF & H). apply rbind_ok in H. destruct H as (stepped & ES & H).
    apply rbind_ok in H. destruct H as (rest & ER & H). injection H as <-.
    pose proof (fill_pocket_spec _ _ _ _ _ _ EF) as FS. destruct FS as (addrs & F1 & _ & _ & _).
    assert (HF : forall s f, In s fill -> In f s -> pf_depth f = pf_depth op /\ closed_path (pf_outer f)).
    { intros s1 f1 H1 H2. destruct (Forall2_in_r _ _ _ _ F1 H1) as (a1 & _ & F2). destruct (Forall2_in_r _ _ _ _ F2 H2) as (a2 & _ & (R & _ & D)).
      split; [exact D|]. destruct R as [|a c l k c' R1 R2 R3]; [apply HC; left; reflexivity|].
      destruct R2 as (raw & cut & _ & R5 & [(_ & ->)|(_ & _ & t & _ & R6)]).
      - apply nth_error_In in R3. destruct (Forall2_in_r _ _ _ _ R5 R3) as (x & _ & K). apply K.
      - apply nth_error_In in R3. destruct (Forall2_in_r _ _ _ _ R6 R3) as (x & _ & K). apply K. }
    apply in_app_or in Hs. destruct Hs as [Hs|Hs]; [|apply in_app_or in Hs; destruct Hs as [Hs|Hs]].
    + destruct sd as [x|]; [|injection ES as <-; destruct Hs]. destruct (qeqb x 0) eqn:E0; [injection ES as <-; destruct Hs|].
      apply rbind_ok in ES. destruct ES as (st & E1 & E2). destruct (stepdown_ok _ _ _ _ E2) as (d & (NE & HD) & ->).
      assert (EX : exists f0, In f0 (concat fill)) by (destruct (concat fill) as [|f0 l]; [contradiction NE; reflexivity|exists f0; left; reflexivity]).
      destruct EX as (f0 & Hf0). assert (Ed : d = pf_depth op).
      { rewrite <- (HD f0 Hf0). apply in_concat in Hf0. destruct Hf0 as (s0 & H1 & H2). apply (HF s0 f0 H1 H2). }
      assert (HST : F <= dflt st 0).
      { destruct (start_spec _ _ _ _ E1) as [(g & Hg & _ & <- & _)|[_ ->]]; [apply HB, Hg|exact F0]. }
      apply in_flat_map in Hs. destruct Hs as (z & Hz & Hs). apply in_map_iff in Hs. destruct Hs as (s1 & <- & Hs1).
      apply in_map_iff in Hf. destruct Hf as (f1 & <- & Hf1).
      assert (PD : forall f z, pf_depth (clone_to_depth f z) = z /\ pf_outer (clone_to_depth f z) = pf_outer f) by (intros []; split; reflexivity).
      destruct (PD f1 z) as [-> ->]. split; [|apply (HF s1 f1 Hs1 Hf1)].
      assert (NZ : x <> 0) by (intros ->; rewrite qeqb_refl in E0; discriminate).
      destruct (arange_between _ _ _ _ NZ Hz) as [[_ K]|[_ K]].
      * subst d. apply Qclt_le_weak. eapply Qcle_lt_trans; [apply HO; left; reflexivity|exact K].
      * eapply Qcle_trans; [exact HST|exact K].
    + destruct (HF s f Hs Hf) as [-> K]. split; [apply HO; left; reflexivity|exact K].
    + eapply IH; [exact ER|exact F0| | | |exact Hs|exact Hf].
      * intros g Hg. apply in_app_or in Hg. destruct Hg as [Hg|[<-|[]]]; [apply HB, Hg|apply HO; left; reflexivity].
      * intros g Hg. apply HO; right; exact Hg.
      * intros g Hg. apply HC; right; exact Hg.
Qed.

(** ** Routing the sequences *)
Lemma route_sequences_spec j so : forall ss d pp cmds, route_sequences j so d pp ss = Ok cmds ->
  exists gs, cmds = concat gs /\ continuous pp cmds /\
    Forall2 (fun s g => exists p, route_polyface_outers j s (Some so) (Some p) = Ok g) ss gs.
Proof.
  induction ss as [|s ss IH]; intros d pp cmds H; cbn [route_sequences] in H.
  - injection H as <-. exists []. repeat split; constructor.
  - apply rbind_ok in H. destruct H as (g & EG & H).
    assert (H2 : exists rest, route_sequences j so true (last_end g pp) ss = Ok rest /\ cmds = g ++ rest).
    { destruct g as [|m g], d; try discriminate H; apply rbind_ok in H; destruct H as (rest & ER & H); injection H as <-; exists rest; auto. }
    destruct H2 as (rest & ER & ->). destruct (IH _ _ _ ER) as (gs & -> & HC & HF). exists (g :: gs). split; [reflexivity|]. split.
    + apply continuous_app. split; [apply (outers_safe _ _ _ _ _ EG)|]. rewrite <- last_end_after. exact HC.
    + constructor; [eauto|exact HF].
Qed.

Lemma offset_face_spec E oo io pr f fs : offset_polyface E f oo io pr = Ok fs -> offset_face E oo io pr f fs.
Proof.
  unfold offset_polyface, offset_face. intros H. apply rbind_ok in H. destruct H as (outers & EO & H).
  apply offset_path_iff in EO. destruct EO as (raw & E1 & E2). exists raw, outers. split; [exact E1|]. split; [exact E2|].
  destruct (pf_inners f) as [|i ins] eqn:EI; [left; injection H as <-; auto|right]. split; [discriminate|].
  apply rbind_ok in H. destruct H as (l & EL & H). apply difference_iff in H. destruct H as (t & ET & HT).
  exists l, t. split; [|split; [exact ET|exact HT]]. apply mapM_iff in EL. revert EL. apply Forall2_iff. intros a b. symmetry. apply offset_path_iff.
Qed.
Lemma offset_face_depth E oo io pr f fs g : offset_face E oo io pr f fs -> In g fs -> pf_depth g = pf_depth f.
Proof.
  intros (raw & outers & _ & _ & [(_ & ->)|(_ & ins & t & _ & _ & HT)]) Hg.
  - apply in_map_iff in Hg. destruct Hg as (o & <- & _). reflexivity.
  - destruct (Forall2_in_r _ _ _ _ HT Hg) as (n & _ & (D & _)). exact D.
Qed.

Lemma level_closed E ops avoids d fs f : level E ops avoids d fs -> In f fs -> pf_depth f = d /\ closed_path (pf_outer f).
Proof.
  intros (here & ab & u & subj & t & _ & _ & _ & _ & _ & HT) Hf. destruct (Forall2_in_r _ _ _ _ HT Hf) as (n & _ & (D & (C & _) & _)). auto.
Qed.

Lemma pocket_parts E fuel j areas avoids oo io ao ai so sd cmds :
  pocket_clipper E fuel j areas avoids oo io ao ai so sd = Ok cmds ->
  exists opss avss pockets sequences gs,
    Forall2 (offset_face E oo io (j_precision j)) areas opss /\
    Forall2 (offset_face E ao ai (j_precision j)) avoids avss /\
    levels E (concat opss) (concat avss) pockets /\
    fill_ops E fuel (j_precision j) so sd [] pockets = Ok sequences /\
    cmds = concat gs /\
    Forall2 (fun s g => exists ks, g = concat ks /\ Forall2 group_ok s ks) sequences gs.
Proof.
  unfold pocket_clipper. intros H. apply rbind_ok in H. destruct H as (opss & E1 & H). apply rbind_ok in H. destruct H as (avss & E2 & H).
  apply rbind_ok in H. destruct H as (pockets & E3 & H). apply rbind_ok in H. destruct H as (ss & E4 & H).
  destruct (route_sequences_spec _ _ _ _ _ _ H) as (gs & -> & _ & HG).
  pose proof (build_pocket_spec _ _ _ _ E3) as HL.
  exists opss, avss, pockets, ss, gs.
  split; [apply mapM_iff in E1; eapply Forall2_impl; [|exact E1]; intros a b; apply offset_face_spec|].
  split; [apply mapM_iff in E2; eapply Forall2_impl; [|exact E2]; intros a b; apply offset_face_spec|].
  split; [destruct HL as (ds & rs & L1 & L2 & L3 & L4 & _); exists ds, rs; auto|].
  split; [exact E4|]. split; [reflexivity|].
  assert (HC : forall s f, In s ss -> In f s -> closed_path (pf_outer f)).
  { intros s f Hs Hf. destruct HL as (ds & rs & -> & L2 & _).
    assert (HP : forall f, In f (concat rs) -> closed_path (pf_outer f)).
    { intros g Hg. apply in_concat in Hg. destruct Hg as (r & Hr & Hg). destruct (Forall2_in_r _ _ _ _ L2 Hr) as (d & _ & L). apply (level_closed _ _ _ _ _ _ L Hg). }
    set (F := fold_right qmin 0 (map pf_depth (concat rs))).
    assert (MN : forall a b, qmin a b <= a /\ qmin a b <= b).
    { intros a b. unfold qmin. destruct (qltb b a) eqn:Q; [apply qltb_lt in Q|apply qltb_nlt in Q]; split; qlra. }
    assert (FF : F <= 0 /\ forall f, In f (concat rs) -> F <= pf_depth f).
    { subst F. clear - MN. induction (concat rs) as [|g l IH]; [split; [apply Qcle_refl|intros f []]|]. cbn [map fold_right].
      destruct (MN (pf_depth g) (fold_right qmin 0 (map pf_depth l))) as [M1 M2]. destruct IH as [I1 I2]. split; [eapply Qcle_trans; eassumption|].
      intros f [<-|Hf]; [exact M1|eapply Qcle_trans; [exact M2|apply I2, Hf]]. }
    eapply (fill_depths _ _ _ _ _ F _ _ _ E4); [apply FF|intros g []|apply FF|exact HP|exact Hs|exact Hf]. }
  clear - HG HC. induction HG as [|s g ss gs (p & Hg) _ IH]; constructor.
  - destruct (outers_groups _ _ _ _ _ Hg) as (ks & -> & K); [|eauto]. intros f Hf. eapply HC; [left; reflexivity|exact Hf].
  - apply IH. intros s' f Hs Hf. eapply HC; [right; exact Hs|exact Hf].
Qed.

Lemma pocket_spec E fuel j areas avoids oo io ao ai so sd cmds :
  pocket_clipper E fuel j areas avoids oo io ao ai so sd = Ok cmds ->
  exists opss avss pockets sequences gs,
    Forall2 (offset_face E oo io (j_precision j)) areas opss /\
    Forall2 (offset_face E ao ai (j_precision j)) avoids avss /\
    levels E (concat opss) (concat avss) pockets /\
    pocketed E so sd (j_precision j) [] pockets sequences /\
    cmds = concat gs /\
    Forall2 (fun s g => exists ks, g = concat ks /\ Forall2 group_ok s ks) sequences gs.
Proof.
  intros H. destruct (pocket_parts _ _ _ _ _ _ _ _ _ _ _ _ H) as (opss & avss & pockets & ss & gs & H1 & H2 & H3 & H4 & H5).
  apply fill_ops_spec in H4. exists opss, avss, pockets, ss, gs. auto.
Qed.

Lemma pocket_floor E fuel j areas avoids oo io ao ai so sd cmds F :
  pocket_clipper E fuel j areas avoids oo io ao ai so sd = Ok cmds ->
  F <= 0 -> (forall f, In f areas -> F <= pf_depth f) -> F <= j_op_safe_height j -> F <= j_rapid_height j ->
  continuous av_none cmds /\ Forall (above F) cmds /\
  Forall (fun m => rapid m -> safe_rapid (j_rapid_height j) (j_op_safe_height j) m) cmds /\
  Forall (fun m => ~ rapid m -> exists d, F <= d /\ ok_feed (j_op_safe_height j) (j_plunge_feed j) (j_feed j) d m) cmds.
Proof.
  unfold pocket_clipper. intros H F0 HA HS HR. apply rbind_ok in H. destruct H as (opss & E1 & H). apply rbind_ok in H. destruct H as (avss & E2 & H).
  apply rbind_ok in H. destruct H as (pockets & E3 & H). apply rbind_ok in H. destruct H as (ss & E4 & H).
  destruct (route_sequences_spec _ _ _ _ _ _ H) as (gs & -> & HC & HG).
  destruct (build_pocket_spec _ _ _ _ E3) as (ds & rs & -> & L2 & _ & L4 & _).
  assert (HP : forall f, In f (concat rs) -> F <= pf_depth f /\ closed_path (pf_outer f)).
  { intros g Hg. apply in_concat in Hg. destruct Hg as (r & Hr & Hg). destruct (Forall2_in_r _ _ _ _ L2 Hr) as (d & Hd & L).
    destruct (level_closed _ _ _ _ _ _ L Hg) as [-> K]. split; [|exact K]. apply L4 in Hd. destruct Hd as (f & Hf & <-).
    apply in_concat in Hf. destruct Hf as (os & Hos & Hf). apply mapM_iff in E1. destruct (Forall2_in_r _ _ _ _ E1 Hos) as (a & Ha & EA).
    rewrite (offset_face_depth _ _ _ _ _ _ _ (offset_face_spec _ _ _ _ _ _ EA) Hf). apply HA, Ha. }
  assert (HD : forall s f, In s ss -> In f s -> F <= pf_depth f).
  { intros s f Hs Hf. eapply (fill_depths _ _ _ _ _ F _ _ _ E4); [exact F0|intros g []|apply HP|apply HP|exact Hs|exact Hf]. }
  assert (HM : forall m, In m (concat gs) -> (rapid m -> safe_rapid (j_rapid_height j) (j_op_safe_height j) m) /\
     (~ rapid m -> exists d, F <= d /\ ok_feed (j_op_safe_height j) (j_plunge_feed j) (j_feed j) d m)).
  { intros m Hm. apply in_concat in Hm. destruct Hm as (g & Hg & Hm). destruct (Forall2_in_r _ _ _ _ HG Hg) as (s & Hs & p & EP).
    destruct (outers_safe _ _ _ _ _ EP) as (_ & P1 & P2). rewrite Forall_forall in P1, P2. split; [apply P1, Hm|]. intros N.
    destruct (P2 m Hm N) as (f & Hf & K). exists (pf_depth f). split; [eapply HD; eassumption|exact K]. }
  split; [exact HC|].
  assert (HEND : Forall (fun m => forall z, az (m_end m) = Some z -> F <= z) (concat gs)).
  { apply Forall_forall. intros m Hm z Hz. destruct (HM m Hm) as [M1 M2]. destruct m as [k a b c|a b c d e|b0 a b c d e f0].
    - specialize (M1 I). destruct M1 as [(_ & K)|[(_ & K)|(_ & _ & K)]]; rewrite K in Hz; injection Hz as <-; assumption.
    - destruct M2 as (d0 & Hd & [K|(_ & _ & K)]); [intros []| |]; [destruct K as (_ & _ & _ & K & _)|]; rewrite K in Hz; injection Hz as <-; exact Hd.
    - destruct M2 as (d0 & Hd & [K|(_ & _ & K)]); [intros []| |]; [destruct K as (_ & _ & _ & K & _)|]; rewrite K in Hz; injection Hz as <-; exact Hd. }
  split; [|split; apply Forall_forall; intros m Hm; apply HM, Hm].
  clear - HC HEND. assert (HP : forall z, az av_none = Some z -> F <= z) by discriminate. revert HC HP HEND. generalize av_none.
  induction (concat gs) as [|m l IH]; intros p HC HP HE; constructor.
  - destruct HC as [<- _]. inversion HE; subst. split; assumption.
  - inversion HE; subst. eapply IH; [apply HC|assumption|assumption].
Qed.
